(** Theorems about the outbursts of X-ray binaries: C347, C348, C349. *)
From Coq Require Import String Reals Lra Lia ZArith List Bool Permutation.
From Verif Require Import Base Depth_Model Depth_Proofs Template_Model Sky_Proofs Pop_Model Pop_Spec Runs_Spec Plane_Spec Pop_Props Pop_Props2.
From Verif Require Runs_Props.
Import ListNotations.
Open Scope R_scope.

(** * The shape of an outburst *)
Lemma sqrt_split r d : 0 < r -> 0 < d -> sqrt (r / d) = sqrt (r * d) / d.
Proof.
  intros R0 D0. replace (r / d) with ((r * d) / (d * d)) by (field; lra). rewrite sqrt_div by nra. rewrite sqrt_square by lra. reflexivity.
Qed.
Lemma fred_exponent r d t : 0 < r -> 0 < d -> 0 < t -> 2 * sqrt (r / d) + (- r / t - t / d) = - ((t - sqrt (r * d)) * (t - sqrt (r * d))) / (t * d).
Proof.
  intros R0 D0 T0. rewrite sqrt_split by assumption. assert (S2 : sqrt (r * d) * sqrt (r * d) = r * d) by (apply sqrt_sqrt; nra). set (s := sqrt (r * d)) in *.
  replace (- ((t - s) * (t - s))) with (- (t * t) + 2 * t * s - s * s) by ring. rewrite S2. field. lra.
Qed.
Lemma fred_is t a r d : 0 < r -> 0 < d -> 0 < t -> fred t a r d = a * exp (- ((t - sqrt (r * d)) * (t - sqrt (r * d))) / (t * d)).
Proof.
  intros R0 D0 T0. unfold fred. destruct (Req_EM_T t 0) as [Z|_]; [lra|]. rewrite Rmult_assoc, <- exp_plus. rewrite fred_exponent by assumption. reflexivity.
Qed.

(** C347: the flux is largest, and the amplitude, at sqrt(rise * decay) and nowhere else *)
Theorem C347_peak : forall a r d t, 0 < a -> 0 < r -> 0 < d -> 0 < t ->
  0 < fred t a r d <= a /\ (fred t a r d = a <-> t = sqrt (r * d)) /\ fred 0 a r d = 0.
Proof.
  intros a r d t A0 R0 D0 T0. rewrite fred_is by assumption. set (s := sqrt (r * d)).
  assert (P : 0 < t * d) by nra. assert (E0 : 0 < exp (- ((t - s) * (t - s)) / (t * d))) by apply exp_pos.
  assert (Le : - ((t - s) * (t - s)) / (t * d) <= 0).
  { unfold Rdiv. assert (0 < / (t * d)) by (apply Rinv_0_lt_compat; exact P). assert (0 <= (t - s) * (t - s)) by (apply Rle_0_sqr). assert (0 <= ((t - s) * (t - s)) * / (t * d)) by (apply Rmult_le_pos; lra). lra. }
  assert (E1 : exp (- ((t - s) * (t - s)) / (t * d)) <= 1).
  { pose proof exp_0 as X0. destruct Le as [L|L]; [apply exp_increasing in L; lra|rewrite L; lra]. }
  split; [|split].
  - split; [nra|]. nra.
  - split.
    + intros H. assert (X : exp (- ((t - s) * (t - s)) / (t * d)) = 1) by (apply Rmult_eq_reg_l with a; lra).
      rewrite <- exp_0 in X. apply exp_inv in X. apply (f_equal (fun x => x * (t * d))) in X. unfold Rdiv in X. rewrite Rmult_assoc, Rinv_l in X by lra. nra.
    + intros ->. replace (- ((s - s) * (s - s)) / (s * d)) with 0 by (field; split; lra). rewrite exp_0. ring.
  - unfold fred. destruct (Req_EM_T 0 0); [reflexivity|lra].
Qed.
Print Assumptions C347_peak.

(** it rises until then and falls afterwards *)
Theorem C347_rise : forall a r d t u, 0 < a -> 0 < r -> 0 < d -> 0 < t -> t < u -> (u <= sqrt (r * d) -> fred t a r d < fred u a r d) /\ (sqrt (r * d) <= t -> fred u a r d < fred t a r d).
Proof.
  intros a r d t u A0 R0 D0 T0 U. unfold fred. destruct (Req_EM_T t 0) as [Z|_]; [lra|]. destruct (Req_EM_T u 0) as [Z|_]; [lra|].
  assert (K : 0 < a * exp (2 * sqrt (r / d))) by (apply Rmult_lt_0_compat; [exact A0|apply exp_pos]).
  assert (S2 : sqrt (r * d) * sqrt (r * d) = r * d) by (apply sqrt_sqrt; nra). assert (S0 : 0 <= sqrt (r * d)) by apply sqrt_pos. set (s := sqrt (r * d)) in *.
  assert (D : (- r / u - u / d) - (- r / t - t / d) = (u - t) * (r * d - t * u) / (t * u * d)) by (field; lra).
  assert (P : 0 < / (t * u * d)) by (apply Rinv_0_lt_compat; assert (0 < t * u) by nra; nra).
  split; intros H; apply Rmult_lt_compat_l; try exact K; apply exp_increasing.
  - assert (0 < (u - t) * (r * d - t * u) / (t * u * d)); [|lra]. apply Rmult_lt_0_compat; [|exact P]. apply Rmult_lt_0_compat; [lra|]. nra.
  - assert (0 < (u - t) * (t * u - r * d) / (t * u * d)).
    { apply Rmult_lt_0_compat; [|exact P]. apply Rmult_lt_0_compat; [lra|]. nra. }
    replace ((u - t) * (r * d - t * u) / (t * u * d)) with (- ((u - t) * (t * u - r * d) / (t * u * d))) in D by (field; lra). lra.
Qed.
Print Assumptions C347_rise.

(** the magnitude of an outburst; at its very start there is no flux *)
Definition OutburstMag (b : outburst) (t : R) (band : string) (m : R) : Prop :=
  (0 < t <= b_duration b /\ exists m0, Entry (b_abs b) band m0 /\ m = m0 - 2.5 * (ln (b_amplitude b * exp (2 * sqrt (b_rise b / b_decay b) - b_rise b / t - t / b_decay b)) / ln 10))
  \/ ((t < 0 \/ b_duration b < t) /\ m = 99).
Definition XShines (ax1 : list (string * R)) (b : outburst) (ebv dist t : R) (band : string) (m : R) : Prop :=
  exists m0 a, OutburstMag b t band m0 /\ Entry ax1 band a /\ m = m0 + a * ebv + (5 * (ln (dist * 1000) / ln 10) - 5).
Lemma fred_flat a r d t : a * exp (2 * sqrt (r / d)) * exp (- r / t - t / d) = a * exp (2 * sqrt (r / d) - r / t - t / d).
Proof. rewrite Rmult_assoc, <- exp_plus. do 2 f_equal. unfold Rdiv. ring. Qed.
Lemma xrb_shines ax1 b ebv dist t band o : 0 < b_duration b -> xrb_apparent ax1 b ebv dist t band = Ok o -> forall m, o = Some m <-> XShines ax1 b ebv dist t band m.
Proof.
  intros D0. unfold xrb_apparent, xrb_mag, dimmed.
  destruct (rleb 0 t && rleb t (b_duration b)) eqn:E.
  - apply andb_true_iff in E. rewrite !rleb_true in E.
    destruct (lookup (b_abs b) band) as [m0|] eqn:L; cbn [bind]; [|discriminate]. apply lookup_ok in L.
    destruct (lookup ax1 band) as [a|] eqn:L'; cbn [bind]; [|discriminate]. apply lookup_ok in L'. intros [= <-] m.
    destruct (Req_EM_T t 0) as [Z|Z].
    + split; [discriminate|]. intros (m1 & a' & [(T & _)|([T|T] & _)] & _); lra.
    + unfold fred. destruct (Req_EM_T t 0) as [Z'|_]; [contradiction|]. split.
      * intros [= <-]. eexists. exists a. split; [|split; [exact L'|]].
        -- left. split; [lra|]. exists m0. split; [exact L|reflexivity].
        -- unfold log10. rewrite (fred_flat (b_amplitude b) (b_rise b) (b_decay b) t). lra.
      * intros (m1 & a' & [(T & m2 & L2 & ->)|([T|T] & _)] & L3 & ->); [|lra|lra]. apply entry_dget in L, L2, L', L3. assert (m2 = m0) by congruence. assert (a' = a) by congruence. subst. f_equal.
        unfold log10. rewrite (fred_flat (b_amplitude b) (b_rise b) (b_decay b) t). lra.
  - cbn [bind]. destruct (lookup ax1 band) as [a|] eqn:L'; cbn [bind]; [|discriminate]. apply lookup_ok in L'. intros [= <-] m.
    assert (O : t < 0 \/ b_duration b < t).
    { apply andb_false_iff in E. rewrite !rleb_false in E. lra. }
    split.
    + intros [= <-]. exists 99, a. split; [right; auto|]. split; [exact L'|reflexivity].
    + intros (m1 & a' & [(T & _)|(_ & ->)] & L3 & ->); [lra|]. apply entry_dget in L', L3. assert (a' = a) by congruence. subst. reflexivity.
Qed.
(** the brightest an outburst gets *)
Theorem C347_brightest : forall b t band m m0, 0 < b_amplitude b -> 0 < b_rise b -> 0 < b_decay b -> OutburstMag b t band m -> 0 < t <= b_duration b -> Entry (b_abs b) band m0 ->
  m0 - 2.5 * (ln (b_amplitude b) / ln 10) <= m /\ (t = sqrt (b_rise b * b_decay b) -> m = m0 - 2.5 * (ln (b_amplitude b) / ln 10)).
Proof.
  intros b t band m m0 A0 R0 D0 [(T & m1 & L & ->)|(O & _)] T' L'; [|lra]. apply entry_dget in L, L'. assert (m1 = m0) by congruence. subst m1.
  assert (F : b_amplitude b * exp (2 * sqrt (b_rise b / b_decay b) - b_rise b / t - t / b_decay b) = fred t (b_amplitude b) (b_rise b) (b_decay b)).
  { unfold fred. destruct (Req_EM_T t 0) as [Z|_]; [lra|]. rewrite Rmult_assoc, <- exp_plus. do 2 f_equal. unfold Rdiv. ring. }
  rewrite F. destruct (C347_peak (b_amplitude b) (b_rise b) (b_decay b) t A0 R0 D0) as ((P1 & P2) & P3 & _); [lra|]. pose proof ln10_pos as T10. split.
  - assert (ln (fred t (b_amplitude b) (b_rise b) (b_decay b)) <= ln (b_amplitude b)) by (destruct P2 as [P2|P2]; [left; apply ln_increasing; assumption|rewrite P2; lra]).
    assert (ln (fred t (b_amplitude b) (b_rise b) (b_decay b)) / ln 10 <= ln (b_amplitude b) / ln 10) by (apply Rmult_le_compat_r; [left; apply Rinv_0_lt_compat; exact T10|assumption]). lra.
  - intros E. apply P3 in E. rewrite E. reflexivity.
Qed.
Print Assumptions C347_brightest.
(** the durations given to outbursts, rise + decay + ln(amplitude), reach past the peak *)
Theorem C347_peak_inside : forall a r d, 1 <= a -> 0 < r -> 0 < d -> 0 < sqrt (r * d) < (r + d) + ln a.
Proof.
  intros a r d A R0 D0. assert (L : 0 <= ln a) by (rewrite <- ln_1; destruct A as [A|A]; [left; apply ln_increasing; lra|rewrite <- A; lra]).
  assert (S0 : 0 < sqrt (r * d)) by (apply sqrt_lt_R0; nra). assert (S2 : sqrt (r * d) * sqrt (r * d) = r * d) by (apply sqrt_sqrt; nra). split; [exact S0|].
  assert (sqrt (r * d) < r + d); [|lra]. nra.
Qed.
Print Assumptions C347_peak_inside.
Example C347_case : exists b m, OutburstMag b 2 "r" m /\ m = -2 /\ 2 = sqrt (b_rise b * b_decay b) /\ 0 < 2 <= b_duration b.
Proof.
  exists {| b_rise := 1; b_decay := 4; b_amplitude := 100; b_duration := 9; b_abs := [("r", 3)]%string |}.
  assert (S4 : sqrt (1 * 4) = 2) by (replace (1 * 4) with (2 * 2) by ring; apply sqrt_square; lra).
  eexists. split; [|split; [|split]].
  - left. cbn [b_duration b_abs b_rise b_decay b_amplitude]. split; [lra|]. exists 3. split; [exists 0%nat; split; [reflexivity|intros; lia]|reflexivity].
  - pose proof ln10_pos as T. assert (S1 : sqrt (1 / 4) = 1 / 2) by (replace (1 / 4) with (1/2 * (1/2)) by field; apply sqrt_square; lra). rewrite S1.
    replace (2 * (1 / 2) - 1 / 2 - 2 / 4) with 0 by field. rewrite exp_0. replace (100 * 1) with (10 * 10) by ring. rewrite ln_mult by lra. replace ((ln 10 + ln 10) / ln 10) with 2 by (field; lra). lra.
  - cbn. rewrite S4. reflexivity.
  - cbn. lra.
Qed.

(** * When an outburst can be seen *)
Definition VisibleAt (ax1 : list (string * R)) (b : outburst) (ebv dist t : R) : Prop :=
  exists band depth m, In (band, depth) [("u", 23.9); ("g", 25); ("r", 24.7); ("i", 24); ("z", 23.3); ("y", 22.1)]%string /\ XShines ax1 b ebv dist t band m /\ m <= depth.
Lemma inc_filter (f : R -> bool) l : Increasing l -> Increasing (filter f l).
Proof.
  induction l as [|x l IH]; intros H; cbn [filter]; [exact H|]. specialize (IH (inc_tail _ _ H)). destruct (f x); [|exact IH].
  intros i j a c L A C. destruct i as [|i], j as [|j]; try lia.
  - cbn in A, C. injection A as <-. apply nth_error_In in C. apply filter_In in C. apply (inc_head x l); tauto.
  - cbn in A, C. apply (IH i j); auto; lia.
Qed.
Lemma visible_in_spec ax1 b ebv dist times band depth l : 0 < b_duration b -> Increasing times -> visible_in ax1 b ebv dist times band depth = Ok l ->
  Increasing l /\ forall t, In t l <-> In t times /\ exists m, XShines ax1 b ebv dist t band m /\ m <= depth.
Proof.
  intros D0 I. unfold visible_in. destruct (each _ times) as [mags|] eqn:E; cbn [bind]; [|discriminate]. intros [= <-]. apply each_spec in E.
  revert I. induction E as [|t o times mags H E IH]; intros I; cbn [combine filter map].
  - split; [intros i j x y _ X; destruct i; discriminate|]. intros t. cbn. tauto.
  - specialize (IH (inc_tail _ _ I)). destruct IH as [IH1 IH2]. cbn [snd]. pose proof (xrb_shines _ _ _ _ _ _ _ D0 H) as X.
    assert (Q : match o with Some m => rleb m depth | None => false end = true <-> exists m, XShines ax1 b ebv dist t band m /\ m <= depth).
    { destruct o as [m|].
      - rewrite rleb_true. split; [intros L; exists m; split; [apply X; reflexivity|exact L]|]. intros (m' & Y & L). apply X in Y. injection Y as <-. exact L.
      - split; [discriminate|]. intros (m' & Y & _). apply X in Y. discriminate. }
    destruct (match o with Some m => rleb m depth | None => false end).
    + cbn [map fst]. split.
      * intros i j a c L A C. destruct i as [|i], j as [|j]; try lia; cbn in A, C.
        -- injection A as <-. apply nth_error_In in C. apply IH2 in C. apply (inc_head t times); tauto.
        -- apply (IH1 i j); auto; lia.
      * intros u. cbn [In]. rewrite IH2. split; [intros [<-|H1]; [split; [auto|apply Q; reflexivity]|tauto]|tauto].
    + split; [exact IH1|]. intros u. rewrite IH2. cbn [In]. split; [tauto|]. intros ([<-|H1] & H2); [apply Q in H2; discriminate|tauto].
Qed.
Lemma inc_last x l : Increasing (x :: l) -> In (last l x) (x :: l) /\ forall y, In y (x :: l) -> x <= y <= last l x.
Proof.
  revert x. induction l as [|a l IH]; intros x I; [cbn; split; [auto|]; intros y [<-|[]]; lra|]. destruct (IH a (inc_tail _ _ I)) as [A B]. rewrite last_cons. split; [right; exact A|].
  assert (x < a) by (apply (inc_head x (a :: l)); [exact I|left; reflexivity]).
  intros y [<-|Y]; [specialize (B a (or_introl eq_refl)); lra|]. specialize (B y Y). lra.
Qed.
(** a range that is that of a set of times *)
Definition RangeOf (P : R -> Prop) (range : option (R * R)) : Prop :=
  match range with Some (a, z) => P a /\ P z /\ (forall t, P t -> a <= t <= z) | None => forall t, ~ P t end.
Lemma widen_spec P range l : RangeOf P range -> Increasing l -> RangeOf (fun t => P t \/ In t l) (widen range l).
Proof.
  intros H I. unfold widen. destruct l as [|x l].
  - destruct range as [[a z]|]; cbn in *; [|intros t [T|[]]; apply (H t T)]. destruct H as (A & Z & B). split; [auto|]. split; [auto|]. intros t [T|[]]. apply B. exact T.
  - destruct (inc_last x l I) as [L B]. destruct range as [[a z]|]; cbn in H |- *.
    + destruct H as (A & Z & C). destruct (rltb x a) eqn:E1; [apply rltb_true in E1|apply rltb_false in E1]; (destruct (rleb z (last l x)) eqn:E2; [apply rleb_true in E2|apply rleb_false in E2]).
      all: split; [cbn; auto|]; split; [first [left; exact Z|right; exact L]|].
      all: pose proof (C a A); pose proof (C z Z); pose proof (B x (or_introl eq_refl)); intros t [T|T]; [specialize (C t T)|specialize (B t T)]; lra.
    + split; [cbn; auto|]. split; [right; exact L|]. intros t [T|T]; [destruct (H t T)|]. apply B. exact T.
Qed.
Lemma range_ext (P Q : R -> Prop) r : (forall t, P t <-> Q t) -> RangeOf P r -> RangeOf Q r.
Proof.
  intros H. destruct r as [[a z]|]; cbn; [|intros N t T; apply (N t); apply H; exact T]. intros (A & Z & B). split; [apply H; exact A|]. split; [apply H; exact Z|]. intros t T. apply B, H. exact T.
Qed.
Lemma loop_spec ax1 b ebv dist times : 0 < b_duration b -> Increasing times -> forall bs P range out, RangeOf P range ->
  duration_loop ax1 b ebv dist times bs range = Ok out ->
  RangeOf (fun t => P t \/ In t times /\ exists band depth m, In (band, depth) bs /\ XShines ax1 b ebv dist t band m /\ m <= depth) out.
Proof.
  intros D0 I. induction bs as [|[f d] bs IH]; intros P range out H; cbn [duration_loop].
  - intros [= <-]. revert H. apply range_ext. intros t. split; [auto|]. intros [T|(_ & band & depth & m & [] & _)]. exact T.
  - destruct (visible_in ax1 b ebv dist times f d) as [l|] eqn:E; cbn [bind]; [|discriminate]. destruct (visible_in_spec _ _ _ _ _ _ _ _ D0 I E) as [L1 L2].
    intros O. pose proof (IH _ _ _ (widen_spec P range l H L1) O) as G. revert G. apply range_ext. intros t. rewrite L2. split.
    + intros [[T|(T & m & X & L)]|(T & band & depth & m & Y)]; [auto| |].
      * right. split; [exact T|]. exists f, d, m. split; [left; reflexivity|auto].
      * right. split; [exact T|]. exists band, depth, m. split; [right; tauto|tauto].
    + intros [T|(T & band & depth & m & [Y|Y] & X)]; [auto| |].
      * injection Y as <- <-. left. right. eauto.
      * right. split; [exact T|]. exists band, depth, m. auto.
Qed.
(** C348: the first and the last of the times at which the outburst is bright enough in one of the bands, or none *)
Theorem C348_range : forall ax1 b ebv dist times range, 0 < b_duration b -> Increasing times -> detectable_duration ax1 b ebv dist times = Ok range ->
  RangeOf (fun t => In t times /\ VisibleAt ax1 b ebv dist t) range.
Proof.
  intros ax1 b ebv dist times range D0 I H. unfold detectable_duration in H.
  pose proof (loop_spec ax1 b ebv dist times D0 I depths (fun _ => False) None range (fun t F => F) H) as G. revert G. apply range_ext. intros t. unfold VisibleAt, depths. split; [intros [[]|T]; exact T|auto].
Qed.
Print Assumptions C348_range.

(** * The answers *)
Definition XSeen (ax1 : list (string * R)) (b : outburst) (ebv dist start : R) (v : event_visit) : Prop := exists m, XShines ax1 b ebv dist (e_mjd v - start) (e_band v) m /\ m < e_m5 v.
Lemma xrb_seen_spec ax1 b ebv dist start vs ts : 0 < b_duration b -> xrb_seen ax1 b ebv dist start vs = Ok ts ->
  exists seen, Sub (XSeen ax1 b ebv dist start) vs seen /\ ts = map (fun v => e_mjd v - start) seen.
Proof.
  intros D0. unfold xrb_seen. destruct (each _ vs) as [ms|] eqn:E; cbn [bind]; [|discriminate]. intros [= <-]. apply each_spec in E.
  induction E as [|v o vs ms H E (seen & S1 & S2)]; cbn [combine filter map].
  - exists []. split; [constructor|reflexivity].
  - cbn [fst snd]. pose proof (xrb_shines _ _ _ _ _ _ _ D0 H) as X.
    assert (Q : match o with Some m => rltb m (e_m5 v) | None => false end = true <-> XSeen ax1 b ebv dist start v).
    { unfold XSeen. destruct o as [m|].
      - rewrite rltb_true. split; [intros L; exists m; split; [apply X; reflexivity|exact L]|]. intros (m' & Y & L). apply X in Y. injection Y as <-. exact L.
      - split; [discriminate|]. intros (m' & Y & _). apply X in Y. discriminate. }
    destruct (match o with Some m => rltb m (e_m5 v) | None => false end).
    + exists (v :: seen). split; [constructor; [apply Q; reflexivity|exact S1]|]. cbn [map fst]. rewrite S2. reflexivity.
    + exists seen. split; [constructor; [|exact S1]|exact S2]. intros F. apply Q in F. discriminate.
Qed.
Lemma steps_sum : forall l a, rsum (steps (a :: l)) = last l a - a /\ length (steps (a :: l)) = length l.
Proof.
  induction l as [|x l IH]; intros a; [cbn; split; [ring|reflexivity]|]. change (steps (a :: x :: l)) with ((x - a) :: steps (x :: l)). destruct (IH x) as [E1 E2].
  rewrite last_cons. cbn [length]. change (rsum (x - a :: steps (x :: l))) with (x - a + rsum (steps (x :: l))). rewrite E1, E2. split; [ring|reflexivity].
Qed.
Lemma last_snoc {A} (l : list A) x d : last (l ++ [x]) d = x.
Proof. induction l as [|a l IH]; [reflexivity|]. cbn [app]. destruct (l ++ [x]) eqn:E; [destruct l; discriminate|exact IH]. Qed.

(** C349: the answers about an outburst; the mean time between detections is the visible time divided by the number of detections plus one *)
Theorem C349_answers : forall ax1 pts pts_early t_early mjd0 b ebv dist start range vs r, 0 < b_duration b ->
  xrb_run ax1 pts pts_early t_early mjd0 b ebv dist start range vs = Ok r ->
  exists seen early, Sub (XSeen ax1 b ebv dist (mjd0 + start)) vs seen /\ Sub (fun v => e_mjd v - (mjd0 + start) <= t_early) seen early
  /\ (x_possible r = true <-> range <> None)
  /\ (x_ever r = true <-> (pts <= length seen)%nat) /\ (x_early r = true <-> (pts_early <= length early)%nat) /\ x_number r = length seen
  /\ ((2 <= length seen)%nat -> forall a z, range = Some (a, z) -> x_mean r = Some ((z - a) / (INR (length seen) + 1)))
  /\ ((length seen < 2)%nat -> x_mean r = Some (-999)).
Proof.
  intros ax1 pts pts_early t_early mjd0 b ebv dist start range vs r D0. unfold xrb_run.
  destruct (xrb_seen ax1 b ebv dist (mjd0 + start) vs) as [ts|] eqn:E; cbn [bind]; [|discriminate]. intros [= <-]. cbn [x_possible x_ever x_early x_number x_mean].
  destruct (xrb_seen_spec _ _ _ _ _ _ _ D0 E) as (seen & S1 & ->). rewrite map_length.
  exists seen, (filter (fun v => rleb (e_mjd v - (mjd0 + start)) t_early) seen). split; [exact S1|]. split; [|split; [|split; [|split; [|split; [|split]]]]].
  - apply Runs_Props.filter_sub. intros v. apply rleb_true.
  - destruct range; split; intros H; try discriminate; try reflexivity; congruence.
  - apply Nat.leb_le.
  - rewrite Nat.leb_le. replace (length (filter (fun t => rleb t t_early) (map (fun v => e_mjd v - (mjd0 + start)) seen))) with (length (filter (fun v => rleb (e_mjd v - (mjd0 + start)) t_early) seen)); [tauto|].
    clear. induction seen as [|v l IH]; cbn [map filter]; [reflexivity|]. destruct (rleb (e_mjd v - (mjd0 + start)) t_early); cbn; congruence.
  - reflexivity.
  - intros L a z ->. assert (N : Nat.ltb 1 (length seen) = true) by (apply Nat.ltb_lt; lia). rewrite N. cbv zeta. apply f_equal.
    destruct (steps_sum (map (fun v => e_mjd v - (mjd0 + start)) seen ++ [z]) a) as [X Y].
    set (w := map (fun v => e_mjd v - (mjd0 + start)) seen ++ [z]) in *. change (rsum (steps (a :: w)) / INR (length (steps (a :: w))) = (z - a) / (INR (length seen) + 1)). rewrite X, Y. unfold w. rewrite last_snoc, app_length, map_length, plus_INR. cbn [length INR]. reflexivity.
  - intros L. assert (N : Nat.ltb 1 (length seen) = false) by (apply Nat.ltb_ge; lia). rewrite N. reflexivity.
Qed.
Print Assumptions C349_answers.
(** so when the outburst was detected does not matter, only how often *)
Theorem C349_times_ignored : forall ax1 pts pe te mjd0 b ebv dist start a z vs vs' r r', 0 < b_duration b ->
  xrb_run ax1 pts pe te mjd0 b ebv dist start (Some (a, z)) vs = Ok r -> xrb_run ax1 pts pe te mjd0 b ebv dist start (Some (a, z)) vs' = Ok r' ->
  x_number r = x_number r' -> x_mean r = x_mean r'.
Proof.
  intros ax1 pts pe te mjd0 b ebv dist start a z vs vs' r r' D0 H H' N.
  destruct (C349_answers _ _ _ _ _ _ _ _ _ _ _ _ D0 H) as (s & e & _ & _ & _ & _ & _ & N1 & M1 & M2).
  destruct (C349_answers _ _ _ _ _ _ _ _ _ _ _ _ D0 H') as (s' & e' & _ & _ & _ & _ & _ & N1' & M1' & M2').
  assert (L : length s = length s') by congruence. destruct (le_lt_dec 2 (length s)) as [G|G].
  - rewrite (M1 G a z eq_refl). rewrite (M1' ltac:(lia) a z eq_refl). rewrite L. reflexivity.
  - rewrite (M2 G). rewrite M2' by lia. reflexivity.
Qed.
Print Assumptions C349_times_ignored.
(** what is reported: badval with fewer than two detections *)
Theorem C349_reported : forall ax1 pts pe te mjd0 b ebv dist start a z vs r badval, 0 < b_duration b -> a <= z ->
  xrb_run ax1 pts pe te mjd0 b ebv dist start (Some (a, z)) vs = Ok r ->
  reduce_mean badval (x_mean r) = Some (if Nat.ltb (x_number r) 2 then badval else (z - a) / (INR (x_number r) + 1)).
Proof.
  intros ax1 pts pe te mjd0 b ebv dist start a z vs r badval D0 L H.
  destruct (C349_answers _ _ _ _ _ _ _ _ _ _ _ _ D0 H) as (s & e & _ & _ & _ & _ & _ & N1 & M1 & M2). rewrite N1.
  destruct (Nat.ltb (length s) 2) eqn:E.
  - apply Nat.ltb_lt in E. rewrite (M2 E). cbn [reduce_mean]. assert (X : rltb (-999) 0 = true) by (apply rltb_true; lra). rewrite X. reflexivity.
  - apply Nat.ltb_ge in E. rewrite (M1 E a z eq_refl). cbn [reduce_mean]. assert (X : rltb ((z - a) / (INR (length s) + 1)) 0 = false).
    { apply rltb_false. apply Rmult_le_pos; [lra|]. left. apply Rinv_0_lt_compat. pose proof (pos_INR (length s)). lra. }
    rewrite X. reflexivity.
Qed.
Print Assumptions C349_reported.
