(** Theorems about the kilonova counts and the rate selection: C342, C343. *)
From Coq Require Import String Reals Lra Lia ZArith List Bool Permutation.
From Verif Require Import Base Depth_Model Depth_Proofs Template_Model Sky_Proofs Pop_Model Pop_Spec Runs_Spec Plane_Spec Pop_Props Pop_Props2.
From Verif Require Astrom_Model Runs_Props.
Import ListNotations.
Open Scope R_scope.

(** * When there is a result *)
Lemma ztf_ok s pts l : (0 < pts)%nat -> exists n, ztfrest s pts l = Ok n.
Proof.
  intros P. unfold ztfrest. destruct (Nat.ltb (length l) pts) eqn:E; [eauto|]. apply Nat.ltb_ge in E.
  destruct l as [|p l]; [cbn in E; lia|]. cbn [map]. destruct (rltb _ _); [eauto|].
  destruct (map _ (filter (selected s) (bands (p :: l)))); eauto.
Qed.
Definition Covered (curves : list curve) (ax1 : list (string * R)) (indx : nat) (band : string) : Prop :=
  exists lc ph mag a, nth_error curves indx = Some lc /\ Entry lc band (ph, mag) /\ Entry ax1 band a /\ length ph = length mag /\ ph <> [].
Lemma covered_apparent curves ax1 indx ebv d t band : Covered curves ax1 indx band -> exists m, apparent curves ax1 indx ebv d t band = Ok m.
Proof.
  intros (lc & ph & mag & a & H1 & H2 & H3 & H4 & H5). unfold apparent. apply arr_ok in H1. rewrite H1. cbn [bind].
  apply lookup_ok in H2, H3. rewrite H2. cbn [bind fst snd]. unfold interp99. rewrite H4, Nat.eqb_refl. cbn [negb].
  destruct ph as [|x ph]; [contradiction|]. destruct mag as [|y mag]; [discriminate|]. cbn [combine bind]. rewrite H3. cbn [bind]. eauto.
Qed.
Lemma covered_each curves ax1 indx ebv d start vs : (forall v, In v vs -> Covered curves ax1 indx (e_band v)) ->
  exists obs, each (observed (apparent curves ax1 indx ebv d) start) vs = Ok obs.
Proof.
  induction vs as [|v vs IH]; intros H; cbn [each]; [eauto|]. destruct (covered_apparent curves ax1 indx ebv d (e_mjd v - start) (e_band v)) as [m M]; [apply H; left; reflexivity|].
  unfold observed at 1. cbv zeta. rewrite M. cbn [bind]. destruct IH as [obs E]; [intros w W; apply H; right; exact W|]. rewrite E. cbn [bind]. eauto.
Qed.
Theorem C342_total : forall curves ax1 pts mjd0 peak indx ebv dist vs, (0 < pts)%nat -> (forall v, In v vs -> Covered curves ax1 indx (e_band v)) ->
  exists r, kn_run curves ax1 pts mjd0 peak indx ebv dist vs = Ok r.
Proof.
  intros curves ax1 pts mjd0 peak indx ebv dist vs P H. unfold kn_run. destruct (covered_each curves ax1 indx ebv (Some dist) (mjd0 + peak) vs H) as [obs ->]. cbn [bind]. cbv zeta.
  destruct (ztf_ok AllBands pts (filter kn_seen obs) P) as [a ->]. cbn [bind]. destruct (ztf_ok RedBands pts (filter kn_seen obs) P) as [b ->]. cbn [bind].
  destruct (ztf_ok BlueBands pts (filter kn_seen obs) P) as [c ->]. cbn [bind]. eauto.
Qed.
Print Assumptions C342_total.

(** with no number of detections needed an event that is never seen is an error *)
Theorem C342_zero_refuted : ~ (forall curves ax1 pts mjd0 peak indx ebv dist vs, (forall v, In v vs -> Covered curves ax1 indx (e_band v)) ->
  exists r, kn_run curves ax1 pts mjd0 peak indx ebv dist vs = Ok r).
Proof. intros H. destruct (H [] [] 0%nat 0 0 0%nat 0 1 []) as [r E]; [intros v []|]. discriminate E. Qed.
Print Assumptions C342_zero_refuted.

(** the order of the visits does not matter for the counts *)
Theorem C342_order : forall curves ax1 pts mjd0 peak indx ebv dist vs vs' r r', Permutation vs vs' ->
  kn_run curves ax1 pts mjd0 peak indx ebv dist vs = Ok r -> kn_run curves ax1 pts mjd0 peak indx ebv dist vs' = Ok r' -> AtLeast r r' /\ AtLeast r' r.
Proof.
  intros curves ax1 pts mjd0 peak indx ebv dist vs vs' r r' P H H'.
  apply kn_run_inv in H, H'. destruct H as (obs & E & A1 & A2 & A3 & A4 & _). destruct H' as (obs' & E' & B1 & B2 & B3 & B4 & _).
  assert (Q : Permutation obs obs').
  { clear A1 A2 A3 A4 B1 B2 B3 B4. revert obs obs' E E'. induction P as [|v l l' P IH|v w l|l l' l'' P IH P' IH']; intros obs obs'.
    - cbn. intros [= <-] [= <-]. constructor.
    - cbn [each]. destruct (observed _ _ v) as [p|]; cbn [bind]; [|discriminate]. destruct (each _ l) as [s|]; cbn [bind]; [|discriminate]. destruct (each _ l') as [s'|]; cbn [bind]; [|discriminate].
      intros [= <-] [= <-]. constructor. apply IH; reflexivity.
    - cbn [each]. destruct (observed _ _ v) as [p|]; cbn [bind]; [|destruct (observed _ _ w); discriminate]. destruct (observed _ _ w) as [q|]; cbn [bind]; [|discriminate].
      destruct (each _ l) as [s|]; cbn [bind]; [|discriminate]. intros [= <-] [= <-]. constructor.
    - intros E E'. assert (X : exists s, each (observed (apparent curves ax1 indx ebv (Some dist)) (mjd0 + peak)) l' = Ok s).
      { clear IH IH' E' obs' P'. revert obs E. induction P as [|v l l' P IH|v w l|l l' l3 P IH P' IH']; intros obs.
        - eauto.
        - cbn [each]. destruct (observed _ _ v) as [p|]; cbn [bind]; [|discriminate]. destruct (each _ l) as [s|]; cbn [bind]; [|discriminate].
          intros _. destruct (IH s eq_refl) as [s' ->]. cbn [bind]. eauto.
        - cbn [each]. destruct (observed _ _ v) as [p|]; cbn [bind]; [|destruct (observed _ _ w); discriminate]. destruct (observed _ _ w) as [q|]; cbn [bind]; [|discriminate].
          destruct (each _ l) as [s|]; cbn [bind]; [|discriminate]. eauto.
        - intros E. destruct (IH _ E) as [s S1]. apply (IH' _ S1). }
      destruct X as [s S1]. transitivity s; [apply IH|apply IH']; assumption. }
  assert (F : Permutation (filter kn_seen obs) (filter kn_seen obs')).
  { clear - Q. induction Q; cbn [filter].
    - constructor.
    - destruct (kn_seen x); [constructor|]; assumption.
    - destruct (kn_seen x), (kn_seen y); try apply Permutation_refl; constructor.
    - etransitivity; eassumption. }
  assert (M : More (filter kn_seen obs) (filter kn_seen obs')) by (exists []; rewrite app_nil_r; apply Permutation_map, Permutation_sym; exact F).
  assert (M' : More (filter kn_seen obs') (filter kn_seen obs)) by (exists []; rewrite app_nil_r; apply Permutation_map; exact F).
  unfold AtLeast. rewrite A1, A2, A3, A4, B1, B2, B3, B4.
  split; auto using more_multi, more_color, more_red, more_blue.
Qed.
Print Assumptions C342_order.

(** * The rate selection *)
Definition AnyBand (s : selection) (b : string) : Prop :=
  match s with AllBands => True | RedBands => OneOf ["i"; "z"; "y"]%string b | BlueBands => OneOf ["u"; "g"; "r"]%string b end.
Definition Letters (l : list point) : Prop := forall p, In p l -> OneOf ["u"; "g"; "r"; "i"; "z"; "y"]%string (o_band p).
(** an evolution in one band: between its brightest and its faintest detection, significant, over more than 3 hours,
    fading by 0.3 mag/day at least or rising by 1 mag/day at least *)
Definition Evolves (l : list point) (f : string) : Prop :=
  exists b a, FirstLeast o_mag (fun p => o_band p = f) l b /\ FirstLeast (fun p => - o_mag p) (fun p => o_band p = f) l a
  /\ 0.125 < Rabs (o_t a - o_t b) /\ o_mag b + o_unc b < o_mag a - o_unc a
  /\ ((o_t b < o_t a /\ 0.3 * (o_t a - o_t b) <= o_mag a - o_mag b) \/ (o_t a < o_t b /\ o_t b - o_t a <= o_mag a - o_mag b)).
Definition Spans (l : list point) : Prop := exists p q, In p l /\ In q l /\ 0.125 <= o_t q - o_t p.

Lemma list_max_spec : forall l x, (forall y, In y (x :: l) -> y <= list_max x l) /\ In (list_max x l) (x :: l).
Proof.
  induction l as [|a l IH]; intros x; cbn [list_max].
  - split; [intros y [<-|[]]; lra|left; reflexivity].
  - destruct (IH (Rmax x a)) as [A B]. split.
    + intros y [<-|[<-|I]].
      * specialize (A (Rmax x a) (or_introl eq_refl)). pose proof (Rmax_l x a). lra.
      * specialize (A (Rmax x a) (or_introl eq_refl)). pose proof (Rmax_r x a). lra.
      * apply A. right. exact I.
    + destruct B as [B|B]; [|right; right; exact B]. rewrite <- B. unfold Rmax. destruct (Rle_dec x a); cbn; auto.
Qed.
Lemma list_min_spec : forall l x, (forall y, In y (x :: l) -> list_min x l <= y) /\ In (list_min x l) (x :: l).
Proof.
  induction l as [|a l IH]; intros x; cbn [list_min].
  - split; [intros y [<-|[]]; lra|left; reflexivity].
  - destruct (IH (Rmin x a)) as [A B]. split.
    + intros y [<-|[<-|I]].
      * specialize (A (Rmin x a) (or_introl eq_refl)). pose proof (Rmin_l x a). lra.
      * specialize (A (Rmin x a) (or_introl eq_refl)). pose proof (Rmin_r x a). lra.
      * apply A. right. exact I.
    + destruct B as [B|B]; [|right; right; exact B]. rewrite <- B. unfold Rmin. destruct (Rle_dec x a); cbn; auto.
Qed.

(** the first extreme of a list *)
Lemma brightest_spec : forall l p, exists k, nth_error (p :: l) k = Some (brightest p l) /\ forall j y, nth_error (p :: l) j = Some y -> o_mag (brightest p l) <= o_mag y /\ ((j < k)%nat -> o_mag (brightest p l) < o_mag y).
Proof.
  induction l as [|q l IH]; intros p; cbn [brightest].
  - exists 0%nat. split; [reflexivity|]. intros [|j] y E; [injection E as <-; split; [lra|lia]|destruct j; discriminate].
  - destruct (rltb (o_mag q) (o_mag p)) eqn:E.
    + apply rltb_true in E. destruct (IH q) as (k & K & H). exists (S k). split; [exact K|]. intros [|j] y Y.
      * injection Y as <-. destruct (H 0%nat q eq_refl) as [H1 _]. split; [lra|intros; lra].
      * destruct (H j y Y) as [H1 H2]. split; [exact H1|]. intros L. apply H2. lia.
    + apply rltb_false in E. destruct (IH p) as (k & K & H). destruct k as [|k].
      * exists 0%nat. split; [exact K|]. intros [|[|j]] y Y.
        -- injection Y as <-. destruct (H 0%nat p eq_refl). split; [assumption|lia].
        -- injection Y as <-. destruct (H 0%nat p eq_refl). split; [lra|lia].
        -- destruct (H (S j) y Y). split; [assumption|lia].
      * exists (S (S k)). split; [exact K|]. assert (S0 : o_mag (brightest p l) < o_mag p) by (apply (H 0%nat p eq_refl); lia). intros [|[|j]] y Y.
        -- injection Y as <-. split; [lra|intros; lra].
        -- injection Y as <-. split; [lra|intros; lra].
        -- destruct (H (S j) y Y) as [H1 H2]. split; [exact H1|]. intros L. apply H2. lia.
Qed.
Lemma faintest_spec : forall l p, exists k, nth_error (p :: l) k = Some (faintest p l) /\ forall j y, nth_error (p :: l) j = Some y -> o_mag y <= o_mag (faintest p l) /\ ((j < k)%nat -> o_mag y < o_mag (faintest p l)).
Proof.
  induction l as [|q l IH]; intros p; cbn [faintest].
  - exists 0%nat. split; [reflexivity|]. intros [|j] y E; [injection E as <-; split; [lra|lia]|destruct j; discriminate].
  - destruct (rltb (o_mag p) (o_mag q)) eqn:E.
    + apply rltb_true in E. destruct (IH q) as (k & K & H). exists (S k). split; [exact K|]. intros [|j] y Y.
      * injection Y as <-. destruct (H 0%nat q eq_refl) as [H1 _]. split; [lra|intros; lra].
      * destruct (H j y Y) as [H1 H2]. split; [exact H1|]. intros L. apply H2. lia.
    + apply rltb_false in E. destruct (IH p) as (k & K & H). destruct k as [|k].
      * exists 0%nat. split; [exact K|]. intros [|[|j]] y Y.
        -- injection Y as <-. destruct (H 0%nat p eq_refl). split; [assumption|lia].
        -- injection Y as <-. destruct (H 0%nat p eq_refl). split; [lra|lia].
        -- destruct (H (S j) y Y). split; [assumption|lia].
      * exists (S (S k)). split; [exact K|]. assert (S0 : o_mag p < o_mag (faintest p l)) by (apply (H 0%nat p eq_refl); lia). intros [|[|j]] y Y.
        -- injection Y as <-. split; [lra|intros; lra].
        -- injection Y as <-. split; [lra|intros; lra].
        -- destruct (H (S j) y Y) as [H1 H2]. split; [exact H1|]. intros L. apply H2. lia.
Qed.
(** an element of a sublist has a place in the whole list, in the same order *)
Lemma filter_first {A} (f : A -> bool) (g : A -> R) : forall l k x, nth_error (filter f l) k = Some x ->
  (forall j y, nth_error (filter f l) j = Some y -> g x <= g y /\ ((j < k)%nat -> g x < g y)) ->
  exists K, nth_error l K = Some x /\ f x = true /\ forall j y, nth_error l j = Some y -> f y = true -> g x <= g y /\ ((j < K)%nat -> g x < g y).
Proof.
  induction l as [|a l IH]; intros k x; cbn [filter]; [destruct k; discriminate|].
  destruct (f a) eqn:E.
  - destruct k as [|k].
    + intros [= ->] H. exists 0%nat. split; [reflexivity|]. split; [exact E|]. intros j y Y F. split; [|lia].
      destruct j as [|j]; [injection Y as <-; lra|]. cbn in Y. assert (In y (filter f l)) by (apply filter_In; split; [eapply nth_error_In; eauto|exact F]).
      apply In_nth_error in H0. destruct H0 as [i I]. apply (H (S i) y I).
    + intros X H. cbn in X. destruct (IH k x X) as (K & K1 & K2 & K3).
      * intros j y Y. destruct (H (S j) y Y) as [H1 H2]. split; [exact H1|]. intros L. apply H2. lia.
      * exists (S K). split; [exact K1|]. split; [exact K2|]. intros [|j] y Y F.
        -- injection Y as <-. destruct (H 0%nat a eq_refl) as [H1 H2]. split; [exact H1|]. intros _. apply H2. lia.
        -- destruct (K3 j y Y F) as [H1 H2]. split; [exact H1|]. intros L. apply H2. lia.
  - intros X H. destruct (IH k x X H) as (K & K1 & K2 & K3). exists (S K). split; [exact K1|]. split; [exact K2|]. intros [|j] y Y F.
    + injection Y as <-. congruence.
    + destruct (K3 j y Y F) as [H1 H2]. split; [exact H1|]. intros L. apply H2. lia.
Qed.
Lemma first_least_unique {A} (g : A -> R) (P : A -> Prop) l x y : FirstLeast g P l x -> FirstLeast g P l y -> x = y.
Proof.
  intros (k & K & Px & H) (j & J & Py & G). destruct (Nat.lt_trichotomy j k) as [L|[->|L]]; [| congruence |].
  - destruct (H j y J Py) as [H1 H2]. destruct (G k x K Px) as [G1 _]. specialize (H2 L). lra.
  - destruct (G k x K Px) as [G1 G2]. destruct (H j y J Py) as [H1 _]. specialize (G2 L). lra.
Qed.
Lemma eqb_fun f : forall p : point, String.eqb (o_band p) f = true <-> o_band p = f.
Proof. intros p. apply String.eqb_eq. Qed.

(** the rate of one band against the thresholds *)
Lemma rate_evolves l f : (exists p, In p l /\ o_band p = f) ->
  let r := rate_of (filter (fun p => String.eqb (o_band p) f) l) in (min_fade <= r \/ r <= max_rise) <-> Evolves l f.
Proof.
  intros (p0 & I & B). cbv zeta. set (g := fun p => String.eqb (o_band p) f).
  destruct (filter g l) as [|p t] eqn:E.
  { exfalso. assert (In p0 (filter g l)) by (apply filter_In; split; [exact I|unfold g; apply String.eqb_eq; exact B]). rewrite E in H. destruct H. }
  cbn [rate_of]. cbv zeta. set (b := brightest p t). set (a := faintest p t).
  assert (Fb : FirstLeast o_mag (fun p => o_band p = f) l b).
  { destruct (brightest_spec t p) as (k & K & H). fold b in K, H. rewrite <- E in K, H. destruct (filter_first g o_mag l k b K H) as (K' & K1 & K2 & K3).
    exists K'. split; [exact K1|]. split; [apply String.eqb_eq; exact K2|]. intros j y Y P. apply (K3 j y Y). apply String.eqb_eq. exact P. }
  assert (Fa : FirstLeast (fun p => - o_mag p) (fun p => o_band p = f) l a).
  { destruct (faintest_spec t p) as (k & K & H). fold a in K, H. rewrite <- E in K, H. destruct (filter_first g (fun p => - o_mag p) l k a K) as (K' & K1 & K2 & K3).
    - intros j y Y. destruct (H j y Y) as [H1 H2]. split; [lra|]. intros L. specialize (H2 L). lra.
    - exists K'. split; [exact K1|]. split; [apply String.eqb_eq; exact K2|]. intros j y Y P. apply (K3 j y Y). apply String.eqb_eq. exact P. }
  assert (Ev : Evolves l f <-> 0.125 < Rabs (o_t a - o_t b) /\ o_mag b + o_unc b < o_mag a - o_unc a
     /\ ((o_t b < o_t a /\ 0.3 * (o_t a - o_t b) <= o_mag a - o_mag b) \/ (o_t a < o_t b /\ o_t b - o_t a <= o_mag a - o_mag b))).
  { split.
    - intros (b' & a' & Fb' & Fa' & H). rewrite (first_least_unique _ _ _ _ _ Fb Fb'), (first_least_unique _ _ _ _ _ Fa Fa'). exact H.
    - intros H. exists b, a. auto. }
  rewrite Ev. unfold min_dt, min_fade, max_rise.
  assert (Ge : o_mag b <= o_mag a).
  { destruct Fb as (k & K & P & H). destruct Fa as (j & J & P' & H'). apply (H j a J P'). }
  destruct (rltb 0.125 (Rabs (o_t a - o_t b))) eqn:D; [apply rltb_true in D|apply rltb_false in D]; cbn [andb].
  2:{ split; [intros [H|H]; lra|intros (H & _); lra]. }
  destruct (rltb (o_mag b + o_unc b) (o_mag a - o_unc a)) eqn:U; [apply rltb_true in U|apply rltb_false in U].
  2:{ split; [intros [H|H]; lra|intros (_ & H & _); lra]. }
  assert (NZ : o_t a - o_t b <> 0) by (intros Z; rewrite Z, Rabs_R0 in D; lra).
  split.
  - intros H. split; [exact D|]. split; [exact U|]. destruct (Rlt_dec (o_t b) (o_t a)) as [L|L].
    + left. split; [exact L|]. destruct H as [H|H].
      * apply (Rmult_le_compat_r (o_t a - o_t b)) in H; [|lra]. unfold Rdiv in H. rewrite Rmult_assoc, Rinv_l in H by exact NZ. lra.
      * exfalso. assert (0 <= (o_mag a - o_mag b) / (o_t a - o_t b)); [|lra]. apply Rmult_le_pos; [lra|]. apply Rlt_le, Rinv_0_lt_compat. lra.
    + right. assert (o_t a < o_t b) by lra. split; [assumption|]. destruct H as [H|H].
      * exfalso. assert (0 <= (o_mag a - o_mag b) / (o_t b - o_t a)) by (apply Rmult_le_pos; [lra|]; apply Rlt_le, Rinv_0_lt_compat; lra).
        replace ((o_mag a - o_mag b) / (o_t a - o_t b)) with (- ((o_mag a - o_mag b) / (o_t b - o_t a))) in H by (field; lra). lra.
      * replace ((o_mag a - o_mag b) / (o_t a - o_t b)) with (- ((o_mag a - o_mag b) / (o_t b - o_t a))) in H by (field; lra).
        assert (G : 1 <= (o_mag a - o_mag b) / (o_t b - o_t a)) by lra. apply (Rmult_le_compat_r (o_t b - o_t a)) in G; [|lra].
        unfold Rdiv in G. rewrite Rmult_assoc, Rinv_l in G by lra. lra.
  - intros (_ & _ & [(L & H)|(L & H)]).
    + left. apply Rmult_le_reg_r with (o_t a - o_t b); [lra|]. unfold Rdiv. rewrite Rmult_assoc, Rinv_l by exact NZ. lra.
    + right. replace ((o_mag a - o_mag b) / (o_t a - o_t b)) with (- ((o_mag a - o_mag b) / (o_t b - o_t a))) by (field; lra).
      assert (G : 1 <= (o_mag a - o_mag b) / (o_t b - o_t a)); [|lra]. apply Rmult_le_reg_r with (o_t b - o_t a); [lra|]. unfold Rdiv. rewrite Rmult_assoc, Rinv_l by lra. lra.
Qed.

Lemma spans_spec p l : rltb (list_max (o_t p) (map o_t l) - list_min (o_t p) (map o_t l)) min_dt = false <-> Spans (p :: l).
Proof.
  destruct (list_max_spec (map o_t l) (o_t p)) as [A1 A2]. destruct (list_min_spec (map o_t l) (o_t p)) as [B1 B2].
  change (o_t p :: map o_t l) with (map o_t (p :: l)) in *. rewrite rltb_false. unfold min_dt. split.
  - intros H. apply in_map_iff in A2, B2. destruct A2 as (q & Q & QI). destruct B2 as (s & S1 & SI). exists s, q. split; [exact SI|]. split; [exact QI|]. rewrite Q, S1. exact H.
  - intros (q & s & QI & SI & H). pose proof (A1 _ (in_map o_t _ _ SI)). pose proof (B1 _ (in_map o_t _ _ QI)). lra.
Qed.
Lemma selected_spec s l p : Letters l -> In p l -> (selected s (o_band p) = true <-> AnyBand s (o_band p)).
Proof.
  intros H I. specialize (H p I). unfold OneOf in *. cbn [In] in H.
  destruct s; cbn [selected AnyBand]; [tauto| |]; unfold in_izy, in_ugr, OneOf; cbn [In];
  (destruct H as [<-|[<-|[<-|[<-|[<-|[<-|[]]]]]]]; cbn; split; intros H; try reflexivity; try discriminate; intuition congruence).
Qed.

Lemma ztf_spec s pts l n : Letters l -> ztfrest s pts l = Ok n ->
  YesNo n ((pts <= length l)%nat /\ Spans l /\ exists f, AnyBand s f /\ Evolves l f).
Proof.
  intros Le. unfold ztfrest. destruct (Nat.ltb (length l) pts) eqn:E.
  { intros [= <-]. apply Nat.ltb_lt in E. right. split; [reflexivity|]. intros (H & _). lia. }
  apply Nat.ltb_ge in E. destruct l as [|p l]; [discriminate|]. cbn [map].
  pose proof (spans_spec p l) as Sp. destruct (rltb _ min_dt).
  { intros [= <-]. right. split; [reflexivity|]. intros (_ & H & _). apply Sp in H. discriminate. }
  assert (S1 : Spans (p :: l)) by (apply Sp; reflexivity). clear Sp.
  set (rates := map (fun f => rate_of (filter (fun q => String.eqb (o_band q) f) (p :: l))) (filter (selected s) (bands (p :: l)))).
  assert (EvIn : forall f, AnyBand s f -> Evolves (p :: l) f -> exists r, In r rates /\ (min_fade <= r \/ r <= max_rise)).
  { intros f A Ev. pose proof Ev as (b & _ & (k & K & P & _) & _). assert (I : In b (p :: l)) by (eapply nth_error_In; eauto).
    exists (rate_of (filter (fun q => String.eqb (o_band q) f) (p :: l))). split.
    - apply in_map_iff. exists f. split; [reflexivity|]. apply filter_In. rewrite <- P. split.
      + unfold bands. apply nodup_In, in_map, I.
      + apply (selected_spec s (p :: l)); auto. rewrite P. exact A.
    - apply rate_evolves; [eauto|exact Ev]. }
  assert (InEv : forall r, In r rates -> min_fade <= r \/ r <= max_rise -> exists f, AnyBand s f /\ Evolves (p :: l) f).
  { intros r I H. apply in_map_iff in I. destruct I as (f & <- & I). apply filter_In in I. destruct I as [I F]. unfold bands in I. apply nodup_In in I.
    apply in_map_iff in I. destruct I as (q & Q & QI). exists f. split.
    - subst f. apply (selected_spec s (p :: l)); auto.
    - apply rate_evolves; [eauto|exact H]. }
  destruct rates as [|r rs].
  { intros [= <-]. right. split; [reflexivity|]. intros (_ & _ & f & A & Ev). destruct (EvIn f A Ev) as (r & [] & _). }
  intros [= <-]. apply flag_yes. rewrite negb_true_iff, andb_false_iff, !rltb_false.
  destruct (list_max_spec rs r) as [M1 M2]. destruct (list_min_spec rs r) as [N1 N2]. split.
  - intros H. split; [exact E|]. split; [exact S1|]. destruct H as [H|H].
    + apply (InEv (list_max r rs) M2). left. exact H.
    + apply (InEv (list_min r rs) N2). right. exact H.
  - intros (_ & _ & f & A & Ev). destruct (EvIn f A Ev) as (x & I & [H|H]).
    + left. specialize (M1 x I). lra.
    + right. specialize (N1 x I). lra.
Qed.
