(** Theorems about the kilonova counts: C342. *)
From Coq Require Import String Reals Lra Lia ZArith List Bool Permutation.
From Verif Require Import Base Depth_Model Depth_Proofs Template_Model Sky_Proofs Pop_Model Pop_Spec Runs_Spec Plane_Spec Pop_Props.
From Verif Require Astrom_Model Runs_Props Plane_Props3.
Import ListNotations.
Open Scope R_scope.

(** a visit and what was measured in it *)
Definition Measured (curves : list curve) (ax1 : list (string * R)) (indx : nat) (ebv : R) (dist : option R) (start : R) (v : event_visit) (p : point) : Prop :=
  o_t p = e_mjd v - start /\ Shines curves ax1 indx ebv dist (o_t p) (e_band v) (o_mag p) /\ o_m5 p = e_m5 v /\ o_band p = e_band v /\ MagError (o_mag p) (o_m5 p) (o_unc p).
Definition KnDetected (p : point) : Prop := 0 < o_t p < 30 /\ o_mag p < o_m5 p.

Lemma each_spec {A B} (g : A -> result B) : forall l r, each g l = Ok r <-> Forall2 (fun x y => g x = Ok y) l r.
Proof.
  induction l as [|x l IH]; intros r; cbn [each].
  - split; [intros [= <-]; constructor|]. intros H. inversion H. reflexivity.
  - split.
    + destruct (g x) as [y|] eqn:E; cbn [bind]; [|discriminate]. destruct (each g l) as [s|] eqn:E'; cbn [bind]; [|discriminate].
      intros [= <-]. constructor; [exact E|]. apply IH. reflexivity.
    + intros H. inversion H as [|? y ? s E F]; subst. rewrite E. cbn [bind]. apply IH in F. rewrite F. reflexivity.
Qed.
Lemma F2_impl {A B} (P Q : A -> B -> Prop) l r : (forall x y, P x y -> Q x y) -> Forall2 P l r -> Forall2 Q l r.
Proof. intros H F. induction F; constructor; auto. Qed.

Lemma snr_pow m m5 : Astrom_Model.m52snr (Some (1/25)) m m5 = 5 * Rpower 10 (2/5 * (m5 - m)).
Proof. apply (Plane_Props3.snr_is m {| Plane_Model.p_band := ""; Plane_Model.p_m5 := m5; Plane_Model.p_time := 0; Plane_Model.p_exp := 0 |}). Qed.
Lemma unc_is m m5 : MagError m m5 (unc_of m m5).
Proof.
  unfold MagError, unc_of, log10. rewrite snr_pow. do 4 f_equal.
  replace (2/5 * (m5 - m)) with (- (2/5 * (m - m5))) by field. rewrite Rpower_Ropp. field.
  apply Rgt_not_eq, exp_pos.
Qed.
Lemma observed_spec : forall curves ax1 indx ebv dist start v p, Curves curves ->
  observed (apparent curves ax1 indx ebv dist) start v = Ok p -> Measured curves ax1 indx ebv dist start v p.
Proof.
  intros curves ax1 indx ebv dist start v p C. unfold observed. cbv zeta.
  destruct (apparent curves ax1 indx ebv dist (e_mjd v - start) (e_band v)) as [m|] eqn:E; cbn [bind]; [|discriminate]. intros [= <-].
  unfold Measured. cbn [o_t o_mag o_m5 o_band o_unc]. split; [reflexivity|]. split; [apply C341_brightness; assumption|]. split; [reflexivity|]. split; [reflexivity|apply unc_is].
Qed.

Lemma kn_seen_spec p : kn_seen p = true <-> KnDetected p.
Proof.
  unfold kn_seen, bright, KnDetected. rewrite !andb_true_iff, !rltb_true. tauto.
Qed.

(** the bands *)
Lemma bands_two l : (2 <= length (bands l))%nat <-> Two o_band l.
Proof.
  unfold bands. pose proof (NoDup_nodup string_dec (map o_band l)) as N. pose proof (fun x => nodup_In string_dec (map o_band l) x) as I.
  split.
  - destruct (nodup string_dec (map o_band l)) as [|a [|b r]]; cbn [length]; try lia. intros _.
    assert (A : In a (map o_band l)) by (apply I; left; reflexivity). assert (B : In b (map o_band l)) by (apply I; right; left; reflexivity).
    apply in_map_iff in A, B. destruct A as (p & P & PI). destruct B as (q & Q & QI). exists p, q. repeat split; auto.
    inversion N as [|? ? X]. subst. intros E. apply X. left. congruence.
  - intros (p & q & PI & QI & NE).
    assert (A : In (o_band p) (nodup string_dec (map o_band l))) by (apply I, in_map; exact PI).
    assert (B : In (o_band q) (nodup string_dec (map o_band l))) by (apply I, in_map; exact QI).
    change 2%nat with (length [o_band p; o_band q]). apply NoDup_incl_length.
    + constructor; [|constructor; [intros []|constructor]]. intros [E|[]]. congruence.
    + intros x [<-|[<-|[]]]; assumption.
Qed.
Lemma bands_three l : (3 <= length (bands l))%nat <-> Three o_band l.
Proof.
  unfold bands. pose proof (NoDup_nodup string_dec (map o_band l)) as N. pose proof (fun x => nodup_In string_dec (map o_band l) x) as I.
  split.
  - destruct (nodup string_dec (map o_band l)) as [|a [|b [|c r]]]; cbn [length]; try lia. intros _.
    assert (A : In a (map o_band l)) by (apply I; cbn; auto). assert (B : In b (map o_band l)) by (apply I; cbn; auto). assert (C : In c (map o_band l)) by (apply I; cbn; auto).
    apply in_map_iff in A, B, C. destruct A as (p & P & PI). destruct B as (q & Q & QI). destruct C as (s & S' & SI). exists p, q, s.
    inversion N as [|? ? X N']. inversion N' as [|? ? X' _]. subst. repeat split; auto; intros E.
    + apply X. rewrite E. cbn; auto.
    + apply X. rewrite E. cbn; auto.
    + apply X'. rewrite E. cbn; auto.
  - intros (p & q & s & PI & QI & SI & E1 & E2 & E3).
    change 3%nat with (length [o_band p; o_band q; o_band s]). apply NoDup_incl_length.
    + repeat constructor; cbn; intuition congruence.
    + intros x [<-|[<-|[<-|[]]]]; apply I, in_map; assumption.
Qed.

Lemma flag_yes b (P : Prop) : (b = true <-> P) -> YesNo (flag b) P.
Proof. intros H. destruct b; [left|right]; split; try reflexivity; [apply H; reflexivity|]. intros X. apply H in X. discriminate. Qed.
Lemma not_ltb a b : negb (Nat.ltb a b) = true <-> (b <= a)%nat.
Proof. rewrite negb_true_iff, Nat.ltb_ge. tauto. Qed.

Lemma count_three (a b c : string) l : a <> b -> a <> c -> b <> c -> CountP (fun p => OneOf [a; b; c] (o_band p)) l (n_band a l + n_band b l + n_band c l).
Proof.
  intros AB AC BC. unfold n_band. induction l as [|p l IH]; [constructor|]. cbn [filter].
  destruct (String.eqb (o_band p) a) eqn:A; [apply String.eqb_eq in A|apply String.eqb_neq in A];
  (destruct (String.eqb (o_band p) b) eqn:B; [apply String.eqb_eq in B|apply String.eqb_neq in B]);
  (destruct (String.eqb (o_band p) c) eqn:D; [apply String.eqb_eq in D|apply String.eqb_neq in D]); try congruence; cbn [length].
  - constructor; [left; auto|exact IH].
  - rewrite Nat.add_succ_r. constructor; [right; left; auto|exact IH].
  - rewrite Nat.add_succ_r. constructor; [right; right; left; auto|exact IH].
  - constructor; [|exact IH]. intros [H|[H|[H|[]]]]; congruence.
Qed.

(** C342: what the counts of a kilonova mean *)
Theorem C342_counts : forall curves ax1 pts mjd0 peak indx ebv dist vs r, Curves curves -> kn_run curves ax1 pts mjd0 peak indx ebv dist vs = Ok r ->
  exists obs seen, Forall2 (Measured curves ax1 indx ebv (Some dist) (mjd0 + peak)) vs obs /\ Sub KnDetected obs seen
  /\ YesNo (k_multi r) (pts <= length seen)%nat
  /\ YesNo (k_color r) (Two o_band seen)
  /\ (exists n, CountP (fun p => OneOf ["i"; "z"; "y"]%string (o_band p)) seen n /\ YesNo (k_red r) (4 <= n)%nat)
  /\ (exists n, CountP (fun p => OneOf ["u"; "g"; "r"]%string (o_band p)) seen n /\ YesNo (k_blue r) (4 <= n)%nat).
Proof.
  intros curves ax1 pts mjd0 peak indx ebv dist vs r C. unfold kn_run.
  destruct (each _ vs) as [obs|] eqn:E; cbn [bind]; [|discriminate]. apply each_spec in E.
  destruct (ztfrest AllBands pts (filter kn_seen obs)) as [a|]; cbn [bind]; [|discriminate].
  destruct (ztfrest RedBands pts (filter kn_seen obs)) as [b|]; cbn [bind]; [|discriminate].
  destruct (ztfrest BlueBands pts (filter kn_seen obs)) as [c|]; cbn [bind]; [|discriminate]. intros [= <-]. cbn [k_multi k_color k_red k_blue].
  exists obs, (filter kn_seen obs). split; [|split; [|split; [|split; [|split]]]].
  - revert E. apply F2_impl. intros v p. apply observed_spec. exact C.
  - apply Runs_Props.filter_sub. apply kn_seen_spec.
  - apply flag_yes. apply not_ltb.
  - apply flag_yes. rewrite not_ltb. apply bands_two.
  - eexists. split; [apply count_three; discriminate|]. apply flag_yes. apply not_ltb.
  - eexists. split; [apply count_three; discriminate|]. apply flag_yes. apply not_ltb.
Qed.
Print Assumptions C342_counts.

(** the selection of detections by their bands *)
Definition More (l l' : list point) : Prop := exists extra, Permutation (map o_band l') (map o_band l ++ extra).
Lemma more_length l l' : More l l' -> (length l <= length l')%nat.
Proof. intros [e H]. apply Permutation_length in H. rewrite app_length, !map_length in H. lia. Qed.
Lemma more_in l l' b : More l l' -> In b (map o_band l) -> In b (map o_band l').
Proof. intros [e H] I. apply (Permutation_in _ (Permutation_sym H)). apply in_or_app. left. exact I. Qed.
Lemma n_band_count b l : n_band b l = count_occ string_dec (map o_band l) b.
Proof.
  unfold n_band. induction l as [|p l IH]; cbn; [reflexivity|]. destruct (string_dec (o_band p) b) as [->|N].
  - rewrite String.eqb_refl. cbn. congruence.
  - apply String.eqb_neq in N. rewrite N. exact IH.
Qed.
Lemma more_band l l' b : More l l' -> (n_band b l <= n_band b l')%nat.
Proof. intros [e H]. rewrite !n_band_count. rewrite (Permutation_count_occ string_dec) in H. rewrite H, count_occ_app. lia. Qed.
Lemma more_two l l' : More l l' -> Two o_band l -> Two o_band l'.
Proof.
  intros M (p & q & P & Q & N). assert (A := more_in _ _ _ M (in_map o_band _ _ P)). assert (B := more_in _ _ _ M (in_map o_band _ _ Q)).
  apply in_map_iff in A, B. destruct A as (p' & E & P'). destruct B as (q' & E' & Q'). exists p', q'. repeat split; auto. congruence.
Qed.
Lemma flag_le b b' : (b = true -> b' = true) -> (flag b <= flag b')%nat.
Proof. destruct b, b'; cbn; intros H; auto. discriminate H; reflexivity. Qed.
Lemma more_multi pts l l' : More l l' -> (multi_detect pts l <= multi_detect pts l')%nat.
Proof. intros M. apply flag_le. rewrite !not_ltb. apply more_length in M. lia. Qed.
Lemma more_color l l' : More l l' -> (multi_color l <= multi_color l')%nat.
Proof. intros M. apply flag_le. rewrite !not_ltb, !bands_two. apply more_two. exact M. Qed.
Lemma more_red l l' : More l l' -> (red_detect l <= red_detect l')%nat.
Proof. intros M. apply flag_le. rewrite !not_ltb. pose proof (more_band _ _ "i"%string M). pose proof (more_band _ _ "z"%string M). pose proof (more_band _ _ "y"%string M). lia. Qed.
Lemma more_blue l l' : More l l' -> (blue_detect l <= blue_detect l')%nat.
Proof. intros M. apply flag_le. rewrite !not_ltb. pose proof (more_band _ _ "u"%string M). pose proof (more_band _ _ "g"%string M). pose proof (more_band _ _ "r"%string M). lia. Qed.

Definition AtLeast (r r' : kn_result) : Prop :=
  (k_multi r <= k_multi r')%nat /\ (k_color r <= k_color r')%nat /\ (k_red r <= k_red r')%nat /\ (k_blue r <= k_blue r')%nat.
Lemma kn_run_inv curves ax1 pts mjd0 peak indx ebv dist vs r : kn_run curves ax1 pts mjd0 peak indx ebv dist vs = Ok r ->
  exists obs, each (observed (apparent curves ax1 indx ebv (Some dist)) (mjd0 + peak)) vs = Ok obs
  /\ let l := filter kn_seen obs in k_multi r = multi_detect pts l /\ k_color r = multi_color l /\ k_red r = red_detect l /\ k_blue r = blue_detect l
     /\ ztfrest AllBands pts l = Ok (k_ztf r) /\ ztfrest RedBands pts l = Ok (k_ztf_red r) /\ ztfrest BlueBands pts l = Ok (k_ztf_blue r).
Proof.
  unfold kn_run. destruct (each _ vs) as [obs|] eqn:E; cbn [bind]; [|discriminate].
  destruct (ztfrest AllBands pts (filter kn_seen obs)) as [a|] eqn:A; cbn [bind]; [|discriminate].
  destruct (ztfrest RedBands pts (filter kn_seen obs)) as [b|] eqn:B; cbn [bind]; [|discriminate].
  destruct (ztfrest BlueBands pts (filter kn_seen obs)) as [c|] eqn:D; cbn [bind]; [|discriminate]. intros [= <-].
  exists obs. split; [reflexivity|]. cbv zeta. cbn. auto 10.
Qed.
Lemma each_app {A B} (g : A -> result B) : forall l l' r, each g (l ++ l') = Ok r <-> exists a b, each g l = Ok a /\ each g l' = Ok b /\ r = a ++ b.
Proof.
  intros l l' r. rewrite each_spec. split.
  - intros H. apply Forall2_app_inv_l in H. destruct H as (a & b & Ha & Hb & ->). exists a, b. rewrite !each_spec. auto.
  - intros (a & b & Ha & Hb & ->). rewrite each_spec in Ha, Hb. apply Forall2_app; assumption.
Qed.

(** another visit never takes one of these detections away *)
Theorem C342_more : forall curves ax1 pts mjd0 peak indx ebv dist l1 v l2 r r',
  kn_run curves ax1 pts mjd0 peak indx ebv dist (l1 ++ l2) = Ok r -> kn_run curves ax1 pts mjd0 peak indx ebv dist (l1 ++ v :: l2) = Ok r' -> AtLeast r r'.
Proof.
  intros curves ax1 pts mjd0 peak indx ebv dist l1 v l2 r r' H H'.
  apply kn_run_inv in H, H'. destruct H as (obs & E & A1 & A2 & A3 & A4 & _). destruct H' as (obs' & E' & B1 & B2 & B3 & B4 & _).
  apply each_app in E. destruct E as (a & b & Ea & Eb & ->). apply each_app in E'. destruct E' as (a' & b' & Ea' & Eb' & ->).
  assert (a' = a) by congruence. subst a'. cbn [each] in Eb'. destruct (observed _ _ v) as [p|]; cbn [bind] in Eb'; [|discriminate].
  rewrite Eb in Eb'. cbn [bind] in Eb'. injection Eb' as <-.
  assert (M : More (filter kn_seen (a ++ b)) (filter kn_seen (a ++ p :: b))).
  { rewrite !filter_app. cbn [filter]. destruct (kn_seen p).
    - exists [o_band p]. rewrite !map_app. cbn [map]. rewrite <- app_assoc. apply Permutation_app_head. apply (Permutation_cons_append (map o_band (filter kn_seen b)) (o_band p)).
    - exists []. rewrite app_nil_r. apply Permutation_refl. }
  unfold AtLeast. rewrite A1, A2, A3, A4, B1, B2, B3, B4.
  auto using more_multi, more_color, more_red, more_blue.
Qed.
Print Assumptions C342_more.

Lemma kn_seen_mk t m u d b : kn_seen {| o_t := t; o_mag := m; o_unc := u; o_m5 := d; o_band := b |} = rltb 0 t && rltb t 30 && rltb m d.
Proof. reflexivity. Qed.
(** nor do deeper visits *)
Theorem C342_deeper : forall curves ax1 pts mjd0 peak indx ebv dist vs vs' r r',
  Forall2 (fun v v' => e_mjd v' = e_mjd v /\ e_band v' = e_band v /\ e_m5 v <= e_m5 v') vs vs' ->
  kn_run curves ax1 pts mjd0 peak indx ebv dist vs = Ok r -> kn_run curves ax1 pts mjd0 peak indx ebv dist vs' = Ok r' -> AtLeast r r'.
Proof.
  intros curves ax1 pts mjd0 peak indx ebv dist vs vs' r r' F H H'.
  apply kn_run_inv in H, H'. destruct H as (obs & E & A1 & A2 & A3 & A4 & _). destruct H' as (obs' & E' & B1 & B2 & B3 & B4 & _).
  assert (M : More (filter kn_seen obs) (filter kn_seen obs')).
  { clear A1 A2 A3 A4 B1 B2 B3 B4. revert obs obs' E E'. induction F as [|v v' vs vs' (T & Bd & D) F IH]; intros obs obs'; cbn [each].
    - intros [= <-] [= <-]. exists []. apply Permutation_refl.
    - unfold observed at 1 3. rewrite T, Bd. destruct (apparent _ _ _ _ _ _ _) as [m|]; cbn [bind]; [|discriminate].
      destruct (each _ vs) as [s|]; cbn [bind]; [|discriminate]. destruct (each _ vs') as [s'|]; cbn [bind]; [|discriminate].
      intros [= <-] [= <-]. destruct (IH s s' eq_refl eq_refl) as [e P]. cbn [filter].
      rewrite !kn_seen_mk.
      destruct (rltb 0 (e_mjd v - (mjd0 + peak)) && rltb (e_mjd v - (mjd0 + peak)) 30); cbn [andb]; [|exists e; exact P].
      destruct (rltb m (e_m5 v)) eqn:S1.
      + apply rltb_true in S1. assert (S2 : rltb m (e_m5 v') = true) by (apply rltb_true; lra). rewrite S2. cbn [map o_band]. exists e. cbn [app]. constructor. exact P.
      + destruct (rltb m (e_m5 v')); [|exists e; exact P]. exists (e_band v :: e). cbn [map o_band]. apply Permutation_cons_app. exact P. }
  unfold AtLeast. rewrite A1, A2, A3, A4, B1, B2, B3, B4.
  auto using more_multi, more_color, more_red, more_blue.
Qed.
Print Assumptions C342_deeper.
