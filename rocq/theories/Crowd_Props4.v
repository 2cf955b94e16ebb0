(** C316-C317: quasar counts and periodic stars. *)
From Coq Require Import String Ascii Reals ZArith List Lra Lia Bool Permutation.
From Verif Require Import Base Depth_Model Depth_Proofs Template_Model Sky_Spec Sky_Proofs Crowd_Model Crowd_Spec Crowd_Proofs Crowd_Props3.
From Verif Require Astrom_Model Astrom_Proofs2 Astrom_Props.
Import ListNotations.
Open Scope R_scope.

(** * C316 *)
Lemma sum_seq f n : Sum (map f (seq 0 (S n))) = f O + Sum (map (fun k => f (S k)) (seq 0 n)).
Proof. cbn [seq map]. rewrite <- seq_shift, map_map. reflexivity. Qed.
Lemma sum_zero {A} (f : A -> R) l : (forall x, In x l -> f x = 0) -> Sum (map f l) = 0.
Proof. exact (rsum_zero f l). Qed.
Lemma sum_app a b : Sum (a ++ b) = Sum a + Sum b.
Proof. exact (rsum_app a b). Qed.
Lemma sum_plus {A} (f g : A -> R) l : Sum (map (fun x => f x + g x) l) = Sum (map f l) + Sum (map g l).
Proof. symmetry. exact (rsum_two f g l). Qed.
Lemma sum_swap {A B} (f : A -> B -> R) l m : Sum (map (fun a => Sum (map (f a) m)) l) = Sum (map (fun b => Sum (map (fun a => f a b) l)) m).
Proof.
  induction l as [|a l IH]; [simpl; symmetry; now apply sum_zero|].
  cbn [map]. rewrite (sum_plus (fun b => f a b) (fun b => Sum (map (fun a0 => f a0 b) l))). unfold Sum at 1. cbn [fold_right]. fold (Sum (map (fun a0 => Sum (map (f a0) m)) l)). now rewrite IH.
Qed.
Lemma cumsum_from_nth l : forall acc j, (j < length l)%nat -> nth j (cumsum_from acc l) 0 = acc + Sum (map (fun k => nth k l 0) (seq 0 (S j))).
Proof.
  induction l as [|x l IH]; intros acc j H; [simpl in H; lia|]. rewrite sum_seq. destruct j as [|j]; [simpl; unfold Sum; simpl; lra|].
  cbn [cumsum_from nth]. rewrite IH by (simpl in H; lia). ring.
Qed.
Lemma add_rows_nth a : forall b j, length a = length b -> (j < length a)%nat -> nth j (add_rows a b) 0 = nth j a 0 + nth j b 0.
Proof.
  induction a as [|x a IH]; intros [|y b] j H L; simpl in *; try lia. destruct j as [|j]; [reflexivity|]. apply IH; lia.
Qed.
Lemma add_rows_length a b : length a = length b -> length (add_rows a b) = length a.
Proof. intro H. unfold add_rows. rewrite map_length, combine_length. lia. Qed.
Lemma cumsum0_nth n rows : Forall (fun r => length r = n) rows -> forall acc i, length acc = n -> (i < length rows)%nat ->
  length (nth i (cumsum0_from acc rows) []) = n /\
  forall j, (j < n)%nat -> nth j (nth i (cumsum0_from acc rows) []) 0 = nth j acc 0 + Sum (map (fun r => nth j r 0) (firstn (S i) rows)).
Proof.
  induction 1 as [|r rows Hr F IH]; intros acc i La Li; [simpl in Li; lia|]. cbn [cumsum0_from].
  assert (Lr : length (add_rows acc r) = n) by (rewrite add_rows_length; congruence).
  destruct i as [|i]; cbn [nth].
  - split; [exact Lr|]. intros j Hj. rewrite add_rows_nth by (congruence || lia). simpl. unfold Sum. simpl. lra.
  - destruct (IH (add_rows acc r) i Lr ltac:(simpl in Li; lia)) as [L V]. split; [exact L|]. intros j Hj. rewrite V by exact Hj.
    rewrite add_rows_nth by (congruence || lia). rewrite (firstn_cons (S i)). cbn [map]. unfold Sum. cbn [fold_right]. lra.
Qed.
Lemma cumsum0_length rows : forall acc, length (cumsum0_from acc rows) = length rows.
Proof. induction rows; intro acc; simpl; auto. Qed.
Lemma firstn_seq {A} (d : A) l : forall i, (i <= length l)%nat -> firstn i l = map (fun k => nth k l d) (seq 0 i).
Proof.
  induction l as [|a l IH]; intros [|i] H; simpl in H; try reflexivity; try lia. cbn [firstn seq map nth]. rewrite <- seq_shift, map_map. f_equal. apply IH. lia.
Qed.
Lemma nth_repeat0 k n : nth k (repeat 0 n) 0 = 0.
Proof. revert k. induction n; intros [|k]; simpl; auto. Qed.
(** the cumulative table counts the quasars brighter and nearer than each corner *)
Theorem C316_cumulative ncols table i j : Forall (fun r => length r = ncols) table -> (i <= length table)%nat -> (j <= ncols)%nat ->
  nth j (nth i (cumulative ncols table) []) 0 = Box table 0 i 0 j.
Proof.
  intros F Hi Hj. unfold cumulative. set (padded := repeat 0 (S ncols) :: map (cons 0) table).
  assert (Fp : Forall (fun r => length r = S ncols) padded).
  { unfold padded. constructor; [apply repeat_length|]. apply Forall_forall. intros r Hr. apply in_map_iff in Hr as (q & <- & Hq).
    rewrite Forall_forall in F. simpl. now rewrite (F q Hq). }
  assert (Li : (i < length padded)%nat) by (unfold padded; simpl; rewrite map_length; lia).
  destruct (cumsum0_nth (S ncols) padded Fp (repeat 0 (S ncols)) i (repeat_length _ _) Li) as [L V].
  rewrite (nth_map_at cumsum _ []) by now rewrite cumsum0_length. unfold cumsum. rewrite cumsum_from_nth by lia. rewrite Rplus_0_l.
  rewrite (map_ext_in _ (fun k => Sum (map (fun r => nth k r 0) (firstn (S i) padded)))).
  2:{ intros k Hk. apply in_seq in Hk. rewrite V by lia. rewrite nth_repeat0. lra. }
  rewrite (sum_swap (fun k r => nth k r 0)). unfold padded. rewrite firstn_cons. cbn [map]. unfold Sum at 1. cbn [fold_right].
  match goal with |- _ + fold_right Rplus 0 ?l = _ => fold (Sum l) end.
  rewrite sum_zero by (intros; apply nth_repeat0). rewrite Rplus_0_l, firstn_map, map_map. unfold Box. rewrite !Nat.sub_0_r.
  rewrite (firstn_seq []) by exact Hi. rewrite map_map. f_equal. apply map_ext. intro a. rewrite sum_seq. cbn [nth]. lra.
Qed.
Print Assumptions C316_cumulative.
Lemma seq_split a b c : (a <= b <= c)%nat -> seq a (c - a) = seq a (b - a) ++ seq b (c - b).
Proof. intro H. replace (c - a)%nat with ((b - a) + (c - b))%nat by lia. rewrite seq_app. f_equal. f_equal. lia. Qed.
Lemma box_cols table r0 r1 a b c : (a <= b <= c)%nat -> Box table r0 r1 a c = Box table r0 r1 a b + Box table r0 r1 b c.
Proof. intro H. unfold Box. rewrite <- sum_plus. f_equal. apply map_ext. intro i. rewrite (seq_split a b c H), map_app. apply sum_app. Qed.
Lemma box_rows table a b c c0 c1 : (a <= b <= c)%nat -> Box table a c c0 c1 = Box table a b c0 c1 + Box table b c c0 c1.
Proof. intro H. unfold Box. rewrite (seq_split a b c H), map_app. apply sum_app. Qed.
(** between entries of the table the count is the sum of the table over the redshifts and magnitudes, times the area of the
    pixel: from the faintest saturation magnitude to the depth *)
Theorem C316_count spline mlim5 band zs mags ncols table cut area badval ebv visits r0 r1 c0 c1 zmin zmax bright sat :
  Forall (fun r => length r = ncols) table ->
  (forall i j m z, nth_error mags i = Some m -> nth_error zs j = Some z -> (i < length table)%nat -> (j < ncols)%nat ->
     spline z m = nth j (nth i (cumulative ncols table) []) 0) ->
  sat = map snd (filter (fun v => String.eqb (fst v) band) visits) -> Greatest sat bright -> ebv <= cut ->
  nth_error mags r0 = Some bright -> nth_error mags r1 = Some (mlim5 sat) -> nth_error zs c0 = Some zmin -> nth_error zs c1 = Some zmax ->
  (r0 <= r1 < length table)%nat -> (c0 <= c1 < ncols)%nat ->
  qso_run spline mlim5 band zmin zmax cut area badval ebv visits = Ok (Box table r0 r1 c0 c1 * area).
Proof.
  intros F Sp Es G Ce E0 E1 Z0 Z1 Hr Hc. unfold qso_run. rewrite (proj2 (rltb_false _ _) Ce). cbv zeta. rewrite <- Es.
  apply pmax_spec in G. rewrite G. cbn [bind]. f_equal. f_equal.
  rewrite (Sp r1 c1 _ _ E1 Z1), (Sp r0 c1 _ _ E0 Z1), (Sp r1 c0 _ _ E1 Z0), (Sp r0 c0 _ _ E0 Z0) by lia.
  rewrite !C316_cumulative by (auto; lia).
  rewrite (box_rows table 0 r0 r1 0 c1) by lia. rewrite (box_rows table 0 r0 r1 0 c0) by lia. rewrite (box_cols table r0 r1 0 c0 c1) by lia. ring.
Qed.
Print Assumptions C316_count.
(** redshift ranges add up, and the count vanishes for an empty range *)
Theorem C316_additive spline mlim5 band z1 z2 z3 cut area badval ebv visits a b : ebv <= cut ->
  qso_run spline mlim5 band z1 z2 cut area badval ebv visits = Ok a -> qso_run spline mlim5 band z2 z3 cut area badval ebv visits = Ok b ->
  qso_run spline mlim5 band z1 z3 cut area badval ebv visits = Ok (a + b) /\ qso_run spline mlim5 band z1 z1 cut area badval ebv visits = Ok 0.
Proof.
  intro Ce. unfold qso_run. rewrite (proj2 (rltb_false _ _) Ce). destruct (pmax _) as [m|]; [|discriminate]. cbn [bind]. intros Ha Hb. injection Ha as <-. injection Hb as <-.
  split; f_equal; ring.
Qed.
Print Assumptions C316_additive.
(** too much dust: badval; only visits in the band matter *)
Theorem C316_dust spline mlim5 band zmin zmax cut area badval ebv visits : cut < ebv ->
  qso_run spline mlim5 band zmin zmax cut area badval ebv visits = Ok badval.
Proof. intro H. unfold qso_run. now rewrite (proj2 (rltb_true _ _) H). Qed.
Print Assumptions C316_dust.
Theorem C316_band spline mlim5 band zmin zmax cut area badval ebv visits others :
  (forall v, In v others -> fst v <> band) ->
  qso_run spline mlim5 band zmin zmax cut area badval ebv (visits ++ others) = qso_run spline mlim5 band zmin zmax cut area badval ebv visits.
Proof.
  intro H. unfold qso_run. assert (E : filter (fun v => String.eqb (fst v) band) others = []).
  { induction others as [|v t IH]; simpl; [reflexivity|]. pose proof (H v (or_introl eq_refl)) as N. apply String.eqb_neq in N. rewrite N. apply IH. intros; apply H; now right. }
  now rewrite filter_app, E, app_nil_r.
Qed.
Print Assumptions C316_band.
(** refuted: a point without visits in the band has a value; it raises *)
Theorem C316_empty_refuted spline mlim5 band zmin zmax cut area badval ebv visits : ebv <= cut -> (forall v, In v visits -> fst v <> band) ->
  qso_run spline mlim5 band zmin zmax cut area badval ebv visits = Err ValueError.
Proof.
  intros Ce H. rewrite <- (app_nil_l visits), C316_band by exact H. unfold qso_run. now rewrite (proj2 (rltb_false _ _) Ce).
Qed.
Print Assumptions C316_empty_refuted.
(** the default redshift limit: where the Lyman break enters the band, and at most 6.7 *)
Theorem C316_zmax band w z : dget String.eqb eff_wavelen band = Some w -> qso_zmax band None = Ok z ->
  z <= 6.7 /\ 91.2 * (1 + z) <= w /\ (z = 6.7 \/ 91.2 * (1 + z) = w).
Proof.
  intros D. unfold qso_zmax. rewrite D. intro H. injection H as <-. unfold Rmin. destruct (Rle_dec _ _) as [L|L].
  - split; [lra|]. split; [lra | left; reflexivity].
  - split; [lra|]. split; [lra | right; lra].
Qed.
Print Assumptions C316_zmax.
Example C316_case : nth 2 (nth 1 (cumulative 2 [[1; 2]; [3; 4]]) []) 0 = 3 /\ qso_zmax "i" None = Ok 6.7.
Proof.
  split; [simpl; lra|]. unfold qso_zmax. simpl. f_equal. apply Rmin_left. lra.
Qed.

(** * C317 *)
(** the uncertainty of a magnitude of a star at a visit: 2.5 log10 (1 + noise to signal) *)
Definition MagErr (m m5 : R) : R := 25/10 * (ln (1 + Rpower 10 (4/10 * (m - m5)) / 5) / ln 10).
(** chi square of the fit by a constant *)
Definition Chi (light : pvisit -> R) (c : R) (vs : list pvisit) : R :=
  Sum (map (fun v => (light v - c) * (light v - c) / (MagErr (light v) (p_m5 v) * MagErr (light v) (p_m5 v))) vs).
Definition Light1 (s : star) (m : R) (v : pvisit) : R := m + s_amp s * sin (2 * PI * (p_mjd v / s_period s)).
Lemma light_spec s m v : light s m v = Light1 s m v.
Proof. unfold light, Light1. rewrite Rplus_comm. f_equal. f_equal. f_equal. unfold Rdiv. ring. Qed.
Lemma delta_spec s m v : delta_m s m v = MagErr (Light1 s m v) (p_m5 v).
Proof. unfold delta_m, MagErr, log10. rewrite light_spec. now rewrite snr_inverse, Rmult_1_l. Qed.
Lemma magerr_pos m m5 : 0 < MagErr m m5.
Proof.
  unfold MagErr. assert (0 < Rpower 10 (4/10 * (m - m5))) by (unfold Rpower; apply exp_pos). apply Rmult_lt_0_compat; [lra|].
  apply Rdiv_lt_0_compat; [|exact ln10_pos]. rewrite <- ln_1. apply ln_increasing; lra.
Qed.
Lemma chi_expand (l e : pvisit -> R) c w vs :
  Sum (map (fun v => (l v - c) * (l v - c) / (e v * e v)) vs)
  = Sum (map (fun v => (l v - w) * (l v - w) / (e v * e v)) vs)
    + 2 * (w - c) * (Sum (map (fun v => 1 / (e v * e v) * l v) vs) - w * Sum (map (fun v => 1 / (e v * e v)) vs))
    + (w - c) * (w - c) * Sum (map (fun v => 1 / (e v * e v)) vs).
Proof. induction vs as [|v vs IH]; simpl; [unfold Sum; simpl; lra|]. unfold Sum in *. simpl. rewrite IH. unfold Rdiv. ring. Qed.
Lemma chi_band_val s m vs : exists w, chi_band s m vs = Chi (Light1 s m) w vs /\
  (vs <> [] -> Sum (map (fun v => 1 / (MagErr (Light1 s m v) (p_m5 v) * MagErr (Light1 s m v) (p_m5 v)) * Light1 s m v) vs)
    = w * Sum (map (fun v => 1 / (MagErr (Light1 s m v) (p_m5 v) * MagErr (Light1 s m v) (p_m5 v))) vs)).
Proof.
  unfold chi_band. change rsum with Sum.
  rewrite (map_ext (fun v => pweight s m v * light s m v) (fun v => 1 / (MagErr (Light1 s m v) (p_m5 v) * MagErr (Light1 s m v) (p_m5 v)) * Light1 s m v))
    by (intro v; unfold pweight; now rewrite delta_spec, light_spec).
  rewrite (map_ext (pweight s m) (fun v => 1 / (MagErr (Light1 s m v) (p_m5 v) * MagErr (Light1 s m v) (p_m5 v)))) by (intro v; unfold pweight; now rewrite delta_spec).
  eexists. split.
  - unfold Chi. f_equal. apply map_ext. intro v. rewrite delta_spec, light_spec. reflexivity.
  - intro N. field. apply Rgt_not_eq. change Sum with rsum. destruct vs as [|v vs]; [congruence|].
    apply (rsum_pos_in _ _ v); [|now left|]; intros; [apply Rlt_le|]; apply Rdiv_lt_0_compat; try lra;
      apply Rmult_lt_0_compat; apply magerr_pos.
Qed.
(** the chi square of a band is that of the best constant *)
Theorem C317_best s m vs : (exists c, chi_band s m vs = Chi (Light1 s m) c vs) /\ forall c, 0 <= chi_band s m vs <= Chi (Light1 s m) c vs.
Proof.
  destruct (chi_band_val s m vs) as (w & E & O). split; [now exists w|]. intro c. rewrite E.
  assert (P : forall c, 0 <= Chi (Light1 s m) c vs).
  { intro d. unfold Chi. change Sum with rsum. apply rsum_nonneg. intros v _. apply Rmult_le_pos; [apply Rle_0_sqr|]. apply Rlt_le, Rinv_0_lt_compat, Rmult_lt_0_compat; apply magerr_pos. }
  split; [apply P|]. destruct vs as [|v0 vs]; [unfold Chi; simpl; lra|].
  unfold Chi. rewrite (chi_expand (Light1 s m) (fun v => MagErr (Light1 s m v) (p_m5 v)) c w). rewrite (O ltac:(discriminate)).
  set (W := Sum (map (fun v => 1 / (MagErr (Light1 s m v) (p_m5 v) * MagErr (Light1 s m v) (p_m5 v))) (v0 :: vs))).
  assert (0 <= W).
  { unfold W. change Sum with rsum. apply rsum_nonneg. intros v _. apply Rlt_le, Rdiv_lt_0_compat; [lra|]. apply Rmult_lt_0_compat; apply magerr_pos. }
  assert (0 <= (w - c) * (w - c) * W) by (apply Rmult_le_pos; [apply Rle_0_sqr | assumption]). replace (w * W - w * W) with 0 by ring. lra.
Qed.
Print Assumptions C317_best.
Lemma stars_le mags sf sig vs stars : forall n, periodic_stars mags sf sig vs stars = Ok n -> (n <= length stars)%nat.
Proof.
  induction stars as [|s t IH]; intros n; simpl; [intro H; injection H; lia|]. destruct (chi_sq _ _ _ _) as [c|]; [|discriminate]. cbn [bind].
  destruct (periodic_stars _ _ _ _ _) as [r|]; [|discriminate]. cbn [bind]. intro H. injection H as <-. specialize (IH r eq_refl). destruct (detected _ _ _ _ _); lia.
Qed.
(** at most all stars are detected; none with too few visits *)
Theorem C317_range mags sf sig stars vs n : periodic_run mags sf sig stars vs = Ok n -> (n <= length stars)%nat /\
  ((length vs <= 3 + length (nodup string_dec (map p_band vs)))%nat -> n = O).
Proof.
  unfold periodic_run. unfold bands_of at 1. destruct (Nat.ltb_spec (3 + length (nodup string_dec (map p_band vs))) (length vs)) as [L|L]; intro H.
  - split; [exact (stars_le _ _ _ _ _ _ H) | lia].
  - injection H as <-. split; [lia | reflexivity].
Qed.
Print Assumptions C317_range.
(** each star counts for itself *)
Theorem C317_stars mags sf sig a b vs n m : periodic_run mags sf sig a vs = Ok n -> periodic_run mags sf sig b vs = Ok m ->
  periodic_run mags sf sig (a ++ b) vs = Ok (n + m)%nat.
Proof.
  unfold periodic_run. destruct (Nat.ltb _ _); [|intros H1 H2; injection H1 as <-; injection H2 as <-; reflexivity]. revert n.
  induction a as [|s t IH]; intros n; simpl; [intros H1 H2; injection H1 as <-; exact H2|].
  destruct (chi_sq _ _ _ _) as [c|]; [|discriminate]. cbn [bind]. destruct (periodic_stars mags sf sig vs t) as [r|]; [|discriminate]. cbn [bind].
  intros H1 H2. injection H1 as <-. rewrite (IH r eq_refl H2). cbn [bind]. f_equal. lia.
Qed.
Print Assumptions C317_stars.
Lemma chi_zero s m vs : (forall v, In v vs -> Light1 s m v = m) -> chi_band s m vs = 0.
Proof.
  intro H. pose proof (proj2 (C317_best s m vs) m) as [A B]. assert (E : Chi (Light1 s m) m vs = 0); [|lra].
  unfold Chi. apply sum_zero. intros v Hv. rewrite (H v Hv). unfold Rdiv. ring.
Qed.
(** a star that does not vary is never detected, if the survival function is one below zero *)
Theorem C317_constant mags sf sig stars vs : (forall s b, exists m, mags s b = Ok m) -> (forall f d1 d2, f <= 0 -> sf f d1 d2 = Some 1) -> sig <= 1 ->
  (forall s, In s stars -> s_amp s = 0) -> periodic_run mags sf sig stars vs = Ok O.
Proof.
  intros T Sf G A. unfold periodic_run. destruct (Nat.ltb_spec (3 + length (bands_of vs)) (length vs)) as [L|L]; [|reflexivity].
  induction stars as [|s t IH]; simpl; [reflexivity|].
  assert (Z : forall bands, chi_sq mags s vs bands = Ok 0).
  { induction bands as [|b bands IHb]; simpl; [reflexivity|]. destruct (T s b) as (m & ->). cbn [bind]. rewrite IHb. cbn [bind]. f_equal.
    rewrite chi_zero; [lra|]. intros v _. unfold Light1. rewrite (A s (or_introl eq_refl)). ring. }
  rewrite Z. cbn [bind]. rewrite IH by (intros; apply A; now right). cbn [bind]. unfold detected. rewrite Sf; [rewrite (proj2 (rltb_false _ _) G); reflexivity|].
  apply lt_INR in L. rewrite plus_INR in L. simpl in L. lra.
Qed.
Print Assumptions C317_constant.
(** the larger the chi square the easier the detection *)
Theorem C317_monotone mags sf sig s s' vs c c' : (forall f g d1 d2 p, f <= g -> sf f d1 d2 = Some p -> exists q, sf g d1 d2 = Some q /\ q <= p) ->
  chi_sq mags s vs (bands_of vs) = Ok c -> chi_sq mags s' vs (bands_of vs) = Ok c' -> c <= c' ->
  periodic_run mags sf sig [s] vs = Ok 1%nat -> periodic_run mags sf sig [s'] vs = Ok 1%nat.
Proof.
  intros Sf E E' Lc. unfold periodic_run. destruct (Nat.ltb _ _); [|discriminate]. simpl. rewrite E, E'. cbn [bind].
  unfold detected. set (d := INR (length vs) - (3 + INR (length (bands_of vs)))).
  destruct (sf ((c - d) / 3) 3 d) as [p|] eqn:Ep; [|discriminate].
  destruct (Sf ((c - d) / 3) ((c' - d) / 3) 3 d p ltac:(lra) Ep) as (q & -> & Q).
  destruct (rltb p sig) eqn:R; [|discriminate]. intros _. apply rltb_true in R. now rewrite (proj2 (rltb_true q sig)) by lra.
Qed.
Print Assumptions C317_monotone.
Lemma chi_band_perm s m vs ws : Permutation vs ws -> chi_band s m vs = chi_band s m ws.
Proof. intro P. unfold chi_band. now rewrite !(rsum_perm _ _ (Permutation_map _ P)). Qed.
Lemma chi_sq_visits mags s vs ws bands : Permutation vs ws -> chi_sq mags s vs bands = chi_sq mags s ws bands.
Proof.
  intro P. induction bands as [|b t IH]; simpl; [reflexivity|]. destruct (mags s b); [|reflexivity]. cbn [bind]. rewrite IH.
  now rewrite (chi_band_perm _ _ _ _ (Astrom_Props.filter_perm _ _ _ P)).
Qed.
Lemma chi_sq_bands mags s vs : (forall b, exists m, mags s b = Ok m) -> forall a b, Permutation a b -> chi_sq mags s vs a = chi_sq mags s vs b.
Proof.
  intros T. induction 1 as [|x a b P IH|x y a|a b c P1 IH1 P2 IH2]; simpl; try reflexivity.
  - destruct (T x) as (m & ->). cbn [bind]. now rewrite IH.
  - destruct (T x) as (m & ->), (T y) as (n & ->). cbn [bind]. destruct (chi_sq _ _ _ _); cbn [bind]; [|reflexivity]. f_equal. lra.
  - congruence.
Qed.
Lemma bands_perm vs ws : Permutation vs ws -> Permutation (bands_of vs) (bands_of ws).
Proof.
  intro P. apply NoDup_Permutation; try apply NoDup_nodup. intro x. unfold bands_of. rewrite !nodup_In.
  split; apply Permutation_in; [|symmetry]; now apply Permutation_map.
Qed.
(** the order of the visits does not matter *)
Theorem C317_order mags sf sig stars vs ws : (forall s b, exists m, mags s b = Ok m) -> Permutation vs ws ->
  periodic_run mags sf sig stars vs = periodic_run mags sf sig stars ws.
Proof.
  intros T P. unfold periodic_run. pose proof (bands_perm vs ws P) as B. rewrite (Permutation_length P), (Permutation_length B). destruct (Nat.ltb _ _); [|reflexivity].
  induction stars as [|s t IH]; simpl; [reflexivity|]. rewrite (chi_sq_visits mags s vs ws _ P), (chi_sq_bands mags s ws (T s) _ _ B), IH.
  now rewrite (Permutation_length P), (Permutation_length B).
Qed.
Print Assumptions C317_order.
Example C317_case : let vs := map (fun t => {| p_mjd := t; p_m5 := 24; p_band := "r" |}) [0; 1; 2; 3; 4] in
  (3 + length (nodup string_dec (map p_band vs)) < length vs)%nat /\
  periodic_run (fun _ _ => Ok 20) (fun f _ _ => Some (if Rle_dec f 0 then 1 else 0)) (5/100) [{| s_period := 1; s_mag := 20; s_amp := 0 |}] vs = Ok O.
Proof.
  cbv zeta. split; [vm_compute; lia|]. apply C317_constant; [eexists; reflexivity | | lra | intros s [<-|[]]; reflexivity].
  intros f _ _ H. destruct (Rle_dec f 0); [reflexivity | contradiction].
Qed.
