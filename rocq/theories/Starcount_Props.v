(** C408-C415: star counts. *)
From Coq Require Import String.
From Verif Require Import Base Starcount_Model Starcount_Spec.
From Verif Require Astrom_Model.
From Coq Require Import Reals Lra Lia List.
Import ListNotations.
Open Scope R_scope.

(** *** C408, C409: both metrics raise for all data *)
Theorem C408_refuted : forall d1 d2 rows, (exists e, count_run d1 d2 rows = Err e) /\
  (forall a b ra dec row rest, rows = (a :: b :: ra :: dec :: row) :: rest -> count_run d1 d2 rows = Err TypeError).
Proof.
  intros d1 d2 rows. split.
  - unfold count_run. destruct (position rows) as [p|e]; eexists; reflexivity.
  - intros a b ra dec row rest ->. reflexivity.
Qed.
Print Assumptions C408_refuted.
(** also called as a function, the count has no coordinates *)
Theorem C408_function_refuted : forall ra dec d1 d2, starcount ra dec d1 d2 = Err AttributeError.
Proof. reflexivity. Qed.
Print Assumptions C408_function_refuted.
Lemma known_bands band : existsb (String.eqb band) ["z"; "y"; "i"; "r"; "g"; "u"]%string = true -> exists g m, gamma_of band = Ok g /\ m5_of band = Ok m.
Proof.
  intros H. apply existsb_exists in H. destruct H as (b & I & E). apply String.eqb_eq in E. subst b.
  repeat (destruct I as [<-|I]; [cbn; eexists; eexists; split; reflexivity|]). destruct I.
Qed.
Lemma mass_raises solve absmag ra dec m1 m2 band : exists e, starcount_bymass solve absmag ra dec m1 m2 band = Err e /\
  (existsb (String.eqb band) ["z"; "y"; "i"; "r"; "g"; "u"]%string = true -> e = TypeError) /\
  (existsb (String.eqb band) ["z"; "y"; "i"; "r"; "g"; "u"]%string = false -> e = ValueError).
Proof.
  unfold starcount_bymass. cbn [seq each]. unfold dist_calc at 1. destruct (existsb _ _) eqn:B.
  - destruct (known_bands _ B) as (g & m & G & M). unfold noise_calc, newton, noise_fun. rewrite G, M. cbn [bind]. eexists. split; [reflexivity|]. split; [reflexivity|discriminate].
  - cbn [bind]. eexists. split; [reflexivity|]. split; [discriminate|reflexivity].
Qed.
Theorem C409_refuted : forall solve absmag m1 m2 band rows, (exists e, mass_run solve absmag m1 m2 band rows = Err e) /\
  (forall a b ra dec row rest, rows = (a :: b :: ra :: dec :: row) :: rest -> In band ["u"; "g"; "r"; "i"; "z"; "y"]%string ->
     mass_run solve absmag m1 m2 band rows = Err TypeError).
Proof.
  intros solve absmag m1 m2 band rows. split.
  - unfold mass_run. destruct (position rows) as [p|e]; [|eexists; reflexivity]. cbn [bind].
    destruct (mass_raises solve absmag (fst p) (snd p) m1 m2 band) as (e & -> & _). eexists; reflexivity.
  - intros a b ra dec row rest -> I. unfold mass_run. cbn [position arr_get nth_error bind].
    match goal with |- starcount_bymass _ _ ?x ?y _ _ _ = _ => destruct (mass_raises solve absmag x y m1 m2 band) as (e & -> & T & _) end.
    rewrite T; [reflexivity|]. apply existsb_exists. exists band. split; [|apply String.eqb_refl].
    repeat (destruct I as [<-|I]; [cbn; tauto|]). destruct I.
Qed.
Print Assumptions C409_refuted.

(** *** C410: the shells *)
Lemma cbrt_cube x : 0 <= x -> cbrt x ^ 3 = x.
Proof.
  intros P. unfold cbrt. destruct (Rle_dec x 0); [assert (x = 0) by lra; subst; ring|].
  rewrite <- Rpower_pow by apply exp_pos. rewrite Rpower_mult. replace (1/3 * INR 3) with 1 by (cbn [INR]; field). apply Rpower_1. lra.
Qed.
Lemma cbrt_nonneg x : 0 <= cbrt x.
Proof. unfold cbrt. destruct (Rle_dec x 0); [lra|left; apply exp_pos]. Qed.
Lemma cube_le a b : 0 <= a -> 0 <= b -> a ^ 3 <= b ^ 3 -> a <= b.
Proof. intros A B H. destruct (Rle_or_lt a b) as [L|L]; [exact L|]. exfalso. assert (0 < (a - b) * (a * a + a * b + b * b)).
  { apply Rmult_lt_0_compat; [lra|]. assert (0 < a * a) by (apply Rmult_lt_0_compat; lra). assert (0 <= a * b) by (apply Rmult_le_pos; lra). assert (0 <= b * b) by (apply Rmult_le_pos; lra). lra. }
  replace ((a - b) * (a * a + a * b + b * b)) with (a ^ 3 - b ^ 3) in H0 by ring. lra. Qed.
Lemma edge_cube d1 d2 i : 0 <= d1 <= d2 -> (i <= 50)%nat -> edge d1 d2 i ^ 3 = d1 ^ 3 + INR i * ((d2 ^ 3 - d1 ^ 3) / 50).
Proof.
  intros (A & B) L. unfold edge. apply cbrt_cube. assert (d1 ^ 3 <= d2 ^ 3) by (apply pow_incr; lra). assert (0 <= d1 ^ 3) by (apply pow_le, A).
  pose proof (pos_INR i). assert (0 <= INR i * ((d2 ^ 3 - d1 ^ 3) / 50)) by (apply Rmult_le_pos; lra). lra.
Qed.
Lemma shell_is d1 d2 area i : 0 <= d1 <= d2 -> (i < 50)%nat ->
  fst (shell d1 d2 area i) = area / 41253 * (4 * PI / 3) * ((d2 ^ 3 - d1 ^ 3) / 50) /\
  snd (shell d1 d2 area i) ^ 3 = d1 ^ 3 + (INR i + 1/2) * ((d2 ^ 3 - d1 ^ 3) / 50) /\ d1 <= snd (shell d1 d2 area i) <= d2.
Proof.
  intros D L. unfold shell. cbn [fst snd]. rewrite !(edge_cube d1 d2) by (assumption || lia). rewrite S_INR.
  assert (E : d1 ^ 3 <= d2 ^ 3) by (apply pow_incr; lra). assert (0 <= d1 ^ 3) by (apply pow_le, D). pose proof (pos_INR i) as PI0.
  assert (LI : INR i <= 49) by (replace 49 with (INR 49) by (cbn [INR]; lra); apply le_INR; lia).
  set (w := (d2 ^ 3 - d1 ^ 3) / 50). assert (PW : 0 <= w) by (unfold w; lra). assert (W50 : d2 ^ 3 = d1 ^ 3 + 50 * w) by (unfold w; field).
  assert (C : cbrt ((d1 ^ 3 + (INR i + 1) * w + (d1 ^ 3 + INR i * w)) / 2) ^ 3 = d1 ^ 3 + (INR i + 1/2) * w).
  { rewrite cbrt_cube; [field|]. assert (0 <= INR i * w) by (apply Rmult_le_pos; assumption). lra. }
  split; [ring|]. split; [exact C|]. split.
  - apply cube_le; [lra|apply cbrt_nonneg|]. rewrite C. assert (0 <= (INR i + 1/2) * w) by (apply Rmult_le_pos; lra). lra.
  - apply cube_le; [apply cbrt_nonneg|lra|]. rewrite C, W50. assert ((INR i + 1/2) * w <= 50 * w) by (apply Rmult_le_compat_r; lra). lra.
Qed.
Theorem C410_shells : forall d1 d2 area, 0 <= d1 <= d2 -> length (star_vols d1 d2 area) = 50%nat /\
  forall i s, nth_error (star_vols d1 d2 area) i = Some s ->
    (forall v, Cone area d1 d2 v -> fst s = v / 50) /\ d1 <= snd s <= d2 /\
    (** half of the shell is nearer than its distance *)
    (forall v, Cone area d1 (snd s) v -> v = (INR i + 1/2) * fst s).
Proof.
  intros d1 d2 area D. split; [reflexivity|]. intros i s N. unfold star_vols in N. rewrite nth_error_map in N.
  destruct (nth_error (seq 0 50) i) as [k|] eqn:K; [|discriminate]. cbn [option_map] in N. injection N as <-.
  assert (LI : (i < 50)%nat) by (rewrite <- (seq_length 50 0); apply nth_error_Some; congruence).
  assert (k = i) by (apply (nth_error_nth _ _ 0%nat) in K; rewrite seq_nth in K by exact LI; lia). subst k.
  destruct (shell_is d1 d2 area i D LI) as (A & B & C). split; [intros v ->; rewrite A; field|]. split; [exact C|].
  intros v ->. rewrite A, B. field.
Qed.
Print Assumptions C410_shells.
Lemma sum_const (f : nat -> R) c l : (forall i, In i l -> f i = c) -> fold_right Rplus 0 (map f l) = INR (length l) * c.
Proof.
  induction l as [|i l IH]; intros H; [cbn; ring|]. cbn [map fold_right length]. rewrite S_INR, IH by (intros j J; apply H; right; exact J). rewrite (H i) by (left; reflexivity). ring.
Qed.
Theorem C410_total : forall d1 d2 area s v, 0 <= d1 <= d2 -> Total (map fst (star_vols d1 d2 area)) s -> Cone area d1 d2 v -> s = v.
Proof.
  intros d1 d2 area s v D -> ->. unfold star_vols. rewrite map_map.
  rewrite (sum_const _ (area / 41253 * (4 * PI / 3) * ((d2 ^ 3 - d1 ^ 3) / 50))).
  - rewrite seq_length. replace (INR 50) with 50 by (cbn [INR]; lra). field.
  - intros i I. apply in_seq in I. apply shell_is; [exact D|lia].
Qed.
Print Assumptions C410_total.

(** *** C411: cylindrical coordinates *)
Lemma rad x : radians x = x * PI / 180.
Proof. unfold radians. field. Qed.
Theorem C411_place : forall b l dist x y z r phi h, Place b l dist x y z -> gal_cyn b l dist = (r, phi, h) -> Radius x y r /\ h = z.
Proof.
  intros b l dist x y z r phi h (-> & -> & ->) H. unfold gal_cyn in H. cbv zeta in H. injection H as <- _ <-. rewrite !rad. split; [|ring]. split; [apply sqrt_pos|].
  rewrite <- Rsqr_pow2. rewrite Rsqr_sqrt; [ring|]. apply Rplus_le_le_0_compat; apply Rle_0_sqr.
Qed.
Print Assumptions C411_place.
Theorem C411_angle_refuted : exists b l dist x y z r phi h, Place b l dist x y z /\ gal_cyn b l dist = (r, phi, h) /\ Radius x y r /\ ~ Angle x y r phi.
Proof.
  set (q := 1000 * cos (PI / 4)).
  assert (Q : 0 < q <= 1000). { unfold q. assert (0 < cos (PI / 4)) by (apply cos_gt_0; pose proof PI_RGT_0; lra). pose proof (COS_bound (PI / 4)). lra. }
  exists 0, 45, 1000, (8000 - q), q, 0, (sqrt ((8000 - q) * (8000 - q) + q * q)), (PI / 4), 0.
  assert (E0 : 0 * PI / 180 = 0) by field. assert (E1 : 45 * PI / 180 = PI / 4) by field.
  assert (SC : sin (PI / 4) = cos (PI / 4)) by (rewrite sin_PI4, cos_PI4; reflexivity).
  assert (P : Place 0 45 1000 (8000 - q) q 0).
  { unfold Place. rewrite E0, E1, cos_0, sin_0, SC. unfold q. repeat split; ring. }
  assert (G : gal_cyn 0 45 1000 = (sqrt ((8000 - q) * (8000 - q) + q * q), PI / 4, 0)).
  { unfold gal_cyn. cbv zeta. rewrite !rad, E0, E1, cos_0, sin_0, SC. replace (cos (PI / 4) * (1 * 1000)) with q by (unfold q; ring).
    rewrite Rmult_0_l. replace (q / q) with 1 by (field; lra). rewrite atan_1. reflexivity. }
  split; [exact P|]. split; [exact G|]. destruct (C411_place _ _ _ _ _ _ _ _ _ P G) as (RR & _). split; [exact RR|].
  intros (A & B). rewrite SC in B. lra.
Qed.
Print Assumptions C411_angle_refuted.
