(** Proofs: trailing losses, the angle between directions, rectangles. *)
From Coq Require Import Reals Lra Lia Psatz.
From Verif Require Import Base Orbits_Model OrbitsIO_Model DirectObs_Model DirectObs_Spec.
Open Scope R_scope.

(** * Losses *)
Lemma ln10_pos : 0 < ln 10.
Proof. rewrite <- ln_1. apply ln_increasing; lra. Qed.
Lemma trail_is_loss : forall v s t, dmag_trail v s t = loss 0.761 1.162 v s t.
Proof. intros v s t. unfold dmag_trail, loss, log10, trail_x. cbv zeta. rewrite ?Rmult_1_r. simpl pow. rewrite ?Rmult_1_r. reflexivity. Qed.
Lemma detect_is_loss : forall v s t, dmag_detect v s t = loss 0.420 0.003 v s t.
Proof. intros v s t. unfold dmag_detect, loss, log10, trail_x. cbv zeta. rewrite ?Rmult_1_r. simpl pow. rewrite ?Rmult_1_r. reflexivity. Qed.

Definition bump (a b x : R) : R := a * (x * x) / (1 + b * x).
Lemma bump_0 : forall a b, bump a b 0 = 0.
Proof. intros a b. unfold bump. field; lra. Qed.
Lemma bump_mono : forall a b x y, 0 < a -> 0 <= b -> 0 <= x -> x < y -> bump a b x < bump a b y.
Proof.
  intros a b x y Ha Hb Hx Hy. unfold bump.
  assert (0 < 1 + b * x) by nra. assert (0 < 1 + b * y) by nra.
  apply Rmult_lt_reg_r with (1 + b * x); [assumption|]. apply Rmult_lt_reg_r with (1 + b * y); [assumption|].
  replace (a * (x * x) / (1 + b * x) * (1 + b * x) * (1 + b * y)) with (a * (x * x) * (1 + b * y)) by (field; lra).
  replace (a * (y * y) / (1 + b * y) * (1 + b * x) * (1 + b * y)) with (a * (y * y) * (1 + b * x)) by (field; lra).
  rewrite !Rmult_assoc. apply Rmult_lt_compat_l; [assumption|].
  assert (x * x < y * y) by nra. assert (0 <= b * (x * y)) by (apply Rmult_le_pos; nra). nra.
Qed.
Lemma bump_nonneg : forall a b x, 0 < a -> 0 <= b -> 0 <= x -> 0 <= bump a b x.
Proof.
  intros a b x Ha Hb Hx. destruct Hx as [Hx | Hx].
  - rewrite <- (bump_0 a b). left. apply bump_mono; auto; lra.
  - subst x. rewrite bump_0. lra.
Qed.
Lemma log_mono : forall u v, 0 <= u -> u < v -> 1.25 * (ln (1 + u) / ln 10) < 1.25 * (ln (1 + v) / ln 10).
Proof.
  intros u v Hu Hv. apply Rmult_lt_compat_l; [lra|]. unfold Rdiv. apply Rmult_lt_compat_r.
  - apply Rinv_0_lt_compat, ln10_pos.
  - apply ln_increasing; lra.
Qed.
Lemma log_zero : 1.25 * (ln (1 + 0) / ln 10) = 0.
Proof. rewrite Rplus_0_r, ln_1. unfold Rdiv. ring. Qed.
Lemma loss_bump : forall a b v s t, loss a b v s t = 1.25 * (ln (1 + bump a b (v * t / s / 24)) / ln 10).
Proof. reflexivity. Qed.
Lemma loss_lt : forall a b v s t v' s' t', 0 < a -> 0 <= b -> 0 <= v * t / s / 24 -> v * t / s / 24 < v' * t' / s' / 24 ->
  loss a b v s t < loss a b v' s' t'.
Proof. intros. rewrite !loss_bump. apply log_mono; [apply bump_nonneg | apply bump_mono]; assumption. Qed.
Lemma loss_rest : forall a b s t, s <> 0 -> loss a b 0 s t = 0.
Proof.
  intros a b s t Hs. rewrite loss_bump. replace (0 * t / s / 24) with 0 by (field; lra). rewrite bump_0. apply log_zero.
Qed.
Lemma x_nonneg : forall v s t, 0 <= v -> 0 < s -> 0 <= t -> 0 <= v * t / s / 24.
Proof.
  intros v s t Hv Hs Ht. unfold Rdiv. apply Rmult_le_pos; [|lra]. apply Rmult_le_pos; [apply Rmult_le_pos; assumption|].
  left. apply Rinv_0_lt_compat; assumption.
Qed.
Lemma loss_nonneg : forall a b v s t, 0 < a -> 0 <= b -> 0 <= v -> 0 < s -> 0 <= t -> 0 <= loss a b v s t.
Proof.
  intros a b v s t Ha Hb Hv Hs Ht. rewrite loss_bump.
  pose proof (bump_nonneg a b (v * t / s / 24) Ha Hb (x_nonneg v s t Hv Hs Ht)) as [H | H].
  - rewrite <- log_zero. left. apply log_mono; lra.
  - rewrite <- H, log_zero. lra.
Qed.
Lemma bump_cmp : forall x, 0 < x -> (bump 0.761 1.162 x <= bump 0.420 0.003 x <-> 0.341 <= 0.485757 * x).
Proof.
  intros x Hx. unfold bump.
  assert (P : 0 < 1 + 1.162 * x) by lra. assert (Q : 0 < 1 + 0.003 * x) by lra.
  assert (E : (0.420 * (x * x) / (1 + 0.003 * x) - 0.761 * (x * x) / (1 + 1.162 * x)) * ((1 + 1.162 * x) * (1 + 0.003 * x)) =
              (x * x) * (0.485757 * x - 0.341)).
  { transitivity ((x * x) * (0.420 * (1 + 1.162 * x) - 0.761 * (1 + 0.003 * x))).
    - generalize dependent (1 + 1.162 * x). generalize dependent (1 + 0.003 * x). intros q Hq p' Hp. field. lra.
    - f_equal. lra. }
  set (d := 0.420 * (x * x) / (1 + 0.003 * x) - 0.761 * (x * x) / (1 + 1.162 * x)) in *.
  assert (PQ : 0 < (1 + 1.162 * x) * (1 + 0.003 * x)) by (apply Rmult_lt_0_compat; assumption).
  assert (XX : 0 < x * x) by nra.
  split; intro H.
  - assert (0 <= d) by (unfold d; lra). assert (0 <= x * x * (0.485757 * x - 0.341)) by (rewrite <- E; nra). nra.
  - assert (0 <= x * x * (0.485757 * x - 0.341)) by (apply Rmult_le_pos; lra). rewrite <- E in H0.
    assert (0 <= d); [|unfold d in *; lra]. destruct (Rle_dec 0 d); [assumption|]. exfalso. nra.
Qed.
Lemma log_le_iff : forall u v, 0 <= u -> 0 <= v -> (1.25 * (ln (1 + u) / ln 10) <= 1.25 * (ln (1 + v) / ln 10) <-> u <= v).
Proof.
  intros u v Hu Hv. split; intro H.
  - destruct (Rle_dec u v); [assumption|]. exfalso. pose proof (log_mono v u Hv ltac:(lra)). lra.
  - destruct H as [H | H]; [left; apply log_mono; assumption | subst; right; reflexivity].
Qed.

(** * Angles between directions *)
Lemma acos_le : forall x y, -1 <= x -> x <= y -> y <= 1 -> acos y <= acos x.
Proof.
  intros x y Hx Hxy Hy. destruct (Rle_dec (acos y) (acos x)) as [L | L]; [assumption|]. exfalso.
  pose proof (acos_bound x) as [A B]. pose proof (acos_bound y) as [C D].
  assert (H : cos (acos y) < cos (acos x)) by (apply cos_decreasing_1; lra).
  rewrite !cos_acos in H by lra. lra.
Qed.
Lemma sin_acos_nonneg : forall x, 0 <= sin (acos x).
Proof. intro x. pose proof (acos_bound x). apply sin_ge_0; lra. Qed.
Lemma sq_sin_acos : forall x, -1 <= x <= 1 -> sin (acos x) * sin (acos x) = 1 - x * x.
Proof. intros x H. pose proof (sin2_cos2 (acos x)) as E. unfold Rsqr in E. rewrite cos_acos in E by assumption. lra. Qed.
Lemma acos_triangle : forall a b c, -1 <= a <= 1 -> -1 <= b <= 1 -> -1 <= c <= 1 ->
  0 <= 1 + 2 * a * b * c - a * a - b * b - c * c -> acos c <= acos a + acos b.
Proof.
  intros a b c Ha Hb Hc G.
  pose proof (acos_bound a) as [A1 A2]. pose proof (acos_bound b) as [B1 B2]. pose proof (acos_bound c) as [C1 C2].
  destruct (Rle_dec PI (acos a + acos b)) as [L | L]; [lra|].
  assert (K : cos (acos a + acos b) <= c).
  { rewrite cos_plus, !cos_acos by assumption.
    pose proof (sin_acos_nonneg a) as Sa. pose proof (sin_acos_nonneg b) as Sb.
    pose proof (sq_sin_acos a Ha) as Ea. pose proof (sq_sin_acos b Hb) as Eb.
    set (s := sin (acos a)) in *. set (t := sin (acos b)) in *.
    destruct (Rle_dec (a * b - s * t) c) as [N | N]; [assumption|]. exfalso.
    assert (P : 0 <= s * t) by (apply Rmult_le_pos; assumption).
    assert (Q : (s * t) * (s * t) = (1 - a * a) * (1 - b * b)) by (rewrite <- Ea, <- Eb; ring).
    assert (U : s * t < a * b - c) by lra.
    assert ((s * t) * (s * t) < (a * b - c) * (a * b - c)) by nra.
    nra. }
  rewrite <- (acos_cos (acos a + acos b)) by lra.
  apply acos_le; [apply COS_bound | assumption | lra].
Qed.
Definition ux (r d : R) := cos d * cos r. Definition uy (r d : R) := cos d * sin r. Definition uz (r d : R) := sin d.
Definition dot (r d r' d' : R) : R := ux r d * ux r' d' + uy r d * uy r' d' + uz r d * uz r' d'.
Lemma dot_formula : forall r d r' d', sin d * sin d' + cos d * cos d' * cos (r - r') = dot r d r' d'.
Proof. intros. rewrite cos_minus. unfold dot, ux, uy, uz. ring. Qed.
Lemma unit_norm : forall r d, ux r d * ux r d + uy r d * uy r d + uz r d * uz r d = 1.
Proof.
  intros r d. unfold ux, uy, uz. pose proof (sin2_cos2 r) as A. pose proof (sin2_cos2 d) as B. unfold Rsqr in *.
  transitivity (cos d * cos d * (sin r * sin r + cos r * cos r) + sin d * sin d); [ring|]. rewrite A. lra.
Qed.
Lemma dot_bound : forall r d r' d', -1 <= dot r d r' d' <= 1.
Proof.
  intros. pose proof (unit_norm r d) as A. pose proof (unit_norm r' d') as B. unfold dot.
  set (a := ux r d) in *. set (b := uy r d) in *. set (c := uz r d) in *.
  set (x := ux r' d') in *. set (y := uy r' d') in *. set (z := uz r' d') in *.
  pose proof (Rle_0_sqr (a - x)). pose proof (Rle_0_sqr (b - y)). pose proof (Rle_0_sqr (c - z)).
  pose proof (Rle_0_sqr (a + x)). pose proof (Rle_0_sqr (b + y)). pose proof (Rle_0_sqr (c + z)). unfold Rsqr in *.
  split; lra.
Qed.
Lemma gram : forall a b c x y z u v w, a * a + b * b + c * c = 1 -> x * x + y * y + z * z = 1 -> u * u + v * v + w * w = 1 ->
  let p := a * x + b * y + c * z in let q := x * u + y * v + z * w in let s := a * u + b * v + c * w in
  0 <= 1 + 2 * p * q * s - p * p - q * q - s * s.
Proof.
  intros a b c x y z u v w A B C p q s.
  assert (E : 1 + 2 * p * q * s - p * p - q * q - s * s =
              (a * (y * w - z * v) - b * (x * w - z * u) + c * (x * v - y * u)) * (a * (y * w - z * v) - b * (x * w - z * u) + c * (x * v - y * u))).
  { transitivity ((a * a + b * b + c * c) * (x * x + y * y + z * z) * (u * u + v * v + w * w) + 2 * p * q * s
                  - p * p * (u * u + v * v + w * w) - q * q * (a * a + b * b + c * c) - s * s * (x * x + y * y + z * z)).
    - rewrite A, B, C. ring.
    - unfold p, q, s. ring. }
  rewrite E. apply Rle_0_sqr.
Qed.
Lemma great_circle_metric : metric great_circle.
Proof.
  split.
  - intros a b c d. unfold great_circle. cbv zeta. rewrite !dot_formula.
    assert (E : forall r d r' d', dot r d r' d' = dot r' d' r d) by (intros; unfold dot; ring).
    rewrite (E (a * PI / 180)). reflexivity.
  - intros a b c d e f. unfold great_circle. cbv zeta.
    rewrite !dot_formula.
    set (A := dot (a * PI / 180) (b * PI / 180) (c * PI / 180) (d * PI / 180)).
    set (B := dot (c * PI / 180) (d * PI / 180) (e * PI / 180) (f * PI / 180)).
    set (C := dot (a * PI / 180) (b * PI / 180) (e * PI / 180) (f * PI / 180)).
    assert (H : acos C <= acos A + acos B).
    { apply acos_triangle; try apply dot_bound. unfold A, B, C, dot. apply gram; apply unit_norm. }
    pose proof PI_RGT_0.
    replace (acos A * 180 / PI + acos B * 180 / PI) with ((acos A + acos B) * 180 / PI) by (field; lra).
    unfold Rdiv. apply Rmult_le_compat_r; [left; apply Rinv_0_lt_compat; lra|]. lra.
Qed.

(** * Rectangles *)
Lemma leb_iff : forall x y, leb x y = true <-> x <= y.
Proof. intros x y. unfold leb. destruct (Rle_dec x y); split; intro; [assumption | reflexivity | discriminate | contradiction]. Qed.
Lemma rectangle_iff : forall s p v, s_degrees s = true ->
  (in_rectangle s p v = true <-> Rabs (snd p - v_dec v) <= s_y_tol s /\ Rabs ((fst p - v_ra v) * cos (v_dec v * PI / 180)) <= s_x_tol s).
Proof. intros s p v D. unfold in_rectangle, to_radians. rewrite andb_true_iff, !leb_iff. tauto. Qed.
Lemma rectangle_sound : forall s p v, s_degrees s = true -> in_rectangle s p v = true -> inside_rectangle s p v.
Proof.
  intros s p v D H. apply rectangle_iff in H; [|assumption]. unfold inside_rectangle, pointing. rewrite D. cbn [fst snd].
  destruct H as [A B]. split; [assumption|]. exists 0%Z. replace (fst p - v_ra v - 360 * IZR 0) with (fst p - v_ra v) by (simpl; ring). assumption.
Qed.
Lemma wrap_far : forall x (k : Z), Rabs x <= 180 -> Rabs x <= Rabs (x - 360 * IZR k).
Proof.
  intros x k H. destruct (Z.eq_dec k 0) as [-> | K]. { right. f_equal. simpl. ring. }
  assert (1 <= Rabs (IZR k)).
  { destruct (Z_lt_le_dec k 0).
    - assert (IZR k <= -1) by (apply (IZR_le k (-1)); lia). rewrite Rabs_left by lra. lra.
    - assert (1 <= IZR k) by (apply (IZR_le 1 k); lia). rewrite Rabs_right by lra. lra. }
  unfold Rabs in *. repeat destruct Rcase_abs; lra.
Qed.
Lemma rectangle_complete : forall s p v, s_degrees s = true -> Rabs (fst p - v_ra v) <= 180 -> inside_rectangle s p v -> in_rectangle s p v = true.
Proof.
  intros s p v D W H. apply rectangle_iff; [assumption|]. unfold inside_rectangle, pointing in H. rewrite D in H. cbn [fst snd] in H.
  destruct H as [A [k B]]. split; [assumption|]. eapply Rle_trans; [|exact B]. rewrite !Rabs_mult. apply Rmult_le_compat_r; [apply Rabs_pos|].
  apply wrap_far; assumption.
Qed.
