(** Light curves of microlensing events and their derivatives: properties C361 and C362. *)
From Coq Require Import Reals Lra Lia List Psatz.
From Verif Require Import Base Micro_Model.
Import ListNotations.
Open Scope R_scope.

(** ** The square of the separation *)
Lemma sq_sep u0 te t0 t : separation u0 te t0 t ^ 2 = u0 ^ 2 + (t - t0) ^ 2 / te ^ 2.
Proof.
  unfold separation. rewrite <- Rsqr_pow2. apply Rsqr_sqrt.
  apply Rplus_le_le_0_compat; [ apply pow2_ge_0 | ]. unfold Rdiv. apply Rmult_le_pos; [ apply pow2_ge_0 | ].
  rewrite <- Rsqr_pow2. destruct (Req_dec te 0) as [->|N].
  - unfold Rsqr. rewrite Rmult_0_l. rewrite Rinv_0. lra.
  - apply Rlt_le, Rinv_0_lt_compat, Rsqr_pos_lt, N.
Qed.
Lemma sep_nonneg u0 te t0 t : 0 <= separation u0 te t0 t.
Proof. apply sqrt_pos. Qed.
Lemma quot_sq (a b : R) : b <> 0 -> a ^ 2 / b ^ 2 = (a / b) ^ 2.
Proof. intro; field; assumption. Qed.
Lemma inner_pos u0 te t0 t : te <> 0 -> u0 <> 0 \/ t <> t0 -> 0 < u0 ^ 2 + (t - t0) ^ 2 / te ^ 2.
Proof.
  intros N H. rewrite quot_sq by assumption. rewrite <- !Rsqr_pow2. destruct H as [H|H].
  - pose proof (Rsqr_pos_lt u0 H). pose proof (Rle_0_sqr ((t - t0) / te)). lra.
  - pose proof (Rle_0_sqr u0). assert ((t - t0) / te <> 0) by (apply Rmult_integral_contrapositive; split; [ lra | apply Rinv_neq_0_compat; assumption ]).
    pose proof (Rsqr_pos_lt _ H1). lra.
Qed.
(** ** The magnification as a function of the square of the separation *)
Definition curve (x : R) : R := (x + 2) / (sqrt x * sqrt (x + 4)).
Lemma magnification_curve u : 0 <= u -> magnification u = curve (u ^ 2).
Proof. intro H. unfold magnification, curve. rewrite (sqrt_pow2 u H). reflexivity. Qed.
Lemma curve_pos x : 0 < x -> 0 < curve x.
Proof.
  intro H. unfold curve. apply Rdiv_lt_0_compat; [ lra | ]. apply Rmult_lt_0_compat; apply sqrt_lt_R0; lra.
Qed.
Lemma curve_sq x : 0 < x -> curve x ^ 2 = 1 + 4 / (x * (x + 4)).
Proof.
  intro H. unfold curve. rewrite <- sqrt_mult by lra. set (s := sqrt (x * (x + 4))).
  assert (S2 : s * s = x * (x + 4)) by (apply sqrt_sqrt; nra).
  assert (P : 0 < s) by (apply sqrt_lt_R0; nra).
  rewrite <- S2. transitivity ((s * s + 4) / (s * s)); [ | field; lra ].
  transitivity ((x + 2) ^ 2 / (s * s)); [ field; lra | ]. f_equal. rewrite S2. ring.
Qed.
Lemma curve_gt1 x : 0 < x -> 1 < curve x.
Proof.
  intro H. pose proof (curve_sq x H). pose proof (curve_pos x H).
  assert (0 < 4 / (x * (x + 4))) by (apply Rdiv_lt_0_compat; nra). nra.
Qed.
Lemma curve_decr x y : 0 < x -> x < y -> curve y < curve x.
Proof.
  intros H L. pose proof (curve_sq x H). pose proof (curve_sq y ltac:(lra)). pose proof (curve_pos x H). pose proof (curve_pos y ltac:(lra)).
  assert (4 / (y * (y + 4)) < 4 / (x * (x + 4))).
  { unfold Rdiv. apply Rmult_lt_compat_l; [ lra | ]. apply Rinv_lt_contravar; [ | nra ]. apply Rmult_lt_0_compat; nra. }
  nra.
Qed.
Lemma amplification_curve u0 te t0 b t : amplification u0 te t0 b t = curve (u0 ^ 2 + (t - t0) ^ 2 / te ^ 2) * b + (1 - b).
Proof. unfold amplification. rewrite magnification_curve by apply sep_nonneg. rewrite sq_sep. reflexivity. Qed.

(** ** C361: the amplification is that of a point lens: more than 1, symmetric, largest at the peak, larger for closer lenses, diluted by blending *)
Theorem C361_point_lens u0 te t0 t : te <> 0 -> u0 <> 0 \/ t <> t0 ->
  1 < amplification u0 te t0 1 t /\
  forall x, x = u0 ^ 2 + ((t - t0) / te) ^ 2 -> amplification u0 te t0 1 t * sqrt (x * (x + 4)) = x + 2.
Proof.
  intros N H. pose proof (inner_pos u0 te t0 t N H) as P. rewrite amplification_curve. split; [ pose proof (curve_gt1 _ P); lra | ].
  intros x ->. rewrite <- quot_sq by assumption. set (x := u0 ^ 2 + (t - t0) ^ 2 / te ^ 2) in *.
  rewrite sqrt_mult by lra. unfold curve.
  assert (0 < sqrt x) by (apply sqrt_lt_R0; lra). assert (0 < sqrt (x + 4)) by (apply sqrt_lt_R0; lra). field. lra.
Qed.
Print Assumptions C361_point_lens.
Theorem C361_symmetric u0 te t0 b d : amplification u0 te t0 b (t0 - d) = amplification u0 te t0 b (t0 + d).
Proof. rewrite !amplification_curve. replace ((t0 - d - t0) ^ 2) with ((t0 + d - t0) ^ 2) by ring. reflexivity. Qed.
Print Assumptions C361_symmetric.
(** nearer to the peak, or with a smaller impact parameter, or with a longer crossing time: strictly brighter *)
Theorem C361_brighter u0 u0' te te' t0 b t t' : te <> 0 -> te' <> 0 -> u0 <> 0 \/ t <> t0 -> 0 < b ->
  Rabs u0 <= Rabs u0' -> Rabs ((t - t0) / te) <= Rabs ((t' - t0) / te') -> Rabs u0 < Rabs u0' \/ Rabs ((t - t0) / te) < Rabs ((t' - t0) / te') ->
  amplification u0' te' t0 b t' < amplification u0 te t0 b t.
Proof.
  intros N N' H B U T S. rewrite !amplification_curve. pose proof (inner_pos u0 te t0 t N H) as P.
  rewrite !quot_sq in * by assumption.
  assert (L : u0 ^ 2 + ((t - t0) / te) ^ 2 < u0' ^ 2 + ((t' - t0) / te') ^ 2).
  { rewrite <- (pow2_abs u0), <- (pow2_abs u0'), <- (pow2_abs ((t - t0) / te)), <- (pow2_abs ((t' - t0) / te')).
    pose proof (Rabs_pos u0). pose proof (Rabs_pos ((t - t0) / te)). destruct S; nra. }
  pose proof (curve_decr _ _ P L). nra.
Qed.
Print Assumptions C361_brighter.
Theorem C361_blend u0 te t0 t : te <> 0 -> u0 <> 0 \/ t <> t0 ->
  amplification u0 te t0 0 t = 1 /\
  (forall b b', b < b' -> amplification u0 te t0 b t < amplification u0 te t0 b' t) /\
  (forall b b' w, amplification u0 te t0 (w * b + (1 - w) * b') t = w * amplification u0 te t0 b t + (1 - w) * amplification u0 te t0 b' t).
Proof.
  intros N H. pose proof (curve_gt1 _ (inner_pos u0 te t0 t N H)) as G. repeat split; intros; rewrite !amplification_curve; [ ring | nra | ring ].
Qed.
Print Assumptions C361_blend.
(** a case: one Einstein radius gives 3 / sqrt 5 *)
Example C361_case : amplification 1 10 50 1 50 * sqrt 5 = 3 /\ amplification 1 10 50 1 60 < amplification 1 10 50 1 50.
Proof.
  split.
  - destruct (C361_point_lens 1 10 50 50 ltac:(lra) (or_introl R1_neq_R0)) as [_ H]. pose proof (H 1 ltac:(field)) as K. replace (1 * (1 + 4)) with 5 in K by lra. lra.
  - apply C361_brighter; try lra; [ | right ]; rewrite !Rabs_right; lra.
Qed.

(** ** Derivatives *)
Lemma D_ext (f g : R -> R) x l : (forall y, f y = g y) -> derivable_pt_lim g x l -> derivable_pt_lim f x l.
Proof. intros E H eps P. destruct (H eps P) as [d K]. exists d. intros h A B. rewrite !E. apply K; assumption. Qed.
Lemma D_val (f : R -> R) x l l' : l = l' -> derivable_pt_lim f x l -> derivable_pt_lim f x l'.
Proof. intros <-; trivial. Qed.
Definition slope (x : R) : R := - 4 / (x * (x + 4) * (sqrt x * sqrt (x + 4))).
Lemma curve_D x : 0 < x -> derivable_pt_lim curve x (slope x).
Proof.
  intro H.
  assert (S0 : 0 < sqrt x) by (apply sqrt_lt_R0; lra). assert (S4 : 0 < sqrt (x + 4)) by (apply sqrt_lt_R0; lra).
  assert (E0 : sqrt x * sqrt x = x) by (apply sqrt_sqrt; lra). assert (E4 : sqrt (x + 4) * sqrt (x + 4) = x + 4) by (apply sqrt_sqrt; lra).
  assert (Num : derivable_pt_lim (fun y => y + 2) x (1 + 0)).
  { apply (derivable_pt_lim_plus (fun y => y) (fun _ => 2)); [ apply derivable_pt_lim_id | apply derivable_pt_lim_const ]. }
  assert (In4 : derivable_pt_lim (fun y => y + 4) x (1 + 0)).
  { apply (derivable_pt_lim_plus (fun y => y) (fun _ => 4)); [ apply derivable_pt_lim_id | apply derivable_pt_lim_const ]. }
  assert (R4 : derivable_pt_lim (fun y => sqrt (y + 4)) x (/ (2 * sqrt (x + 4)) * (1 + 0))).
  { apply (derivable_pt_lim_comp (fun y => y + 4) sqrt); [ exact In4 | apply derivable_pt_lim_sqrt; lra ]. }
  assert (Den : derivable_pt_lim (fun y => sqrt y * sqrt (y + 4)) x (/ (2 * sqrt x) * sqrt (x + 4) + sqrt x * (/ (2 * sqrt (x + 4)) * (1 + 0)))).
  { apply (derivable_pt_lim_mult sqrt (fun y => sqrt (y + 4))); [ apply derivable_pt_lim_sqrt; lra | exact R4 ]. }
  assert (NZ : sqrt x * sqrt (x + 4) <> 0) by nra.
  pose proof (derivable_pt_lim_div (fun y => y + 2) (fun y => sqrt y * sqrt (y + 4)) x _ _ Num Den NZ) as D.
  refine (D_val _ _ _ _ _ D). unfold slope. clear D Den R4 In4 Num. revert S0 S4 E0 E4 NZ. generalize (sqrt x) (sqrt (x + 4)). intros p q S0 S4 E0 E4 NZ.
  assert (Q : q * q = p * p + 4) by lra. rewrite <- E0. unfold Rsqr.
  apply Rmult_eq_reg_r with (p * p * (q * q) * (p * q)); [ | apply Rgt_not_eq; repeat apply Rmult_lt_0_compat; lra ].
  transitivity (p * p * (q * q) - (p * p + 2) * (q * q + p * p) / 2); [ field; split; lra | ].
  transitivity (- 4 * (q * q) / (p * p + 4)); [ | field; rewrite <- Q; repeat split; nra ].
  rewrite Q. field. nra.
Qed.
Lemma pow32 x : 0 < x -> Rpower x (3 / 2) = x * sqrt x.
Proof.
  intro H. replace (3 / 2) with (1 + / 2) by field. rewrite Rpower_plus, Rpower_1, Rpower_sqrt by assumption. reflexivity.
Qed.
Lemma D_sq (f : R -> R) x l : derivable_pt_lim f x l -> derivable_pt_lim (fun y => f y ^ 2) x (2 * f x * l).
Proof.
  intro D. apply (D_ext _ (fun y => f y * f y)); [ intro; ring | ].
  refine (D_val _ _ _ _ _ (derivable_pt_lim_mult f f x l l D D)). ring.
Qed.
Lemma flux_D (g : R -> R) (fs fb x l : R) : 0 < g x -> derivable_pt_lim g x l -> derivable_pt_lim (fun y => fs * curve (g y) + fb) x (fs * (slope (g x) * l)).
Proof.
  intros P D. pose proof (derivable_pt_lim_comp g curve x l _ D (curve_D _ P)) as C.
  pose proof (derivable_pt_lim_scal _ fs x _ C) as M.
  pose proof (derivable_pt_lim_plus _ (fun _ => fb) x _ _ M (derivable_pt_lim_const fb x)) as A.
  refine (D_val _ _ _ _ _ A). ring.
Qed.
Lemma flux_amp fs fb u0 te t0 t : fs * amplification u0 te t0 1 t + fb = fs * curve (u0 ^ 2 + (t - t0) ^ 2 / te ^ 2) + fb.
Proof. rewrite amplification_curve. ring. Qed.
Lemma inner_form u0 te t0 t : te <> 0 -> u0 ^ 2 + / te ^ 2 * (t - t0) ^ 2 = u0 ^ 2 + (t - t0) ^ 2 / te ^ 2.
Proof. intro; field; assumption. Qed.
Lemma coefficients_slope t t0 te u0 fs : te <> 0 -> 0 < u0 ^ 2 + (t - t0) ^ 2 / te ^ 2 ->
  coefficients_pspl t t0 te u0 fs =
  let s := fs * slope (u0 ^ 2 + (t - t0) ^ 2 / te ^ 2) in [s * (-2 * (t - t0) / te ^ 2); s * (2 * u0); s * (-2 * (t - t0) ^ 2 / te ^ 3)].
Proof.
  intros N P. unfold coefficients_pspl. cbv zeta. rewrite inner_form by assumption. rewrite !pow32 by lra. unfold slope.
  set (x := u0 ^ 2 + (t - t0) ^ 2 / te ^ 2) in *. clearbody x.
  assert (S0 : 0 < sqrt x) by (apply sqrt_lt_R0; lra). assert (S4 : 0 < sqrt (x + 4)) by (apply sqrt_lt_R0; lra).
  f_equal; [ | f_equal; [ | f_equal ] ]; field; repeat split; try assumption; lra.
Qed.
(** ** C362: the derivatives used for the information are those of the flux by the peak time, the impact parameter and the crossing time, in this
    order, and by the flux of the blend and of the source *)
Theorem C362_derivatives t t0 te u0 fs fb : te <> 0 -> u0 <> 0 \/ t <> t0 ->
  exists d_t0 d_u0 d_te, coefficients_pspl t t0 te u0 fs = [d_t0; d_u0; d_te] /\
    derivable_pt_lim (fun y => fs * amplification u0 te y 1 t + fb) t0 d_t0 /\
    derivable_pt_lim (fun y => fs * amplification y te t0 1 t + fb) u0 d_u0 /\
    derivable_pt_lim (fun y => fs * amplification u0 y t0 1 t + fb) te d_te.
Proof.
  intros N H. pose proof (inner_pos u0 te t0 t N H) as P. rewrite coefficients_slope by assumption. cbv zeta.
  do 3 eexists. split; [ reflexivity | ]. repeat split.
  - apply (D_ext _ _ _ _ (fun y => flux_amp fs fb u0 te y t)).
    assert (D1 : derivable_pt_lim (fun y => t - y) t0 (0 - 1)).
    { apply (derivable_pt_lim_minus (fun _ => t) (fun y => y)); [ apply derivable_pt_lim_const | apply derivable_pt_lim_id ]. }
    apply D_sq in D1. pose proof (derivable_pt_lim_scal _ (/ te ^ 2) t0 _ D1) as D2.
    pose proof (derivable_pt_lim_plus (fun _ => u0 ^ 2) _ t0 _ _ (derivable_pt_lim_const _ t0) D2) as D3.
    assert (D4 : derivable_pt_lim (fun y => u0 ^ 2 + (t - y) ^ 2 / te ^ 2) t0 (-2 * (t - t0) / te ^ 2)).
    { refine (D_ext _ _ _ _ _ (D_val _ _ _ _ _ D3)); [ intro y; unfold plus_fct, mult_real_fct, Rdiv; ring | field; assumption ]. }
    refine (D_val _ _ _ _ _ (flux_D _ fs fb t0 _ P D4)). ring.
  - apply (D_ext _ _ _ _ (fun y => flux_amp fs fb y te t0 t)).
    pose proof (derivable_pt_lim_plus _ (fun _ => (t - t0) ^ 2 / te ^ 2) u0 _ _ (D_sq _ _ _ (derivable_pt_lim_id u0)) (derivable_pt_lim_const _ u0)) as D3.
    assert (D4 : derivable_pt_lim (fun y => y ^ 2 + (t - t0) ^ 2 / te ^ 2) u0 (2 * u0)).
    { refine (D_val _ _ _ _ _ D3). unfold id. ring. }
    refine (D_val _ _ _ _ _ (flux_D _ fs fb u0 _ P D4)). ring.
  - apply (D_ext _ _ _ _ (fun y => flux_amp fs fb u0 y t0 t)).
    assert (N2 : te ^ 2 <> 0) by (apply pow_nonzero; assumption).
    pose proof (derivable_pt_lim_div (fun _ => (t - t0) ^ 2) (fun y => y ^ 2) te _ _ (derivable_pt_lim_const _ te) (D_sq _ _ _ (derivable_pt_lim_id te)) N2) as D2.
    pose proof (derivable_pt_lim_plus (fun _ => u0 ^ 2) _ te _ _ (derivable_pt_lim_const _ te) D2) as D3.
    assert (D4 : derivable_pt_lim (fun y => u0 ^ 2 + (t - t0) ^ 2 / y ^ 2) te (-2 * (t - t0) ^ 2 / te ^ 3)).
    { refine (D_val _ _ _ _ _ D3). unfold id, Rsqr. field. assumption. }
    refine (D_val _ _ _ _ _ (flux_D _ fs fb te _ P D4)). ring.
Qed.
Print Assumptions C362_derivatives.
Theorem C362_fluxes t t0 te u0 fs fb : te <> 0 -> u0 <> 0 \/ t <> t0 ->
  derivable_pt_lim (fun y => fs * amplification u0 te t0 1 t + y) fb (fst (coefficients_fsfb t t0 te u0)) /\
  derivable_pt_lim (fun y => y * amplification u0 te t0 1 t + fb) fs (snd (coefficients_fsfb t t0 te u0)).
Proof.
  intros N H. split.
  - refine (D_val _ _ _ _ _ (derivable_pt_lim_plus (fun _ => fs * amplification u0 te t0 1 t) (fun y => y) fb _ _ (derivable_pt_lim_const _ fb) (derivable_pt_lim_id fb))).
    simpl. ring.
  - assert (E : snd (coefficients_fsfb t t0 te u0) = amplification u0 te t0 1 t) by (rewrite amplification_curve; unfold curve; simpl; ring).
    rewrite E. apply (D_ext _ (fun y => amplification u0 te t0 1 t * y + fb)); [ intro; ring | ].
    refine (D_val _ _ _ _ _ (derivable_pt_lim_plus _ (fun _ => fb) fs _ _ (derivable_pt_lim_scal _ _ fs _ (derivable_pt_lim_id fs)) (derivable_pt_lim_const _ fs))).
    ring.
Qed.
Print Assumptions C362_fluxes.
(** at the peak only the impact parameter matters; a case *)
Theorem C362_peak t0 te u0 fs : te <> 0 -> u0 <> 0 -> fs <> 0 ->
  exists d, d <> 0 /\ coefficients_pspl t0 t0 te u0 fs = [0; d; 0].
Proof.
  intros N U F. assert (P : 0 < u0 ^ 2 + (t0 - t0) ^ 2 / te ^ 2) by (apply inner_pos; auto).
  rewrite coefficients_slope by assumption. cbv zeta. set (x := u0 ^ 2 + (t0 - t0) ^ 2 / te ^ 2) in *. exists (fs * slope x * (2 * u0)). split.
  - assert (slope x <> 0).
    { unfold slope. assert (0 < sqrt x) by (apply sqrt_lt_R0; lra). assert (0 < sqrt (x + 4)) by (apply sqrt_lt_R0; lra).
      apply Rmult_integral_contrapositive. split; [ lra | ]. apply Rinv_neq_0_compat.
      assert (0 < x * (x + 4)) by nra. assert (0 < sqrt x * sqrt (x + 4)) by nra. nra. }
    assert (2 * u0 <> 0) by lra. apply Rmult_integral_contrapositive; split; [ apply Rmult_integral_contrapositive; split | ]; assumption.
  - f_equal; [ | f_equal; f_equal ]; unfold Rdiv; ring.
Qed.
Print Assumptions C362_peak.
Example C362_case : (10 : R) <> 0 /\ ((1 : R) <> 0 \/ (60 : R) <> 50).
Proof. split; [ lra | left; lra ]. Qed.
(** the comment of the code says that the first parameter is the crossing time: it is the peak time *)
Theorem C362_order_refuted : exists t t0 te u0 fs fb d, te <> 0 /\ (u0 <> 0 \/ t <> t0) /\
  hd 0 (coefficients_pspl t t0 te u0 fs) = d /\ ~ derivable_pt_lim (fun y => fs * amplification u0 y t0 1 t + fb) te d.
Proof.
  exists 0, 1, 2, 1, 1, 0, (hd 0 (coefficients_pspl 0 1 2 1 1)). repeat split; [ lra | left; lra | ].
  intro K. destruct (C362_derivatives 0 1 2 1 1 0 ltac:(lra) (or_introl R1_neq_R0)) as (a & b & c & E & _ & _ & D).
  assert (P : 0 < 1 ^ 2 + (0 - 1) ^ 2 / 2 ^ 2) by lra.
  pose proof (uniqueness_limite _ _ _ _ K D) as Q. rewrite coefficients_slope in E, Q by (lra || assumption). cbv zeta in E, Q. cbn [hd] in Q.
  apply (f_equal (fun l => nth 2 l 0)) in E. cbn [nth] in E. rewrite <- E in Q.
  set (x := 1 ^ 2 + (0 - 1) ^ 2 / 2 ^ 2) in *. assert (slope x < 0).
  { unfold slope. assert (0 < sqrt x) by (apply sqrt_lt_R0; lra). assert (0 < sqrt (x + 4)) by (apply sqrt_lt_R0; lra).
    unfold Rdiv. assert (0 < x * (x + 4) * (sqrt x * sqrt (x + 4))) by (repeat apply Rmult_lt_0_compat; lra).
    pose proof (Rinv_0_lt_compat _ H1). lra. }
  replace (-2 * (0 - 1) / 2 ^ 2) with (1 / 2) in Q by field. replace (-2 * (0 - 1) ^ 2 / 2 ^ 3) with (- (1 / 4)) in Q by field. lra.
Qed.
Print Assumptions C362_order_refuted.
