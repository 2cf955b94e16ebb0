(** The time of the most information before the peak: property C363. *)
From Coq Require Import Reals Lra Lia List Psatz.
From Verif Require Import Base Micro_Model Micro_Props.
Import ListNotations.
Open Scope R_scope.

(** the square of the time in units of the crossing time *)
Definition best (a : R) : R := (sqrt (9 * a ^ 2 + 36 * a + 4) - a - 2) / 4.
Lemma best_root a : 0 <= a -> 2 * best a ^ 2 + best a * (a + 2) - a ^ 2 - 4 * a = 0.
Proof.
  intro H. unfold best. assert (E : sqrt (9 * a ^ 2 + 36 * a + 4) * sqrt (9 * a ^ 2 + 36 * a + 4) = 9 * a ^ 2 + 36 * a + 4) by (apply sqrt_sqrt; nra).
  revert E. generalize (sqrt (9 * a ^ 2 + 36 * a + 4)). intros q E. nra.
Qed.
Lemma best_low a : 0 <= a -> a / 2 <= best a.
Proof.
  intro H. unfold best. assert (3 * a + 2 <= sqrt (9 * a ^ 2 + 36 * a + 4)); [ | lra ].
  rewrite <- (sqrt_pow2 (3 * a + 2)) by lra. apply sqrt_le_1; nra.
Qed.
Lemma best_high a : 0 <= a -> best a < a / 2 + 1.
Proof.
  intro H. unfold best. assert (sqrt (9 * a ^ 2 + 36 * a + 4) < 3 * a + 6); [ | lra ].
  rewrite <- (sqrt_pow2 (3 * a + 6)) by lra. apply sqrt_lt_1; nra.
Qed.
Lemma best_zero : best 0 = 0.
Proof.
  unfold best. replace (9 * 0 ^ 2 + 36 * 0 + 4) with (2 ^ 2) by ring. rewrite sqrt_pow2 by lra. lra.
Qed.
Lemma best_incr a b : 0 <= a -> a < b -> best a < best b.
Proof.
  intros H L. pose proof (best_root a H) as Ra. pose proof (best_root b ltac:(lra)) as Rb. pose proof (best_low a H). pose proof (best_low b ltac:(lra)).
  pose proof (best_high a H). pose proof (best_high b ltac:(lra)).
  destruct (Rlt_dec (best a) (best b)) as [|N]; [ assumption | exfalso ]. apply Rnot_lt_le in N.
  revert Ra Rb H0 H1 H2 H3 N. generalize (best a) (best b). intros p q. intros.
  (** the equation at a, at b: their difference *)
  assert (F : 2 * (p - q) * (p + q) + (p - q) * (a + 2) = (b - a) * (q - (a + b) - 4)) by nra.
  assert (0 <= (p - q) * (p + q)) by (apply Rmult_le_pos; lra). assert (0 <= (p - q) * (a + 2)) by (apply Rmult_le_pos; lra).
  assert (0 < (b - a) * ((a + b) + 4 - q)) by (apply Rmult_lt_0_compat; lra). lra.
Qed.
Lemma info_best u0 te : info_peak u0 te = te * sqrt (best (u0 ^ 2)).
Proof.
  unfold info_peak. replace (- u0 ^ 2 + sqrt (9 * u0 ^ 4 + 36 * u0 ^ 2 + 4) - 2) with (2 ^ 2 * best (u0 ^ 2)).
  - pose proof (best_low (u0 ^ 2) (pow2_ge_0 u0)). pose proof (pow2_ge_0 u0). rewrite sqrt_mult by lra. rewrite sqrt_pow2 by lra. lra.
  - unfold best. replace (9 * (u0 ^ 2) ^ 2 + 36 * u0 ^ 2 + 4) with (9 * u0 ^ 4 + 36 * u0 ^ 2 + 4) by ring. field.
Qed.
(** the information of one visit about the crossing time, for a constant error of the flux, as a function of [s], the square of the time *)
Lemma cubic r : 0 <= r -> 27 * r ^ 2 <= (1 + 2 * r) ^ 3.
Proof. intro H. assert (0 <= (r - 1) ^ 2 * (8 * r + 1)) by (apply Rmult_le_pos; [ apply pow2_ge_0 | lra ]). nra. Qed.
Lemma cubic_lt r : 0 <= r -> r <> 1 -> 27 * r ^ 2 < (1 + 2 * r) ^ 3.
Proof.
  intros H N. assert (0 < (r - 1) ^ 2 * (8 * r + 1)).
  { apply Rmult_lt_0_compat; [ | lra ]. rewrite <- Rsqr_pow2. apply Rsqr_pos_lt. lra. }
  nra.
Qed.
Lemma tangent a s : 0 < a -> 0 <= s -> forall b, b = best a ->
  (a + b) * (a + b + 4) * (1 + 2 * (s / b)) <= 3 * ((a + s) * (a + s + 4)).
Proof.
  intros A S b ->. pose proof (best_root a ltac:(lra)) as E. pose proof (best_low a ltac:(lra)) as L. set (b := best a) in *. clearbody b.
  assert (B : 0 < b) by lra.
  apply Rmult_le_reg_r with b; [ assumption | ].
  replace ((a + b) * (a + b + 4) * (1 + 2 * (s / b)) * b) with ((a + b) * (a + b + 4) * (b + 2 * s)) by (field; lra).
  assert (Q : 2 * ((a + b) * (a + b + 4)) = 3 * b * (2 * (a + b) + 4)) by nra.
  assert (3 * ((a + s) * (a + s + 4)) * b - (a + b) * (a + b + 4) * (b + 2 * s) = 3 * b * (s - b) ^ 2); [ | ].
  { replace ((a + b) * (a + b + 4) * (b + 2 * s)) with ((2 * ((a + b) * (a + b + 4))) * (s - b) + 3 * b * ((a + b) * (a + b + 4))) by ring. rewrite Q. ring. }
  assert (0 <= 3 * b * (s - b) ^ 2) by (apply Rmult_le_pos; [ lra | apply pow2_ge_0 ]). lra.
Qed.
Lemma cube_le x y : 0 <= x -> x <= y -> x ^ 3 <= y ^ 3.
Proof. intros. apply pow_incr. lra. Qed.
Lemma peak_info a s : 0 < a -> 0 <= s -> forall b, b = best a ->
  s ^ 2 * ((a + b) * (a + b + 4)) ^ 3 <= b ^ 2 * ((a + s) * (a + s + 4)) ^ 3.
Proof.
  intros A S b Eb. pose proof (tangent a s A S b Eb) as T. pose proof (best_low a ltac:(lra)) as L. rewrite <- Eb in L.
  set (P := (a + b) * (a + b + 4)) in *. set (P' := (a + s) * (a + s + 4)) in *.
  assert (0 < P) by (apply Rmult_lt_0_compat; lra). assert (R0 : 0 <= s / b) by (apply Rmult_le_pos; [ lra | apply Rlt_le, Rinv_0_lt_compat; lra ]).
  pose proof (cubic _ R0) as C. assert (C3 : (P * (1 + 2 * (s / b))) ^ 3 <= (3 * P') ^ 3) by (apply cube_le; [ apply Rmult_le_pos; lra | exact T ]).
  replace ((P * (1 + 2 * (s / b))) ^ 3) with (P ^ 3 * (1 + 2 * (s / b)) ^ 3) in C3 by ring.
  replace ((3 * P') ^ 3) with (27 * P' ^ 3) in C3 by ring.
  assert (0 < P ^ 3) by (apply pow_lt; assumption).
  assert (K : P ^ 3 * (27 * (s / b) ^ 2) <= 27 * P' ^ 3) by (eapply Rle_trans; [ apply Rmult_le_compat_l; [ lra | exact C ] | exact C3 ]).
  replace (s ^ 2 * P ^ 3) with (b ^ 2 * (P ^ 3 * (s / b) ^ 2)) by (field; lra).
  apply Rmult_le_compat_l; [ apply pow2_ge_0 | lra ].
Qed.
Lemma peak_info_lt a s : 0 < a -> 0 <= s -> forall b, b = best a -> s <> b ->
  s ^ 2 * ((a + b) * (a + b + 4)) ^ 3 < b ^ 2 * ((a + s) * (a + s + 4)) ^ 3.
Proof.
  intros A S b Eb Ne. pose proof (tangent a s A S b Eb) as T. pose proof (best_low a ltac:(lra)) as L. rewrite <- Eb in L.
  set (P := (a + b) * (a + b + 4)) in *. set (P' := (a + s) * (a + s + 4)) in *.
  assert (0 < P) by (apply Rmult_lt_0_compat; lra). assert (R0 : 0 <= s / b) by (apply Rmult_le_pos; [ lra | apply Rlt_le, Rinv_0_lt_compat; lra ]).
  assert (R1 : s / b <> 1) by (intro K; apply Ne; apply (f_equal (fun z => z * b)) in K; replace (s / b * b) with s in K by (field; lra); lra).
  pose proof (cubic_lt _ R0 R1) as C. assert (C3 : (P * (1 + 2 * (s / b))) ^ 3 <= (3 * P') ^ 3) by (apply cube_le; [ apply Rmult_le_pos; lra | exact T ]).
  replace ((P * (1 + 2 * (s / b))) ^ 3) with (P ^ 3 * (1 + 2 * (s / b)) ^ 3) in C3 by ring.
  replace ((3 * P') ^ 3) with (27 * P' ^ 3) in C3 by ring.
  assert (0 < P ^ 3) by (apply pow_lt; assumption).
  assert (K : P ^ 3 * (27 * (s / b) ^ 2) < 27 * P' ^ 3) by (eapply Rlt_le_trans; [ apply Rmult_lt_compat_l; [ lra | exact C ] | exact C3 ]).
  replace (s ^ 2 * P ^ 3) with (b ^ 2 * (P ^ 3 * (s / b) ^ 2)) by (field; lra).
  apply Rmult_lt_compat_l; [ apply pow_lt; lra | lra ].
Qed.
Lemma slope_sq x : 0 < x -> slope x ^ 2 = 16 / (x * (x + 4)) ^ 3.
Proof.
  intro H. unfold slope. assert (S0 : 0 < sqrt x) by (apply sqrt_lt_R0; lra). assert (S4 : 0 < sqrt (x + 4)) by (apply sqrt_lt_R0; lra).
  assert (E0 : sqrt x * sqrt x = x) by (apply sqrt_sqrt; lra). assert (E4 : sqrt (x + 4) * sqrt (x + 4) = x + 4) by (apply sqrt_sqrt; lra).
  transitivity (16 / ((x * (x + 4)) ^ 2 * ((sqrt x * sqrt x) * (sqrt (x + 4) * sqrt (x + 4))))); [ field; repeat split; lra | ].
  rewrite E0, E4. field. lra.
Qed.
(** the derivative of the amplification by the crossing time *)
Lemma te_unique u0 te t0 t d : te <> 0 -> u0 <> 0 -> derivable_pt_lim (fun y => amplification u0 y t0 1 t) te d ->
  d = slope (u0 ^ 2 + (t - t0) ^ 2 / te ^ 2) * (-2 * (t - t0) ^ 2 / te ^ 3).
Proof.
  intros N U D. destruct (C362_derivatives t t0 te u0 1 0 N (or_introl U)) as (a & b & c & E & _ & _ & K).
  rewrite coefficients_slope in E by (try apply inner_pos; auto). apply (f_equal (fun l => nth 2 l 0)) in E. cbn [nth] in E. cbv zeta in E.
  assert (K' : derivable_pt_lim (fun y => amplification u0 y t0 1 t) te c) by (apply (D_ext _ (fun y => 1 * amplification u0 y t0 1 t + 0)); [ intro; ring | exact K ]).
  rewrite (uniqueness_limite _ _ _ _ D K'). rewrite <- E. ring.
Qed.
Lemma te_sq u0 te t0 t d : te <> 0 -> u0 <> 0 -> derivable_pt_lim (fun y => amplification u0 y t0 1 t) te d ->
  forall s, s = (t - t0) ^ 2 / te ^ 2 -> d ^ 2 = 64 / te ^ 2 * (s ^ 2 / ((u0 ^ 2 + s) * (u0 ^ 2 + s + 4)) ^ 3).
Proof.
  intros N U D s Es. rewrite (te_unique _ _ _ _ _ N U D), <- Es. assert (0 < u0 ^ 2 + s) by (rewrite Es; apply inner_pos; auto).
  replace (-2 * (t - t0) ^ 2 / te ^ 3) with (-2 * s / te) by (rewrite Es; field; assumption).
  rewrite Rpow_mult_distr, slope_sq by assumption. field. repeat split; lra.
Qed.
Lemma abs_sq_lt x y : x ^ 2 < y ^ 2 -> Rabs x < Rabs y.
Proof.
  intro H. rewrite <- (pow2_abs x), <- (pow2_abs y) in H. pose proof (Rabs_pos x). pose proof (Rabs_pos y). nra.
Qed.
Lemma peak_s u0 te t0 : te <> 0 -> (t0 - info_peak u0 te - t0) ^ 2 / te ^ 2 = best (u0 ^ 2).
Proof.
  intro N. rewrite info_best. pose proof (best_low (u0 ^ 2) (pow2_ge_0 u0)). pose proof (pow2_ge_0 u0).
  transitivity (sqrt (best (u0 ^ 2)) ^ 2); [ field; assumption | ]. rewrite <- Rsqr_pow2. apply Rsqr_sqrt. lra.
Qed.
(** ** C363: for a constant error of the flux, the light curve depends on the crossing time nowhere as strongly as at the time of the most
    information before the peak, and at its mirror image after the peak *)
Theorem C363_maximum u0 te t0 t d best_d : 0 < te -> u0 <> 0 -> t <> t0 - info_peak u0 te -> t <> t0 + info_peak u0 te ->
  derivable_pt_lim (fun y => amplification u0 y t0 1 t) te d ->
  derivable_pt_lim (fun y => amplification u0 y t0 1 (t0 - info_peak u0 te)) te best_d ->
  Rabs d < Rabs best_d.
Proof.
  intros P U N1 N2 D DB. assert (N : te <> 0) by lra. apply abs_sq_lt.
  rewrite (te_sq _ _ _ _ _ N U D _ eq_refl). rewrite (te_sq _ _ _ _ _ N U DB _ eq_refl). rewrite peak_s by assumption.
  assert (A : 0 < u0 ^ 2) by (rewrite <- Rsqr_pow2; apply Rsqr_pos_lt; assumption).
  set (s := (t - t0) ^ 2 / te ^ 2). assert (Es : s = ((t - t0) / te) ^ 2) by (apply quot_sq; assumption).
  assert (S0 : 0 <= s) by (rewrite Es; apply pow2_ge_0).
  assert (Ne : s <> best (u0 ^ 2)).
  { intro K. rewrite Es in K. pose proof (f_equal sqrt K) as K2. rewrite <- pow2_abs in K2. rewrite sqrt_pow2 in K2 by apply Rabs_pos.
    assert (K3 : Rabs (t - t0) = info_peak u0 te).
    { rewrite info_best, <- K2. unfold Rdiv. rewrite Rabs_mult, Rabs_inv, (Rabs_right te) by lra. field. lra. }
    destruct (Rcase_abs (t - t0)) as [C|C]; [ rewrite Rabs_left in K3 by lra | rewrite Rabs_right in K3 by lra ]; [ apply N1 | apply N2 ]; lra. }
  pose proof (peak_info_lt (u0 ^ 2) s A S0 _ eq_refl Ne) as L. pose proof (best_low (u0 ^ 2) ltac:(lra)).
  set (b := best (u0 ^ 2)) in *. set (a := u0 ^ 2) in *. clearbody a b s.
  assert (P1 : 0 < ((a + s) * (a + s + 4)) ^ 3) by (apply pow_lt, Rmult_lt_0_compat; lra).
  assert (P2 : 0 < ((a + b) * (a + b + 4)) ^ 3) by (apply pow_lt, Rmult_lt_0_compat; lra).
  apply Rmult_lt_compat_l; [ apply Rdiv_lt_0_compat; [ lra | apply pow_lt; assumption ] | ].
  revert P1 P2 L. generalize (((a + s) * (a + s + 4)) ^ 3) (((a + b) * (a + b + 4)) ^ 3). intros p q P1 P2 L.
  apply Rmult_lt_reg_r with (p * q); [ apply Rmult_lt_0_compat; assumption | ].
  replace (s ^ 2 / p * (p * q)) with (s ^ 2 * q) by (field; lra). replace (b ^ 2 / q * (p * q)) with (b ^ 2 * p) by (field; lra). exact L.
Qed.
Print Assumptions C363_maximum.
(** its size: between u0 / sqrt 2 and sqrt (u0 ^ 2 / 2 + 1) crossing times, 0 only if the lens passes in front of the source, and larger for
    larger impact parameters and crossing times *)
Theorem C363_size u0 te : 0 < te ->
  te ^ 2 * (u0 ^ 2 / 2) <= info_peak u0 te ^ 2 < te ^ 2 * (u0 ^ 2 / 2 + 1) /\ 0 <= info_peak u0 te /\ (info_peak u0 te = 0 <-> u0 = 0).
Proof.
  intro P. rewrite info_best. pose proof (pow2_ge_0 u0) as Q. pose proof (best_low (u0 ^ 2) Q) as L. pose proof (best_high (u0 ^ 2) Q) as H.
  assert (E : sqrt (best (u0 ^ 2)) ^ 2 = best (u0 ^ 2)) by (rewrite <- Rsqr_pow2; apply Rsqr_sqrt; lra).
  rewrite Rpow_mult_distr, E. assert (0 < te ^ 2) by (apply pow_lt; assumption). split; [ split; [ apply Rmult_le_compat_l | apply Rmult_lt_compat_l ]; lra | ].
  split; [ apply Rmult_le_pos; [ lra | apply sqrt_pos ] | ]. split.
  - intro K. apply Rmult_integral in K. destruct K as [K|K]; [ lra | ]. apply sqrt_eq_0 in K; [ | lra ].
    assert (u0 ^ 2 = 0) by lra. apply Rsqr_0_uniq. rewrite Rsqr_pow2. assumption.
  - intros ->. replace (0 ^ 2) with 0 by ring. rewrite best_zero, sqrt_0. ring.
Qed.
Print Assumptions C363_size.
Theorem C363_monotone u0 u0' te te' : 0 < te -> te <= te' -> Rabs u0 < Rabs u0' -> info_peak u0 te < info_peak u0' te'.
Proof.
  intros P T L. rewrite !info_best. pose proof (pow2_ge_0 u0) as Q. assert (L2 : u0 ^ 2 < u0' ^ 2) by (rewrite <- (pow2_abs u0), <- (pow2_abs u0'); pose proof (Rabs_pos u0); nra).
  pose proof (best_incr _ _ Q L2) as B. pose proof (best_low _ Q). assert (S : sqrt (best (u0 ^ 2)) < sqrt (best (u0' ^ 2))) by (apply sqrt_lt_1; lra).
  pose proof (sqrt_pos (best (u0 ^ 2))). nra.
Qed.
Print Assumptions C363_monotone.
Theorem C363_scales u0 te k : info_peak u0 (k * te) = k * info_peak u0 te.
Proof. rewrite !info_best. ring. Qed.
Print Assumptions C363_scales.
(** for an impact parameter of one Einstein radius it is one crossing time before the peak *)
Example C363_case : info_peak 1 100 = 100.
Proof.
  rewrite info_best. unfold best. replace (9 * (1 ^ 2) ^ 2 + 36 * 1 ^ 2 + 4) with (7 ^ 2) by ring. rewrite sqrt_pow2 by lra.
  replace ((7 - 1 ^ 2 - 2) / 4) with 1 by field. rewrite sqrt_1. lra.
Qed.
(** The documentation says that this is so for a constant signal to noise ratio: then the relative change counts, and it is largest elsewhere *)
Theorem C363_constant_snr_refuted : exists u0 te t0 t d best_d, 0 < te /\ u0 <> 0 /\
  derivable_pt_lim (fun y => amplification u0 y t0 1 t) te d /\
  derivable_pt_lim (fun y => amplification u0 y t0 1 (t0 - info_peak u0 te)) te best_d /\
  Rabs (best_d / amplification u0 te t0 1 (t0 - info_peak u0 te)) < Rabs (d / amplification u0 te t0 1 t).
Proof.
  exists 1, 100, 0, (-110). replace (0 - info_peak 1 100) with (-100) by (rewrite C363_case; ring).
  assert (DD : forall t, exists d, derivable_pt_lim (fun y => amplification 1 y 0 1 t) 100 d).
  { intro t. destruct (C362_derivatives t 0 100 1 1 0 ltac:(lra) (or_introl R1_neq_R0)) as (a & b & c & _ & _ & _ & K). exists c.
    apply (D_ext _ (fun y => 1 * amplification 1 y 0 1 t + 0)); [ intro; ring | exact K ]. }
  destruct (DD (-110)) as [d D]. destruct (DD (-100)) as [e E]. exists d, e. repeat split; try lra; try assumption.
  assert (N : (100 : R) <> 0) by lra. assert (U : (1 : R) <> 0) by lra.
  pose proof (te_sq _ _ _ _ _ N U D (121 / 100) ltac:(field)) as D2. pose proof (te_sq _ _ _ _ _ N U E 1 ltac:(field)) as E2.
  assert (AC : forall t, amplification 1 100 0 1 t = curve (1 ^ 2 + (t - 0) ^ 2 / 100 ^ 2)) by (intro; rewrite amplification_curve; ring).
  apply abs_sq_lt. rewrite !AC. unfold Rdiv at 1 3. rewrite !Rpow_mult_distr, D2, E2. rewrite !pow_inv. rewrite !curve_sq by lra. lra.
Qed.
Print Assumptions C363_constant_snr_refuted.
