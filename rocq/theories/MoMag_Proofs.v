From Verif Require Import Base Astrom_Model Astrom_Spec Astrom_Proofs Astrom_Proofs2 MoMag_Model MoMag_Spec.
From Coq Require Import Reals Ratan Lra Lia Psatz Ascii.
Open Scope R_scope.

Lemma ln10_pos : 0 < ln 10. Proof. rewrite <- ln_1. apply ln_increasing; lra. Qed.
Lemma lg_pow a : lg (Rpower 10 a) = a.
Proof. unfold lg, Rpower. rewrite ln_exp. pose proof ln10_pos. field. lra. Qed.
Lemma pow_lg x : 0 < x -> Rpower 10 (lg x) = x.
Proof. intros H. unfold lg, Rpower. pose proof ln10_pos. replace (ln x / ln 10 * ln 10) with (ln x) by (field; lra). apply exp_ln, H. Qed.
Lemma lg_mult x y : 0 < x -> 0 < y -> lg (x * y) = lg x + lg y.
Proof. intros Hx Hy. unfold lg. rewrite ln_mult by assumption. pose proof ln10_pos. field. lra. Qed.
Lemma lg_lt x y : 0 < x -> x < y -> lg x < lg y.
Proof. intros Hx Hy. unfold lg. apply Rmult_lt_compat_r; [apply Rinv_0_lt_compat, ln10_pos|]. apply ln_increasing; assumption. Qed.
Lemma lg_le x y : 0 < x -> x <= y -> lg x <= lg y.
Proof. intros Hx [H|H]; [left; apply lg_lt; assumption|subst; lra]. Qed.
Lemma pow10_plus a b : Rpower 10 (a + b) = Rpower 10 a * Rpower 10 b.
Proof. apply Rpower_plus. Qed.
(** * signal to noise *)
Lemma mo_snr_gamma g a m : mo_snr g a m = snr_gamma g (snr_x a m).
Proof. reflexivity. Qed.
Lemma snr_x_pos a m : 0 < snr_x a m. Proof. apply pow10_pos. Qed.
Lemma snr_x_lt a b m : a < b -> snr_x a m < snr_x b m.
Proof. intros H. apply pow10_lt. lra. Qed.
Lemma snr_x_same m : snr_x m m = 1.
Proof. unfold snr_x. replace (1/2 * (m - m)) with 0 by ring. apply pow10_0. Qed.
Lemma mo_snr_lt g a b m : 0 <= g <= 1/25 -> a < b -> mo_snr g b m < mo_snr g a m.
Proof. intros G H. rewrite !mo_snr_gamma. apply snr_gamma_lt; [exact G|apply snr_x_pos|apply snr_x_lt, H]. Qed.
Lemma mo_snr_same g m : mo_snr g m m = 5.
Proof. rewrite mo_snr_gamma, snr_x_same. apply snr_gamma_1. Qed.
Lemma m52snr_lt g a b m : 0 <= g <= 1/25 -> a < b -> m52snr (Some g) b m < m52snr (Some g) a m.
Proof. intros G H. cbn [m52snr]. apply snr_gamma_lt; [exact G|apply pow10_pos|apply pow10_lt; lra]. Qed.
Lemma mo_snr_stretch g a m : mo_snr g a m = m52snr (Some g) (m + 5/4 * (a - m)) m.
Proof. rewrite mo_snr_gamma. cbn [m52snr]. f_equal. unfold snr_x. f_equal. lra. Qed.
(** * detect_prob *)
Lemma detect_prob_bounds s a m : 0 < detect_prob s a m < 1.
Proof.
  unfold detect_prob. pose proof (exp_pos ((a - m) / s)) as E. split; [apply Rdiv_lt_0_compat; lra|]. apply (Rmult_lt_reg_r (1 + exp ((a - m) / s))); [lra|]. unfold Rdiv at 1. rewrite Rmult_assoc, Rinv_l by lra. lra.
Qed.
Lemma detect_prob_lt s a b m : 0 < s -> a < b -> detect_prob s b m < detect_prob s a m.
Proof.
  intros Hs H. unfold detect_prob. pose proof (exp_pos ((a - m) / s)) as E. assert (exp ((a - m) / s) < exp ((b - m) / s)) as L.
  { apply exp_increasing. apply Rmult_lt_compat_r; [apply Rinv_0_lt_compat, Hs|lra]. }
  unfold Rdiv at 1 3. rewrite !Rmult_1_l. apply Rinv_lt_contravar; [apply Rmult_lt_0_compat|]; lra.
Qed.
Lemma detect_prob_half s m : detect_prob s m m = 1/2.
Proof. unfold detect_prob. replace ((m - m) / s) with 0 by (unfold Rdiv; ring). rewrite exp_0. lra. Qed.
Lemma detect_prob_sum s d m : detect_prob s (m + d) m + detect_prob s (m - d) m = 1.
Proof.
  unfold detect_prob. replace ((m - d - m) / s) with (- ((m + d - m) / s)) by (unfold Rdiv; ring). rewrite exp_Ropp. pose proof (exp_pos ((m + d - m) / s)) as E. set (e := exp ((m + d - m) / s)) in *. field. lra.
Qed.
Lemma vis_iff s a m u : vis s a m u = true <-> u <= detect_prob s a m.
Proof. unfold vis. destruct (Rle_dec u (detect_prob s a m)); split; intros; try assumption; try discriminate; try reflexivity; contradiction. Qed.
(** * comets *)
Lemma km_pos : 0 < km_per_au. Proof. unfold km_per_au. lra. Qed.
Lemma radius_pos ap h : 0 < ap -> 0 < comet_radius ap h.
Proof. intros H. unfold comet_radius. apply Rmult_lt_0_compat; [|apply km_pos]. apply Rdiv_lt_0_compat; [apply pow10_pos|apply sqrt_lt_R0, H]. Qed.
Lemma radius_shift ap h d : 0 < ap -> comet_radius ap (h + d) = Rpower 10 (- (1/5) * d) * comet_radius ap h.
Proof.
  intros H. unfold comet_radius. replace (1/5 * (vmag_sun - (h + d))) with (- (1/5) * d + 1/5 * (vmag_sun - h)) by lra. rewrite pow10_plus. pose proof (sqrt_lt_R0 ap H). field. lra.
Qed.
Definition comet_row (hm : R -> R) (w : mrow) : Prop := 0 < w_rh w /\ 0 < w_delta w /\ 0 < w_seeing w /\ 0 < hm (w_phase w).
Lemma afrho_pos hm ap kc h w : 0 < ap -> 0 < snd kc -> comet_row hm w -> 0 < afrho hm ap kc h w.
Proof.
  intros Ha Hc (H1 & H2 & H3 & H4). unfold afrho. pose proof (radius_pos ap h Ha) as P. set (r := comet_radius ap h) in *. assert (0 < r * r) by (apply Rmult_lt_0_compat; assumption). assert (0 < Rpower (w_rh w) (fst kc)) by apply exp_pos. repeat (apply Rmult_lt_0_compat; [|assumption]). assumption.
Qed.
Lemma afrho_shift hm ap kc h d w : 0 < ap -> afrho hm ap kc (h + d) w = Rpower 10 (- (2/5) * d) * afrho hm ap kc h w.
Proof.
  intros Ha. unfold afrho. rewrite radius_shift by exact Ha. replace (- (2/5) * d) with (- (1/5) * d + - (1/5) * d) by lra. rewrite pow10_plus. ring.
Qed.
Lemma rho_pos hm w : comet_row hm w -> 0 < rho w.
Proof. intros (H1 & H2 & H3 & H4). unfold rho. apply Rmult_lt_0_compat; [|assumption]. apply Rmult_lt_0_compat; [lra|assumption]. Qed.
Lemma delta_pos hm w : comet_row hm w -> 0 < delta_len w.
Proof. intros (H1 & H2 & H3 & H4). unfold delta_len. pose proof km_pos. apply Rmult_lt_0_compat; [|lra]. apply Rmult_lt_0_compat; assumption. Qed.
Lemma coma_arg_pos hm ap kc h w : 0 < ap -> 0 < snd kc -> comet_row hm w ->
  0 < afrho hm ap kc h w * rho w / ((2 * w_rh w * delta_len w) * (2 * w_rh w * delta_len w)).
Proof.
  intros Ha Hc Hw. pose proof (afrho_pos hm ap kc h w Ha Hc Hw). pose proof (rho_pos hm w Hw). pose proof (delta_pos hm w Hw). destruct Hw as (H2 & _). apply Rdiv_lt_0_compat; [apply Rmult_lt_0_compat; assumption|]. assert (0 < 2 * w_rh w * delta_len w) by (apply Rmult_lt_0_compat; [lra|assumption]). apply Rmult_lt_0_compat; assumption.
Qed.
Lemma coma_dm_shift hm ap kc h d w : 0 < ap -> 0 < snd kc -> comet_row hm w -> coma_dm hm ap kc (h + d) w = coma_dm hm ap kc h w + d.
Proof.
  intros Ha Hc Hw. pose proof (coma_arg_pos hm ap kc h w Ha Hc Hw) as P. unfold coma_dm. rewrite afrho_shift by exact Ha.
  set (q := (2 * w_rh w * delta_len w) * (2 * w_rh w * delta_len w)) in *.
  replace (Rpower 10 (- (2/5) * d) * afrho hm ap kc h w * rho w / q) with (Rpower 10 (- (2/5) * d) * (afrho hm ap kc h w * rho w / q)) by (unfold Rdiv; ring).
  rewrite lg_mult by (try apply pow10_pos; exact P). rewrite lg_pow. lra.
Qed.
Lemma combined_shift a b d : - (5/2) * lg (Rpower 10 (- (2/5) * (a + d)) + Rpower 10 (- (2/5) * (b + d))) = - (5/2) * lg (Rpower 10 (- (2/5) * a) + Rpower 10 (- (2/5) * b)) + d.
Proof.
  replace (- (2/5) * (a + d)) with (- (2/5) * d + - (2/5) * a) by ring. replace (- (2/5) * (b + d)) with (- (2/5) * d + - (2/5) * b) by ring. rewrite !pow10_plus, <- Rmult_plus_distr_l.
  pose proof (pow10_pos (- (2/5) * a)). pose proof (pow10_pos (- (2/5) * b)). rewrite lg_mult by (try apply pow10_pos; lra). rewrite lg_pow. lra.
Qed.
Lemma combined_flux a b : Rpower 10 (- (2/5) * (- (5/2) * lg (Rpower 10 (- (2/5) * a) + Rpower 10 (- (2/5) * b)))) = Rpower 10 (- (2/5) * a) + Rpower 10 (- (2/5) * b).
Proof.
  pose proof (pow10_pos (- (2/5) * a)). pose proof (pow10_pos (- (2/5) * b)). set (s := Rpower 10 (- (2/5) * a) + Rpower 10 (- (2/5) * b)) in *. replace (- (2/5) * (- (5/2) * lg s)) with (lg s) by lra. apply pow_lg. unfold s. lra.
Qed.
Lemma combined_bounds a b : let c := - (5/2) * lg (Rpower 10 (- (2/5) * a) + Rpower 10 (- (2/5) * b)) in c < a /\ c < b /\ Rmin a b - 5/2 * lg 2 <= c.
Proof.
  intros c. pose proof (pow10_pos (- (2/5) * a)) as A. pose proof (pow10_pos (- (2/5) * b)) as B.
  assert (forall x y, 0 < Rpower 10 (- (2/5) * y) -> - (5/2) * lg (Rpower 10 (- (2/5) * x) + Rpower 10 (- (2/5) * y)) < x) as L.
  { intros x y P. pose proof (pow10_pos (- (2/5) * x)) as Px. assert (lg (Rpower 10 (- (2/5) * x)) < lg (Rpower 10 (- (2/5) * x) + Rpower 10 (- (2/5) * y))) as Q by (apply lg_lt; lra). rewrite lg_pow in Q. lra. }
  split; [apply L, B|]. split; [unfold c; rewrite Rplus_comm; apply L, A|].
  assert (lg (Rpower 10 (- (2/5) * a) + Rpower 10 (- (2/5) * b)) <= lg (2 * Rpower 10 (- (2/5) * Rmin a b))) as Q.
  { apply lg_le; [lra|]. assert (forall x, Rmin a b <= x -> Rpower 10 (- (2/5) * x) <= Rpower 10 (- (2/5) * Rmin a b)) as M.
    { intros x Hx. destruct (Rle_lt_or_eq_dec _ _ Hx) as [H|H]; [left; apply pow10_lt; lra|rewrite H; lra]. }
    pose proof (M a (Rmin_l a b)). pose proof (M b (Rmin_r a b)). lra. }
  rewrite lg_mult in Q by (try apply pow10_pos; lra). rewrite lg_pow in Q. unfold c. lra.
Qed.
(** * the generator *)
Lemma snr_rows_length s g p l : length (snr_rows s g p l) = length l.
Proof. revert p. induction l as [|[a m] l IH]; intros p; [reflexivity|]. cbn. rewrite IH. reflexivity. Qed.
Lemma snr_rows_nth s g p l i d : (i < length l)%nat ->
  nth i (snr_rows s g p l) d = (fst (nth i l (0,0)), mo_snr (k_gamma s) (fst (nth i l (0,0))) (snd (nth i l (0,0))), vis (k_sigma s) (fst (nth i l (0,0))) (snd (nth i l (0,0))) (g (p + i)%nat)).
Proof.
  revert p i. induction l as [|[a m] l IH]; intros p i H; [cbn in H; lia|]. destruct i as [|i]; cbn [nth snr_rows]; [rewrite Nat.add_0_r; reflexivity|]. rewrite IH by (cbn in H; lia). replace (S p + i)%nat with (p + S i)%nat by lia. reflexivity.
Qed.
Lemma map_ok_length {A B} (f : A -> result B) l r : map_ok f l = Ok r -> length r = length l.
Proof.
  revert r. induction l as [|x l IH]; intros r E; cbn in E; [injection E as <-; reflexivity|]. destruct (f x); [|discriminate]. cbn in E. destruct (map_ok f l); [|discriminate]. cbn in E. injection E as <-. cbn. f_equal. apply IH. reflexivity.
Qed.
Lemma mags_length hm k h0 h rows ms : mags hm k h0 h rows = Ok ms -> length ms = length rows.
Proof.
  destruct k; cbn [mags]; intros E; [injection E as <-; apply map_length|apply map_ok_length in E; exact E|injection E as <-; apply map_length].
Qed.
(** * ecliptic *)
Lemma turned_dot i a b : dot (turned i a) (turned i b) = dot a b.
Proof.
  destruct a as [[x y] z], b as [[x' y'] z']. unfold turned, dot. pose proof (sin_cos_1 i) as N.
  replace (x * x' + (cos i * y + sin i * z) * (cos i * y' + sin i * z') + (- sin i * y + cos i * z) * (- sin i * y' + cos i * z')) with (x * x' + (cos i * cos i + sin i * sin i) * (y * y') + (cos i * cos i + sin i * sin i) * (z * z')) by ring. rewrite N. ring.
Qed.
Lemma radians_degrees x : radians (degrees x) = x.
Proof. unfold radians, degrees. pose proof PI_RGT_0. field. lra. Qed.
Lemma degrees_radians x : degrees (radians x) = x.
Proof. unfold radians, degrees. pose proof PI_RGT_0. field. lra. Qed.
Lemma cos_period_Z x k : cos (x + 2 * IZR k * PI) = cos x /\ sin (x + 2 * IZR k * PI) = sin x.
Proof.
  assert (forall n y, cos (y + 2 * INR n * PI) = cos y /\ sin (y + 2 * INR n * PI) = sin y) as P by (intros n y; split; [apply cos_period|apply sin_period]).
  destruct (Z.le_gt_cases 0 k) as [H|H].
  - rewrite <- (Z2Nat.id k H), <- INR_IZR_INZ. apply P.
  - specialize (P (Z.to_nat (- k)) (x + 2 * IZR k * PI)). rewrite INR_IZR_INZ, Z2Nat.id in P by lia. rewrite opp_IZR in P. replace (x + 2 * IZR k * PI + 2 * - IZR k * PI) with x in P by ring. destruct P as [P1 P2]. split; [symmetry; exact P1|symmetry; exact P2].
Qed.
Lemma vec_of_components x y z : x * x + y * y + z * z = 1 -> let lat := degrees (asin z) in let lon := pymod (degrees (atan2 y x)) 360 in
  vec (radians lon) (radians lat) = (x, y, z) /\ -90 <= lat <= 90 /\ 0 <= lon < 360.
Proof.
  intros N lat lon. pose proof PI_RGT_0 as HP. assert (-1 <= z <= 1) as Hz by (pose proof (square_nonneg x); pose proof (square_nonneg y); nra).
  split; [|split].
  - unfold lat, lon. rewrite radians_degrees. destruct (pymod_bounds (degrees (atan2 y x)) 360 ltac:(lra)) as (_ & k & Ek). set (pm := pymod (degrees (atan2 y x)) 360) in *.
    assert (radians pm = atan2 y x + 2 * IZR (- k) * PI) as ->.
    { rewrite <- (radians_degrees (atan2 y x)). rewrite Ek. unfold radians. rewrite opp_IZR. field. }
    unfold vec. destruct (cos_period_Z (atan2 y x) (- k)) as [-> ->]. rewrite sin_asin, cos_asin by exact Hz.
    replace (1 - Rsqr z) with (x * x + y * y) by (unfold Rsqr; lra). f_equal.
    destruct (Req_dec x 0) as [X|X]; [destruct (Req_dec y 0) as [Y|Y]|].
    + subst x y. replace (0 * 0 + 0 * 0) with 0 by ring. rewrite sqrt_0. f_equal; ring.
    + destruct (atan2_spec y x (or_intror Y)) as (E1 & E2 & _). f_equal; symmetry; assumption.
    + destruct (atan2_spec y x (or_introl X)) as (E1 & E2 & _). f_equal; symmetry; assumption.
  - unfold lat, degrees. pose proof (asin_bound z) as [B1 B2]. assert (0 < 180 / PI) as Q by (apply Rdiv_lt_0_compat; lra). replace (asin z * 180 / PI) with (asin z * (180 / PI)) by (unfold Rdiv; ring). split.
    + replace (-90) with (- (PI/2) * (180 / PI)) by (field; lra). apply Rmult_le_compat_r; [lra|exact B1].
    + replace 90 with (PI/2 * (180 / PI)) by (field; lra). apply Rmult_le_compat_r; [lra|exact B2].
  - apply pymod_bounds. lra.
Qed.
