(** Proofs about signal to noise, parallax, proper motion and angles. *)
From Verif Require Import Base Astrom_Model Astrom_Spec Astrom_Proofs.
From Coq Require Import Reals Ratan Lra Lia Permutation Psatz.
Open Scope R_scope.

(** * signal to noise *)
Lemma pow10_pos a : 0 < Rpower 10 a.
Proof. apply exp_pos. Qed.
Lemma pow10_0 : Rpower 10 0 = 1.
Proof. apply Rpower_O. lra. Qed.
Lemma pow10_lt a b : a < b -> Rpower 10 a < Rpower 10 b.
Proof. apply Rpower_lt. lra. Qed.
Lemma noise_pos g x : 0 <= g <= 1/25 -> 0 < x -> 0 < (1/25 - g) * x + g * x * x.
Proof. intros [H1 H2] Hx. assert (0 < x * x) by (apply Rmult_lt_0_compat; assumption). destruct H1 as [H1|H1]; [|subst g; nra]. assert (0 < g * (x * x)) by (apply Rmult_lt_0_compat; assumption). assert (0 <= (1/25 - g) * x) by (apply Rmult_le_pos; lra). lra. Qed.
Lemma noise_lt g x y : 0 <= g <= 1/25 -> 0 < x -> x < y -> (1/25 - g) * x + g * x * x < (1/25 - g) * y + g * y * y.
Proof.
  intros [H1 H2] Hx Hy. assert (x * x < y * y) as Q by nra. destruct (Rle_lt_or_eq_dec 0 g H1) as [G|G].
  - assert (g * (x * x) < g * (y * y)) by (apply Rmult_lt_compat_l; assumption). assert ((1/25 - g) * x <= (1/25 - g) * y) by (apply Rmult_le_compat_l; lra). lra.
  - rewrite <- G. lra.
Qed.
Lemma snr_gamma_pos g x : 0 <= g <= 1/25 -> 0 < x -> 0 < snr_gamma g x.
Proof. intros H Hx. unfold snr_gamma. apply Rdiv_lt_0_compat; [lra|]. apply sqrt_lt_R0, noise_pos; assumption. Qed.
Lemma snr_gamma_lt g x y : 0 <= g <= 1/25 -> 0 < x -> x < y -> snr_gamma g y < snr_gamma g x.
Proof.
  intros H Hx Hy. unfold snr_gamma. pose proof (noise_pos g x H Hx) as P. pose proof (noise_lt g x y H Hx Hy) as L. unfold Rdiv. rewrite !Rmult_1_l. apply Rinv_lt_contravar; [|apply sqrt_lt_1_alt; lra]. apply Rmult_lt_0_compat; apply sqrt_lt_R0; lra.
Qed.
Lemma sqrt_25 : sqrt (1/25) = 1/5.
Proof. replace (1/25) with ((1/5) * (1/5)) by lra. apply sqrt_square. lra. Qed.
Lemma snr_gamma_1 g : snr_gamma g 1 = 5.
Proof. unfold snr_gamma. replace ((1/25 - g) * 1 + g * 1 * 1) with (1/25) by ring. rewrite sqrt_25. lra. Qed.
Lemma snr_gamma_flat x : 0 < x -> snr_gamma (1/25) x = 5 / x.
Proof. intros H. unfold snr_gamma. replace ((1/25 - 1/25) * x + 1/25 * x * x) with ((x/5) * (x/5)) by field. rewrite sqrt_square by lra. field. lra. Qed.
Lemma precision_pos fwhm snr floor : 0 < floor \/ (0 < fwhm /\ 0 < snr) -> 0 < astrom_precision fwhm snr floor.
Proof.
  intros H. apply sqrt_lt_R0. pose proof (square_nonneg (fwhm / snr)) as A. pose proof (square_nonneg floor) as B. destruct H as [H|[H1 H2]]; [nra|]. assert (0 < fwhm / snr) by (apply Rdiv_lt_0_compat; assumption). nra.
Qed.
(** * visits *)
Definition perr (mags : string -> option R) (atm : R) (v : avisit) : R :=
  match mags (av_band v) with None => 0 | Some m => astrom_precision (av_seeing v) (m52snr (Some (1/25)) m (av_m5 v)) atm end.
Lemma map_ok_spec {A B} (f : A -> result B) l r : map_ok f l = Ok r -> forall (g : A -> B), (forall x y, f x = Ok y -> g x = y) -> r = map g l.
Proof.
  revert r. induction l as [|x l IH]; intros r E g Hg; cbn in E; [injection E as <-; reflexivity|]. destruct (f x) as [y|e] eqn:F; [|discriminate]. cbn in E. destruct (map_ok f l) as [r'|e] eqn:E'; [|discriminate]. cbn in E. injection E as <-. cbn. rewrite (Hg x y F), (IH r' eq_refl g Hg). reflexivity.
Qed.
Lemma map_ok_in {A B} (f : A -> result B) l r x : map_ok f l = Ok r -> In x l -> exists y, f x = Ok y.
Proof.
  revert r. induction l as [|x' l IH]; intros r E H; [destruct H|]. cbn in E. destruct (f x') as [y|e] eqn:F; [|discriminate]. cbn in E. destruct (map_ok f l) as [r'|e] eqn:E'; [|discriminate]. destruct H as [<-|H]; [exists y; exact F|exact (IH r' eq_refl H)].
Qed.
Lemma map_ok_total {A B} (f : A -> result B) l : (forall x, In x l -> exists y, f x = Ok y) -> exists r, map_ok f l = Ok r.
Proof.
  induction l as [|x l IH]; intros H; [exists []; reflexivity|]. destruct (H x (or_introl eq_refl)) as (y & E). destruct (IH (fun z Hz => H z (or_intror Hz))) as (r & Er). exists (y :: r). cbn. rewrite E. cbn. rewrite Er. reflexivity.
Qed.
Lemma errs_eq mags atm l errs : map_ok (pos_error mags atm) l = Ok errs -> errs = map (perr mags atm) l.
Proof. intros E. apply (map_ok_spec _ _ _ E). intros x y. unfold pos_error, perr. destruct (mags (av_band x)); [|discriminate]. intros H. injection H as <-. reflexivity. Qed.
Definition has_error (atm : R) (v : avisit) : Prop := 0 < atm \/ 0 < av_seeing v.
Lemma m52snr_pos m m5 : 0 < m52snr (Some (1/25)) m m5.
Proof. apply snr_gamma_pos; [lra|apply pow10_pos]. Qed.
Lemma perr_pos mags atm l errs v : map_ok (pos_error mags atm) l = Ok errs -> In v l -> has_error atm v -> 0 < perr mags atm v.
Proof.
  intros E H He. destruct (map_ok_in _ _ _ _ E H) as (y & Ey). unfold pos_error in Ey. unfold perr. destruct (mags (av_band v)); [|discriminate]. apply precision_pos. destruct He as [He|He]; [left; exact He|right; split; [exact He|apply m52snr_pos]].
Qed.
Lemma combine_map {A B C} (f : A -> B) (g : A -> C) l : combine (map f l) (map g l) = map (fun x => (f x, g x)) l.
Proof. induction l as [|x l IH]; [reflexivity|]. cbn. rewrite IH. reflexivity. Qed.
(** * parallax *)
Definition pinfo (mags : string -> option R) (atm : R) (v : avisit) : R := (av_ra_pi v * av_ra_pi v + av_dec_pi v * av_dec_pi v) / (perr mags atm v * perr mags atm v).
Lemma final_info mags atm vs : (forall v, In v vs -> 0 < perr mags atm v) -> info (combine (map (perr mags atm) vs) (map av_ra_pi vs)) + info (combine (map (perr mags atm) vs) (map av_dec_pi vs)) = rsum (map (pinfo mags atm) vs).
Proof.
  intros H. unfold info. rewrite !combine_map, !map_map. cbn [fst snd]. rewrite <- rsum_plus. apply rsum_ext. intros v Hv. specialize (H v Hv). unfold pinfo. field. lra.
Qed.
Lemma norm_info mags atm vs : (forall v, In v vs -> 0 < perr mags atm v) ->
  info (combine (map (perr mags atm) vs) (map (fun v => av_ra_pi v * 0 + 1) vs)) + info (combine (map (perr mags atm) vs) (map (fun v => av_dec_pi v * 0) vs)) = rsum (map (fun v => 1 / (perr mags atm v * perr mags atm v)) vs).
Proof.
  intros H. unfold info. rewrite !combine_map, !map_map. cbn [fst snd]. rewrite <- rsum_plus. apply rsum_ext. intros v Hv. specialize (H v Hv). field. lra.
Qed.
Lemma pinfo_nonneg mags atm v : 0 < perr mags atm v -> 0 <= pinfo mags atm v.
Proof. intros H. unfold pinfo. pose proof (square_nonneg (av_ra_pi v)). pose proof (square_nonneg (av_dec_pi v)). apply Rmult_le_pos; [lra|]. left. apply Rinv_0_lt_compat. nra. Qed.
(** * the best dates for a proper motion *)
Definition dispersion (n q s : R) (l : list R) : R := n * (q + rsum (map (fun x => x * x) l)) - (s + rsum l) * (s + rsum l).
Lemma push_ends n B l : 1 <= n -> 0 <= B -> forall q s, (forall x, In x l -> 0 <= x <= B) -> exists l', length l' = length l /\ (forall x, In x l' -> x = 0 \/ x = B) /\ dispersion n q s l <= dispersion n q s l'.
Proof.
  intros Hn HB. induction l as [|x l IH]; intros q s H; [exists []; repeat split; [intros x []|lra]|].
  assert (forall e, dispersion n q s (e :: l) = dispersion n (q + e * e) (s + e) l) as Sh by (intros e; unfold dispersion, rsum; cbn [map fold_right]; ring).
  assert (exists e, (e = 0 \/ e = B) /\ dispersion n q s (x :: l) <= dispersion n q s (e :: l)) as (e & He & Le).
  { pose proof (H x (or_introl eq_refl)) as [Hx0 HxB]. set (Rr := s + rsum l).
    assert (forall e, dispersion n q s (e :: l) = (n - 1) * (e * e) - 2 * e * Rr + (n * (q + rsum (map (fun x => x * x) l)) - Rr * Rr)) as F by (intros e; unfold dispersion, Rr, rsum; cbn [map fold_right]; ring).
    destruct (Rle_dec ((n - 1) * B) (2 * Rr)) as [C|C].
    - exists 0. split; [left; reflexivity|]. rewrite !F. assert (x * ((n - 1) * x) <= x * (2 * Rr)); [|lra]. apply Rmult_le_compat_l; [exact Hx0|]. assert ((n - 1) * x <= (n - 1) * B) by (apply Rmult_le_compat_l; lra). lra.
    - exists B. split; [right; reflexivity|]. rewrite !F. assert (0 <= (B - x) * ((n - 1) * (B + x) - 2 * Rr)); [|lra]. apply Rmult_le_pos; [lra|]. assert (0 <= (n - 1) * x) by (apply Rmult_le_pos; lra). lra. }
  destruct (IH (q + e * e) (s + e)) as (l' & L1 & L2 & L3); [intros y Hy; apply H; right; exact Hy|]. exists (e :: l'). split; [cbn; rewrite L1; reflexivity|]. split; [intros y [<-|Hy]; [exact He|apply L2, Hy]|].
  eapply Rle_trans; [exact Le|]. rewrite !Sh. assert (dispersion n q s (e :: l') = dispersion n (q + e * e) (s + e) l') as -> by (unfold dispersion, rsum; cbn [map fold_right]; ring). exact L3.
Qed.
Lemma ends_sums B l : (forall x, In x l -> x = 0 \/ x = B) -> exists k, (k <= length l)%nat /\ rsum l = INR k * B /\ rsum (map (fun x => x * x) l) = INR k * (B * B).
Proof.
  induction l as [|x l IH]; intros H; [exists O; cbn; repeat split; try lia; lra|]. destruct IH as (k & K1 & K2 & K3); [intros y Hy; apply H; right; exact Hy|]. destruct (H x (or_introl eq_refl)) as [-> | ->].
  - exists k. split; [cbn; lia|]. unfold rsum in *. cbn [map fold_right]. rewrite K2, K3. split; ring.
  - exists (S k). split; [cbn; lia|]. rewrite S_INR. unfold rsum in *. cbn [map fold_right]. rewrite K2, K3. split; ring.
Qed.
Lemma halves n k : (k <= n)%nat -> (k * (n - k) <= (n / 2) * (n - n / 2))%nat.
Proof. intros H. pose proof (Nat.div_mod n 2 ltac:(lia)) as D. pose proof (Nat.mod_upper_bound n 2 ltac:(lia)) as M. set (h := (n / 2)%nat) in *. set (r := (n mod 2)%nat) in *. destruct (Nat.le_gt_cases k h); nia. Qed.
Lemma best_dates B l : 0 <= B -> (forall x, In x l -> 0 <= x <= B) ->
  INR (length l) * rsum (map (fun x => x * x) l) - rsum l * rsum l <= INR (length l / 2) * INR (length l - length l / 2) * (B * B).
Proof.
  intros HB H. destruct l as [|x0 l0] eqn:El; [cbn; lra|rewrite <- El in *]. assert (1 <= INR (length l)) as Hn by (rewrite El; cbn [length]; rewrite S_INR; pose proof (pos_INR (length l0)); lra).
  destruct (push_ends (INR (length l)) B l Hn HB 0 0 H) as (l' & L1 & L2 & L3). destruct (ends_sums B l' L2) as (k & K1 & K2 & K3). unfold dispersion in L3. rewrite K2, K3 in L3. rewrite L1 in K1.
  pose proof (halves (length l) k K1) as Hh. apply le_INR in Hh. rewrite !mult_INR in Hh. rewrite minus_INR in Hh at 1 by exact K1.
  assert (INR k * (INR (length l) - INR k) * (B * B) <= INR (length l / 2) * INR (length l - length l / 2) * (B * B)) by (apply Rmult_le_compat_r; [apply square_nonneg|exact Hh]). lra.
Qed.
Lemma rsum_repeat x n : rsum (repeat x n) = INR n * x.
Proof. induction n as [|n IH]; [cbn; lra|]. rewrite S_INR. cbn [repeat]. unfold rsum in *. cbn [fold_right]. rewrite IH. ring. Qed.
Lemma denom_same e xs : 0 < e -> slope_denom (map (fun x => (x, e)) xs) = (1 / (e * e)) * (1 / (e * e)) * (INR (length xs) * rsum (map (fun x => x * x) xs) - rsum xs * rsum xs).
Proof.
  intros He. unfold slope_denom. rewrite !map_map. unfold wgt. cbn [fst snd]. rewrite !rsum_scale. rewrite map_id. assert (rsum (map (fun _ : R => 1 / (e * e)) xs) = INR (length xs) * (1 / (e * e))) as ->.
  { rewrite <- rsum_repeat. f_equal. clear. induction xs as [|x xs IH]; [reflexivity|]. cbn. rewrite IH. reflexivity. }
  ring.
Qed.
Lemma norm_dates_denom B n : INR n * rsum (map (fun x => x * x) (norm_dates B n)) - rsum (norm_dates B n) * rsum (norm_dates B n) = INR (n / 2) * INR (n - n / 2) * ((B * year) * (B * year)).
Proof.
  unfold norm_dates. rewrite map_app, !rsum_app. assert (forall (x : R) k, map (fun x => x * x) (repeat x k) = repeat (x * x) k) as M by (intros x k; induction k as [|k IH]; [reflexivity|cbn; rewrite IH; reflexivity]). rewrite !M, !rsum_repeat.
  assert (n / 2 <= n)%nat by (apply Nat.div_le_upper_bound; lia). assert (INR n = INR (n / 2) + INR (n - n / 2)) as -> by (rewrite <- plus_INR; f_equal; lia). ring.
Qed.
Lemma norm_dates_length B n : length (norm_dates B n) = n.
Proof. unfold norm_dates. rewrite app_length, !repeat_length. assert (n / 2 <= n)%nat by (apply Nat.div_le_upper_bound; lia). lia. Qed.
(** * angles *)
Lemma sq_eq x : x * x = Rsqr x. Proof. reflexivity. Qed.
Lemma sqrt_factor x y : 0 < x -> sqrt (x * x + y * y) = x * sqrt (1 + Rsqr (y / x)).
Proof. intros H. rewrite <- (sqrt_square x) at 3 by lra. rewrite <- sqrt_mult_alt by apply square_nonneg. f_equal. unfold Rsqr. field. lra. Qed.
Lemma sqrt1_pos u : 0 < sqrt (1 + Rsqr u).
Proof. apply sqrt_lt_R0. pose proof (Rle_0_sqr u). lra. Qed.
Lemma atan2_spec y x : (x <> 0 \/ y <> 0) -> x = sqrt (x * x + y * y) * cos (atan2 y x) /\ y = sqrt (x * x + y * y) * sin (atan2 y x) /\ - PI < atan2 y x <= PI.
Proof.
  intros H. pose proof PI_RGT_0 as HP. unfold atan2. destruct (Rlt_dec 0 x) as [Hx|Hx]; [|destruct (Rlt_dec x 0) as [Hx'|Hx']; [|assert (x = 0) as -> by lra]].
  - pose proof (sqrt1_pos (y / x)). rewrite cos_atan, sin_atan, (sqrt_factor x y Hx). pose proof (atan_bound (y / x)). repeat split; try (field; lra); lra.
  - assert (sqrt (x * x + y * y) = - x * sqrt (1 + Rsqr (y / x))) as S.
    { replace (x * x + y * y) with (- x * - x + y * y) by ring. rewrite sqrt_factor by lra. do 3 f_equal. unfold Rsqr. field. lra. }
    pose proof (sqrt1_pos (y / x)). rewrite S. pose proof (atan_bound (y / x)) as B.
    assert (atan 0 = 0) as A0 by apply atan_0.
    destruct (Rle_dec 0 y) as [Hy|Hy].
    + assert (y / x <= 0) as Hq by (unfold Rdiv; apply Rinv_lt_0_compat in Hx'; nra). assert (atan (y / x) <= 0) as HA by (destruct Hq as [Hq|Hq]; [left; rewrite <- A0; apply atan_increasing, Hq|rewrite Hq, A0; lra]).
      rewrite neg_cos, neg_sin, cos_atan, sin_atan. repeat split; try (field; lra); lra.
    + assert (0 < y / x) as Hq by (unfold Rdiv; apply Rinv_lt_0_compat in Hx'; nra). assert (0 < atan (y / x)) as HA by (rewrite <- A0; apply atan_increasing, Hq).
      replace (atan (y / x) - PI) with (- (PI - atan (y / x))) by ring. rewrite cos_neg, sin_neg. replace (PI - atan (y / x)) with (- atan (y / x) + PI) by ring. rewrite neg_cos, neg_sin, cos_neg, sin_neg, cos_atan, sin_atan. repeat split; try (field; lra); lra.
  - destruct H as [H|H]; [congruence|]. rewrite Rmult_0_l, Rplus_0_l. destruct (Rlt_dec 0 y) as [Hy|Hy]; [|destruct (Rlt_dec y 0) as [Hy'|Hy']; [|lra]].
    + rewrite cos_PI2, sin_PI2, sqrt_square by lra. repeat split; lra.
    + rewrite cos_neg, sin_neg, cos_PI2, sin_PI2. replace (y * y) with (- y * - y) by ring. rewrite sqrt_square by lra. repeat split; lra.
Qed.
Lemma angle_unique a b : - PI < a <= PI -> - PI < b <= PI -> cos a = cos b -> sin a = sin b -> a = b.
Proof.
  intros Ha Hb C S. pose proof PI_RGT_0 as HP. destruct (Rle_dec 0 a) as [A|A], (Rle_dec 0 b) as [B|B].
  - apply cos_inj; lra.
  - exfalso. assert (0 <= sin a) by (apply sin_ge_0; lra). assert (sin b < 0); [|lra]. rewrite <- (Ropp_involutive b), sin_neg. assert (0 < sin (- b)) by (apply sin_gt_0; lra). lra.
  - exfalso. assert (0 <= sin b) by (apply sin_ge_0; lra). assert (sin a < 0); [|lra]. rewrite <- (Ropp_involutive a), sin_neg. assert (0 < sin (- a)) by (apply sin_gt_0; lra). lra.
  - assert (- a = - b); [|lra]. apply cos_inj; [lra|lra|]. rewrite !cos_neg. exact C.
Qed.
Lemma sin_cos_1 a : cos a * cos a + sin a * sin a = 1.
Proof. pose proof (sin2_cos2 a) as H. unfold Rsqr in H. lra. Qed.
Lemma atan2_angle a : - PI < a <= PI -> atan2 (sin a) (cos a) = a.
Proof.
  intros Ha. pose proof (sin_cos_1 a) as N. assert (cos a <> 0 \/ sin a <> 0) as H by (destruct (Req_dec (cos a) 0) as [E|E]; [right; intros E'; rewrite E, E' in N; lra|left; exact E]).
  destruct (atan2_spec (sin a) (cos a) H) as (E1 & E2 & Bd). rewrite N, sqrt_1, Rmult_1_l in E1, E2. apply angle_unique; [exact Bd|exact Ha|symmetry; exact E1|symmetry; exact E2].
Qed.
Lemma pymod_bounds x y : 0 < y -> 0 <= pymod x y < y /\ exists k, x = pymod x y + y * IZR k.
Proof.
  intros Hy. unfold pymod. destruct (base_Int_part (x / y)) as [B1 B2]. assert (x = y * (x / y)) as E by (field; lra). split; [|exists (Int_part (x / y)); ring].
  assert (y * IZR (Int_part (x / y)) <= x) by (rewrite E at 2; apply Rmult_le_compat_l; lra). assert (x - y < y * IZR (Int_part (x / y))); [|lra]. rewrite E at 1. replace (y * (x / y) - y) with (y * (x / y - 1)) by ring. apply Rmult_lt_compat_l; lra.
Qed.
Lemma vec_unit ra dec : dot (vec ra dec) (vec ra dec) = 1.
Proof. unfold vec, dot. pose proof (sin_cos_1 ra). pose proof (sin_cos_1 dec). replace (cos dec * cos ra * (cos dec * cos ra) + cos dec * sin ra * (cos dec * sin ra) + sin dec * sin dec) with (cos dec * cos dec * (cos ra * cos ra + sin ra * sin ra) + sin dec * sin dec) by ring. rewrite H. lra. Qed.
Lemma dot_bound a b : dot a a = 1 -> dot b b = 1 -> -1 <= dot a b <= 1.
Proof.
  destruct a as [[x y] z], b as [[x' y'] z']. unfold dot. intros A B.
  pose proof (square_nonneg (x - x')). pose proof (square_nonneg (y - y')). pose proof (square_nonneg (z - z')). pose proof (square_nonneg (x + x')). pose proof (square_nonneg (y + y')). pose proof (square_nonneg (z + z')). lra.
Qed.
Lemma dist_dot ra1 dec1 ra2 dec2 : dist_cosines ra1 dec1 ra2 dec2 = acos (dot (vec ra1 dec1) (vec ra2 dec2)).
Proof. unfold dist_cosines, dot, vec. f_equal. rewrite cos_minus. ring. Qed.
Lemma dot_one a b : dot a a = 1 -> dot b b = 1 -> dot a b = 1 -> a = b.
Proof.
  destruct a as [[x y] z], b as [[x' y'] z']. unfold dot. intros A B C.
  assert ((x - x') * (x - x') + (y - y') * (y - y') + (z - z') * (z - z') = 0) as E by lra.
  pose proof (square_nonneg (x - x')). pose proof (square_nonneg (y - y')). pose proof (square_nonneg (z - z')).
  assert ((x - x') * (x - x') = 0) as X by lra. assert ((y - y') * (y - y') = 0) as Y by lra. assert ((z - z') * (z - z') = 0) as Z by lra. apply Rmult_integral in X, Y, Z. f_equal; [f_equal|]; lra.
Qed.
(** least and greatest *)
Lemma fold_rmin l x : fold_left Rmin l x <= x /\ (forall y, In y l -> fold_left Rmin l x <= y) /\ (fold_left Rmin l x = x \/ In (fold_left Rmin l x) l).
Proof.
  revert x. induction l as [|y l IH]; intros x; cbn; [repeat split; [lra|intros y []|left; reflexivity]|]. destruct (IH (Rmin x y)) as (A & B & C). pose proof (Rmin_l x y). pose proof (Rmin_r x y). repeat split; [lra| |].
  - intros z [<-|Hz]; [lra|apply B, Hz].
  - destruct C as [C|C]; [|right; right; exact C]. rewrite C. unfold Rmin. destruct (Rle_dec x y); [left; reflexivity|right; left; reflexivity].
Qed.
Lemma fold_rmax l x : x <= fold_left Rmax l x /\ (forall y, In y l -> y <= fold_left Rmax l x) /\ (fold_left Rmax l x = x \/ In (fold_left Rmax l x) l).
Proof.
  revert x. induction l as [|y l IH]; intros x; cbn; [repeat split; [lra|intros y []|left; reflexivity]|]. destruct (IH (Rmax x y)) as (A & B & C). pose proof (Rmax_l x y). pose proof (Rmax_r x y). repeat split; [lra| |].
  - intros z [<-|Hz]; [lra|apply B, Hz].
  - destruct C as [C|C]; [|right; right; exact C]. rewrite C. unfold Rmax. destruct (Rle_dec x y); [right; left; reflexivity|left; reflexivity].
Qed.
Lemma rmin_spec l : l <> [] -> In (rmin_list l) l /\ forall y, In y l -> rmin_list l <= y.
Proof. destruct l as [|x l]; intros N; [congruence|]. cbn [rmin_list]. destruct (fold_rmin l x) as (A & B & C). split; [destruct C as [C|C]; [left; symmetry; exact C|right; exact C]|]. intros y [<-|H]; [exact A|apply B, H]. Qed.
Lemma rmax_spec l : l <> [] -> In (rmax_list l) l /\ forall y, In y l -> y <= rmax_list l.
Proof. destruct l as [|x l]; intros N; [congruence|]. cbn [rmax_list]. destruct (fold_rmax l x) as (A & B & C). split; [destruct C as [C|C]; [left; symmetry; exact C|right; exact C]|]. intros y [<-|H]; [exact A|apply B, H]. Qed.
