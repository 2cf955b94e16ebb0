(** Lemmas about photometry: counts of flat sources, depths. *)
From Verif Require Import Base Astrom_Model Astrom_Proofs Astrom_Proofs2 MoMag_Model MoMag_Proofs Resample_Model Resample_Spec Resample_Proofs Resample_Proofs2 Resample_Proofs3 Resample_Props Resample_Props2 Phot_Model Phot_Spec Phot_Proofs Phot_Proofs2 Phot_Props.
From Coq Require Import Reals List Lia Lra.
Open Scope R_scope.

(** parameters of a real telescope *)
Definition sane (pp : phot_params) : Prop :=
  0 < p_exptime pp /\ 0 < p_nexp pp /\ 0 < p_effarea pp /\ 0 < p_gain pp /\ 0 < p_platescale pp /\
  0 <= p_readnoise pp /\ 0 <= p_darkcurrent pp /\ 0 <= p_othernoise pp /\ 0 <= p_sigma_sys pp.
(** a bandpass the default flat source reaches *)
Definition lit (b : bandpass) : Prop := band_ok b /\ serves (b_w b) flat_wavelen.

Definition steps : nat := Z.to_nat 8500.
Lemma steps_R : INR steps = 8500. Proof. unfold steps. rewrite INR_IZR_INZ, Z2Nat.id by discriminate. reflexivity. Qed.
Lemma steps_2 : (2 < steps)%nat. Proof. apply INR_lt. rewrite steps_R. simpl. lra. Qed.
Lemma flat_tab : flat_wavelen = tab (fun i => 300 + INR i * (1 / 10)) (S steps).
Proof.
  unfold flat_wavelen. replace 1150 with (300 + INR steps * (1 / 10)) by (rewrite steps_R; lra).
  rewrite (proj2 (C179_same_partial 300 (1/10) steps ltac:(lra))). reflexivity.
Qed.
Lemma flat_length : length flat_wavelen = S steps. Proof. rewrite flat_tab. apply tab_length. Qed.
Lemma flat_nth i : (i <= steps)%nat -> nth i flat_wavelen 0 = 300 + INR i * (1 / 10).
Proof. intros H. rewrite flat_tab. apply (tab_nth (fun i => 300 + INR i * (1/10))). lia. Qed.
Lemma flat_ascending : ascending flat_wavelen.
Proof.
  intros i j [H1 H2]. rewrite flat_length in H2. rewrite !flat_nth by lia. apply lt_INR in H1. lra.
Qed.
Lemma flat_ends : bin_lo flat_wavelen 0 = 300 - 1/20 /\ bin_hi flat_wavelen (length flat_wavelen - 1) = 1150 + 1/20.
Proof.
  pose proof steps_2. unfold bin_lo, bin_hi. rewrite flat_length. rewrite (proj2 (Nat.eqb_eq (S (S steps - 1)) (S steps))) by lia.
  rewrite !flat_nth by lia. replace (S steps - 1)%nat with steps by lia. replace (S steps - 2)%nat with (steps - 1)%nat by lia.
  rewrite minus_INR, steps_R by lia. simpl. lra.
Qed.
Lemma flat_two : (2 <= length flat_wavelen)%nat. Proof. pose proof steps_2. rewrite flat_length. lia. Qed.
Lemma flat_spectrum k : spectrum flat_wavelen (times k flat_fnu).
Proof. split; [apply flat_ascending|]. split; [apply flat_two|]. rewrite times_length. apply map_length. Qed.
Lemma flat_spectrum1 : spectrum flat_wavelen flat_fnu.
Proof. split; [apply flat_ascending|]. split; [apply flat_two|]. apply map_length. Qed.
Lemma flat_times k : times k flat_fnu = map (fun _ => 3631 * k) flat_wavelen. Proof. unfold times, flat_fnu. rewrite map_map. reflexivity. Qed.
Lemma times_1 l : times 1 l = l. Proof. unfold times. rewrite <- (map_id l) at 2. apply map_ext. intros; ring. Qed.

Lemma lit_mean b k i : lit b -> (i < length (b_w b))%nat -> mean_at (b_w b) flat_wavelen (times k flat_fnu) i = 3631 * k.
Proof. intros [[T _] [V _]] Hi. rewrite flat_times. pose proof T as (A & L & _). apply mean_at_const; auto; [apply flat_ascending|apply flat_two]. Qed.
Lemma lit_flux b k : lit b -> calc_flux b flat_wavelen (times k flat_fnu) None = Ok (Some (3631 * k)).
Proof.
  intros H. pose proof H as [B V]. rewrite calc_flux_value by (auto; apply flat_spectrum). do 2 f_equal.
  rewrite (band_mean_ext _ _ _ (fun _ => 3631 * k)) by (intros i Hi; apply lit_mean; auto). apply band_mean_const, B.
Qed.
Lemma small_one : 1 / 10 ^ 300 < 1.
Proof.
  apply Rmult_lt_reg_r with (10 ^ 300); [apply pow_lt; lra|]. unfold Rdiv. rewrite Rmult_assoc, Rinv_l, !Rmult_1_l by (apply pow_nonzero; lra).
  apply Rlt_pow_R1; [lra|lia].
Qed.
Lemma lit_mag b : lit b -> calc_mag zp_new b flat_wavelen flat_fnu None = Ok (Some 0).
Proof.
  intros H. unfold calc_mag. rewrite <- (times_1 flat_fnu), (lit_flux b 1 H). cbn [bind]. pose proof small_one.
  destruct (Rlt_dec (3631 * 1) (1 / 10 ^ 300)) as [L|_]; [lra|]. do 2 f_equal. rewrite Rmult_1_r, <- zp_flux. apply mag_of_flux.
Qed.
Lemma mag_of_k k : 0 < k -> mag_from_flux zp_new (3631 * k) = - (5/2) * lg k.
Proof. intros K. unfold mag_from_flux, zp_new. rewrite lg_mult by lra. ring. Qed.
Lemma lit_mag_k b k : lit b -> 1 / 10 ^ 300 <= 3631 * k -> calc_mag zp_new b flat_wavelen (times k flat_fnu) None = Ok (Some (- (5/2) * lg k)).
Proof.
  intros H K. unfold calc_mag. rewrite (lit_flux b k H). cbn [bind]. destruct (Rlt_dec (3631 * k) (1 / 10 ^ 300)) as [L|_]; [lra|]. do 2 f_equal.
  apply mag_of_k. pose proof tiny_pos. lra.
Qed.
Lemma lit_mag_inv b k m : lit b -> calc_mag zp_new b flat_wavelen (times k flat_fnu) None = Ok (Some m) -> 0 < k /\ m = - (5/2) * lg k /\ k = Rpower 10 (- (2/5) * m).
Proof.
  intros H. unfold calc_mag. rewrite (lit_flux b k H). cbn [bind]. destruct (Rlt_dec (3631 * k) (1 / 10 ^ 300)) as [L|L]; [discriminate|]. intros E.
  pose proof tiny_pos. assert (K : 0 < k) by lra. rewrite mag_of_k in E by exact K. injection E as <-. split; [exact K|]. split; [reflexivity|].
  rewrite <- (pow_lg k K) at 1. f_equal. field.
Qed.
Lemma lit_norm b m : lit b -> calc_flux_norm zp_new m b flat_wavelen flat_fnu None = Ok (Some (Rpower 10 (- (2/5) * m))).
Proof. intros H. unfold calc_flux_norm. rewrite lit_mag by exact H. cbn [bind]. do 3 f_equal. ring. Qed.

(** the counts of the flat source of magnitude zero *)
Lemma factor_pos pp : sane pp -> 0 < adu_factor pp.
Proof.
  intros (A & B & C & D & _). unfold adu_factor. pose proof planck_pos. pose proof jansky_pos.
  apply Rmult_lt_0_compat; [|apply Rdiv_lt_0_compat; lra]. apply Rmult_lt_0_compat; [|apply Rdiv_lt_0_compat; lra].
  apply Rdiv_lt_0_compat; [|exact D]. apply Rmult_lt_0_compat; [apply Rmult_lt_0_compat; assumption|assumption].
Qed.
Definition band_sum (b : bandpass) : R := bin_sum (b_w b) (fun i => 3631 / nth i (b_w b) 0 * nth i (b_sb b) 0).
Lemma band_sum_pos b : throughput (b_w b) (b_sb b) -> 0 < band_sum b.
Proof.
  intros T. destruct (throughput_resp b T) as (W & _ & _). pose proof T as (A & L & Ls & _ & Hs & (x & Hx & Px)).
  destruct (In_nth _ _ 0 Hx) as (k & Hk & Ek). rewrite Ls in Hk. pose proof (A 0%nat 1%nat ltac:(lia)) as St.
  unfold band_sum, bin_sum. eapply Rlt_le_trans; [|apply (rsum_ge_one _ _ k)].
  - cbn beta. rewrite Ek. repeat apply Rmult_lt_0_compat; try lra. apply Rinv_0_lt_compat, W, Hk.
  - intros i Hi. apply in_seq in Hi. specialize (W i ltac:(lia)). specialize (Hs (nth i (b_sb b) 0) ltac:(apply nth_In; lia)).
    pose proof (Rinv_0_lt_compat _ W). apply Rmult_le_pos; [apply Rmult_le_pos; [apply Rmult_le_pos; lra|lra]|lra].
  - apply in_seq. lia.
Qed.
Definition counts0 (pp : phot_params) (b : bandpass) : R := adu_factor pp * band_sum b.
Lemma counts0_pos pp b : sane pp -> lit b -> 0 < counts0 pp b.
Proof. intros S [[T _] _]. apply Rmult_lt_0_compat; [apply factor_pos, S|apply band_sum_pos, T]. Qed.
Lemma lit_counts pp b k : lit b -> calc_adu pp b flat_wavelen (times k flat_fnu) = Ok (Some (counts0 pp b * k)).
Proof.
  intros H. pose proof H as [[T C] V]. pose proof T as (A & L & Ls & _). rewrite calc_adu_value by (auto; apply flat_spectrum). do 2 f_equal.
  unfold counts0. rewrite Rmult_assoc. f_equal. unfold band_sum, bin_sum. change addup with rsum. rewrite (Rmult_comm (rsum _) k), <- rsum_scale.
  apply rsum_ext. intros i Hi. apply in_seq in Hi. rewrite (lit_mean b k i) by (auto; lia). unfold Rdiv. ring.
Qed.
Lemma lit_counts1 pp b : lit b -> calc_adu pp b flat_wavelen flat_fnu = Ok (Some (counts0 pp b)).
Proof. intros H. rewrite <- (times_1 flat_fnu), lit_counts by exact H. do 2 f_equal. ring. Qed.
Lemma flat_counts_value pp b m : lit b -> flat_counts pp b m = Ok (Some (counts0 pp b * Rpower 10 (- (2/5) * m))).
Proof. intros H. unfold flat_counts. rewrite lit_norm by exact H. cbn [bind]. apply lit_counts, H. Qed.
Lemma noise_nonneg pp fwhm sky : sane pp -> 0 <= sky -> 0 <= non_source_noise_sq pp fwhm sky.
Proof.
  intros (A & B & C & D & E & F & G & H & _) S. unfold non_source_noise_sq, calc_neff, calc_instr_noise_sq.
  assert (0 < / (p_gain pp)) by (apply Rinv_0_lt_compat; lra). assert (0 < / (p_gain pp * p_gain pp)) by (apply Rinv_0_lt_compat, Rmult_lt_0_compat; lra).
  apply Rmult_le_pos; [apply Rmult_le_pos; [lra|apply Rle_0_sqr]|]. unfold Rdiv.
  assert (0 <= sky * p_platescale pp * p_platescale pp * / p_gain pp) by (repeat apply Rmult_le_pos; lra).
  assert (0 <= p_nexp pp * (p_readnoise pp * p_readnoise pp)) by (repeat apply Rmult_le_pos; lra).
  assert (0 <= p_darkcurrent pp * p_exptime pp * p_nexp pp) by (repeat apply Rmult_le_pos; lra).
  assert (0 <= p_nexp pp * (p_othernoise pp * p_othernoise pp)) by (repeat apply Rmult_le_pos; lra).
  assert (0 <= (p_nexp pp * (p_readnoise pp * p_readnoise pp) + p_darkcurrent pp * p_exptime pp * p_nexp pp + p_nexp pp * (p_othernoise pp * p_othernoise pp)) * / (p_gain pp * p_gain pp)) by (apply Rmult_le_pos; lra).
  lra.
Qed.

(** the counts at five sigma *)
Lemma c5_pos g v : 0 < g -> 0 <= v -> 0 < counts_5sigma g v.
Proof.
  intros G V. unfold counts_5sigma. apply Rplus_lt_le_0_compat; [apply Rdiv_lt_0_compat; lra|apply sqrt_pos].
Qed.
Lemma c5_square g v : 0 < g -> 0 <= v ->
  counts_5sigma g v * counts_5sigma g v - 25 * (counts_5sigma g v / g + v) = 625 / 4 * (g - 1) / (g * g).
Proof.
  intros G V. unfold counts_5sigma. assert (P : 0 <= 625 / 4 / g + 25 * v) by (pose proof (Rinv_0_lt_compat g G); unfold Rdiv; nra).
  pose proof (sqrt_sqrt _ P) as E. set (r := sqrt (625 / 4 / g + 25 * v)) in *.
  replace ((25 / 2 / g + r) * (25 / 2 / g + r) - 25 * ((25 / 2 / g + r) / g + v)) with (r * r + 625 / 4 / (g * g) - 625 / 2 / (g * g) - 25 * v) by (field; lra).
  rewrite E. field. lra.
Qed.
Lemma snr_5 g c v : 0 < g -> 0 < c -> 0 <= v ->
  (snr_of_counts g c v = 5 <-> c * c = 25 * (c / g + v)) /\ (5 < snr_of_counts g c v <-> 25 * (c / g + v) < c * c) /\ 0 < snr_of_counts g c v.
Proof.
  intros G C V. unfold snr_of_counts. assert (P : 0 < c / g + v) by (pose proof (Rdiv_lt_0_compat c g C G); lra). set (n := c / g + v) in *. clearbody n.
  pose proof (sqrt_lt_R0 n P) as Q. pose proof (sqrt_sqrt n ltac:(lra)) as E. set (r := sqrt n) in *. clearbody r. rewrite <- E.
  split; [|split].
  - split; intros H; [assert (Ec : c = 5 * r) by (rewrite <- H; field; lra); rewrite Ec; ring|]. assert (Ec : c = 5 * r) by nra. rewrite Ec. field. lra.
  - split; intros H.
    + assert (5 * r < c). { apply Rmult_lt_reg_r with (/ r); [apply Rinv_0_lt_compat, Q|]. rewrite Rmult_assoc, Rinv_r by lra. unfold Rdiv in H. lra. } nra.
    + assert (5 * r < c) by nra. apply Rmult_lt_reg_r with r; [exact Q|]. unfold Rdiv. rewrite Rmult_assoc, Rinv_l by lra. lra.
  - apply Rdiv_lt_0_compat; assumption.
Qed.
