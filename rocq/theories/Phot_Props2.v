(** Properties of counts, zeropoints and effective wavelengths: C185-C188. *)
From Verif Require Import Base Astrom_Model Astrom_Proofs Astrom_Proofs2 MoMag_Model MoMag_Proofs Resample_Model Resample_Spec Resample_Proofs Resample_Proofs2 Resample_Proofs3 Resample_Props Resample_Props2 Phot_Model Phot_Spec Phot_Proofs Phot_Proofs2 Phot_Props Phot_Proofs3.
From Coq Require Import Reals List Lia Lra.
Open Scope R_scope.

Definition uniform (g : list R) : Prop := exists s, forall i, (S i < length g)%nat -> nth (S i) g 0 - nth i g 0 = s.
Lemma uniform_bin g i : uniform g -> (2 <= length g)%nat -> (i < length g)%nat -> bin_hi g i - bin_lo g i = nth 1 g 0 - nth 0 g 0.
Proof.
  intros [s U] L Hi. rewrite (U 0%nat) by lia. unfold bin_hi, bin_lo. destruct i as [|i].
  - rewrite (proj2 (Nat.eqb_neq 1 (length g))) by lia. pose proof (U 0%nat ltac:(lia)). lra.
  - pose proof (U i ltac:(lia)). destruct (Nat.eqb_spec (S (S i)) (length g)) as [E|E].
    + replace (S i - 1)%nat with i by lia. lra.
    + pose proof (U (S i) ltac:(lia)). lra.
Qed.

(** C185: the counts are the photons of all the bins of the bandpass: flux over (energy, so Planck's constant and wavelength)
    times throughput times the width of the bin, times exposure time, number of exposures, area, over gain *)
Definition photons (w sb : list R) (f : nat -> R) : R :=
  addup (map (fun i => f i / nth i w 0 * nth i sb 0 * (bin_hi w i - bin_lo w i)) (seq 0 (length w))).
Definition per_photon (pp : phot_params) : R := p_exptime pp * p_nexp pp * p_effarea pp / p_gain pp / 10 ^ 23 / (6626068 / 10 ^ 33).
Lemma per_photon_factor pp : p_gain pp <> 0 -> adu_factor pp = per_photon pp.
Proof.
  intros H. unfold adu_factor, per_photon, ergsetc2jansky, planck. assert (10 ^ 23 <> 0) by (apply pow_nonzero; lra). assert (10 ^ 33 <> 0) by (apply pow_nonzero; lra).
  generalize dependent (10 ^ 23). generalize dependent (10 ^ 33). intros. field. repeat split; auto; lra.
Qed.
Theorem C185_photons_refuted : ~ (forall pp w sb wl fnu b, sane pp -> throughput w sb -> set_bandpass w sb = Ok b -> spectrum wl fnu -> serves w wl ->
  calc_adu pp b wl fnu = Ok (Some (per_photon pp * photons w sb (mean_at w wl fnu)))).
Proof.
  intros C. set (pp := {| p_exptime := 1; p_nexp := 1; p_effarea := 1; p_gain := 1; p_readnoise := 0; p_darkcurrent := 0; p_othernoise := 0; p_platescale := 1; p_sigma_sys := 0 |}).
  assert (Sa : sane pp) by (unfold sane, pp; cbn; lra).
  set (w := [400; 500; 700]). set (sb := [0; 0; 1]).
  assert (A : ascending w) by (unfold w; asc).
  assert (T : throughput w sb). { repeat split; auto; cbn; try lia; try lra; [intros x [<-|[<-|[<-|[]]]]; lra|exists 1; split; [tauto|lra]]. }
  assert (S : spectrum w [7; 7; 7]) by (split; [exact A|split; [cbn; lia|reflexivity]]).
  assert (V : serves w w). { split; [split; cbn; lra|left; reflexivity]. }
  specialize (C pp w sb w [7; 7; 7] {| b_w := w; b_sb := sb; b_phi := None |} Sa T eq_refl S V).
  rewrite calc_adu_value in C by (auto; cbn; lia). cbn [b_w b_sb] in C. injection C as C.
  rewrite per_photon_factor in C by (cbn; lra). apply Rmult_eq_reg_l in C.
  - unfold bin_sum, photons, addup in C. cbn [length w seq map fold_right] in C. rewrite !(mean_own w [7; 7; 7]) in C by (auto; cbn; lia).
    unfold bin_lo, bin_hi in C. cbn [w sb nth length Nat.eqb Nat.sub] in C. lra.
  - apply Rgt_not_eq. rewrite <- per_photon_factor by (cbn; lra). apply factor_pos, Sa.
Qed.
Print Assumptions C185_photons_refuted.
(** ... but they are on a uniform grid *)
Theorem C185_photons_partial : forall pp w sb wl fnu b, p_gain pp <> 0 -> throughput w sb -> uniform w -> set_bandpass w sb = Ok b -> spectrum wl fnu -> serves w wl ->
  calc_adu pp b wl fnu = Ok (Some (per_photon pp * photons w sb (mean_at w wl fnu))).
Proof.
  intros pp w sb wl fnu b G T U E S V. pose proof T as (A & L & Ls & _). unfold set_bandpass in E. destruct (Nat.eqb (length w) (length sb)); [|discriminate]. injection E as <-.
  rewrite calc_adu_value by auto. cbn [b_w b_sb]. rewrite per_photon_factor by exact G. do 3 f_equal. unfold bin_sum, photons. apply (rsum_ext _ _).
  intros i Hi. apply in_seq in Hi. rewrite uniform_bin by (auto; lia). reflexivity.
Qed.
Print Assumptions C185_photons_partial.
(** more flux, time, exposures, area or less gain give proportionally more counts *)
Definition with_exposure (pp : phot_params) (t n a g : R) : phot_params :=
  {| p_exptime := t; p_nexp := n; p_effarea := a; p_gain := g; p_readnoise := p_readnoise pp; p_darkcurrent := p_darkcurrent pp; p_othernoise := p_othernoise pp;
     p_platescale := p_platescale pp; p_sigma_sys := p_sigma_sys pp |}.
Theorem C185_linear : forall pp w sb wl fnu b k t n a g, p_gain pp <> 0 -> g <> 0 -> ascending w -> (2 <= length w)%nat -> set_bandpass w sb = Ok b -> spectrum wl fnu ->
  exists x, calc_adu pp b wl fnu = Ok x /\
    calc_adu (with_exposure pp (t * p_exptime pp) (n * p_nexp pp) (a * p_effarea pp) (g * p_gain pp)) b wl (multiply_flux_norm k fnu) =
    Ok (option_map (fun c => k * t * n * a / g * c) x).
Proof.
  intros pp w sb wl fnu b k t n a g G G' A L E S. unfold set_bandpass in E. destruct (Nat.eqb (length w) (length sb)); [|discriminate]. injection E as <-.
  set (b := {| b_w := w; b_sb := sb; b_phi := None |}). set (pp' := with_exposure _ _ _ _ _).
  destruct (calc_adu_times pp' b wl fnu k A L S) as (y & E1 & E2). unfold multiply_flux_norm. fold (times k fnu). rewrite E2.
  unfold calc_adu in *. destruct (resample_match (b_w b) wl fnu false None) as [r|]; cbn [bind] in *; [|discriminate]. injection E1 as <-.
  eexists. split; [reflexivity|]. destruct (numbers (snd r)); [|reflexivity]. cbn [option_map]. do 2 f_equal.
  assert (adu_factor pp' = t * n * a / g * adu_factor pp) as ->; [|change (b_sb b) with sb; unfold Rdiv; ring].
  unfold adu_factor, pp', with_exposure. cbn. pose proof planck_pos. pose proof jansky_pos. field. repeat split; auto; lra.
Qed.
Print Assumptions C185_linear.
Example C185_case : uniform (b_w ex_band) /\ throughput (b_w ex_band) (b_sb ex_band) /\ serves (b_w ex_band) ex_w.
Proof.
  split; [|split; [apply ex_throughput|apply ex_serves]]. exists 100. intros i Hi. cbn in Hi. destruct i as [|[|i]]; cbn; try lra. lia.
Qed.

(** C186: calc_ergs is the integral of flux times throughput, by trapezoids: only on a uniform grid *)
Lemma calc_ergs_value b w f fill : ascending (b_w b) -> (2 <= length (b_w b))%nat -> length (b_sb b) = length (b_w b) -> spectrum w f -> serves (b_w b) w ->
  calc_ergs b w f fill = Ok (Some (addup (map (fun i => (nth 1 (b_w b) 0 - nth 0 (b_w b) 0) * ((mean_at (b_w b) w f i * nth i (b_sb b) 0 + mean_at (b_w b) w f (S i) * nth (S i) (b_sb b) 0) / 2)) (seq 0 (length (b_w b) - 1))))).
Proof.
  intros A L Ls S V. unfold calc_ergs. rewrite resample_serves by auto. cbn [bind fst snd]. rewrite numbers_some. do 2 f_equal.
  rewrite (zip_as_tab Rmult _ _ (length (b_w b))) by (rewrite ?tab_length; auto). rewrite mids_tab, tab_length. unfold tab at 1. rewrite map_map.
  unfold first_step. apply (rsum_ext _ _). intros i Hi. apply in_seq in Hi. rewrite !tab_nth by lia. ring.
Qed.
Theorem C186_ergs_refuted : ~ (forall w sb wl fl fill b, throughput w sb -> set_bandpass w sb = Ok b -> spectrum wl fl -> serves w wl ->
  calc_ergs b wl fl fill = Ok (Some (integral w (fun i => mean_at w wl fl i * nth i sb 0)))).
Proof.
  intros C. set (w := [400; 500; 700]). set (sb := [0; 0; 1]).
  assert (A : ascending w) by (unfold w; asc).
  assert (T : throughput w sb). { repeat split; auto; cbn; try lia; try lra; [intros x [<-|[<-|[<-|[]]]]; lra|exists 1; split; [tauto|lra]]. }
  assert (S : spectrum w [7; 7; 7]) by (split; [exact A|split; [cbn; lia|reflexivity]]).
  assert (V : serves w w). { split; [split; cbn; lra|left; reflexivity]. }
  specialize (C w sb w [7; 7; 7] None {| b_w := w; b_sb := sb; b_phi := None |} T eq_refl S V).
  rewrite calc_ergs_value in C by (auto; cbn; lia). cbn [b_w b_sb] in C. injection C as C.
  unfold integral, addup in C. cbn [length w seq map fold_right Nat.sub] in C. rewrite !(mean_own w [7; 7; 7]) in C by (auto; cbn; lia).
  cbn [w sb nth length Nat.eqb Nat.sub] in C. lra.
Qed.
Print Assumptions C186_ergs_refuted.
Theorem C186_ergs_partial : forall w sb wl fl fill b, throughput w sb -> uniform w -> set_bandpass w sb = Ok b -> spectrum wl fl -> serves w wl ->
  calc_ergs b wl fl fill = Ok (Some (integral w (fun i => mean_at w wl fl i * nth i sb 0))).
Proof.
  intros w sb wl fl fill b T [s U] E S V. pose proof T as (A & L & Ls & _). unfold set_bandpass in E. destruct (Nat.eqb (length w) (length sb)); [|discriminate]. injection E as <-.
  rewrite calc_ergs_value by auto. cbn [b_w b_sb]. do 2 f_equal. unfold integral. apply (rsum_ext _ _).
  intros i Hi. apply in_seq in Hi. rewrite (U i), (U 0%nat) by lia. reflexivity.
Qed.
Print Assumptions C186_ergs_partial.
Example C186_case : uniform (b_w ex_band). Proof. apply C185_case. Qed.

(** C187: the zeropoint of a bandpass is the magnitude of the source of one count per second: it is that of one count per visit *)
Definition one_second (pp : phot_params) : phot_params := with_exposure pp 1 1 (p_effarea pp) (p_gain pp).
Lemma ex_lit : lit ex_band.
Proof.
  split; [apply ex_ok|]. split.
  - destruct flat_ends as [A B]. split; [rewrite A|rewrite B]; cbn; lra.
  - right. left. rewrite flat_length. pose proof steps_2. cbn [ex_band b_w length]. lia.
Qed.
Lemma ex_counts pp : 0 <= p_exptime pp * p_nexp pp * p_effarea pp / p_gain pp <= 2 -> counts0 pp ex_band <= 10 ^ 40.
Proof.
  intros H. unfold counts0, band_sum, bin_sum, addup, adu_factor, ergsetc2jansky, planck. cbn [ex_band b_w b_sb length seq map fold_right nth].
  set (t := p_exptime pp * p_nexp pp * p_effarea pp / p_gain pp) in *. clearbody t.
  set (q := 10 ^ 33). assert (Q : q <= 10 ^ 40). { apply Rle_pow; [lra|lia]. }
  assert (q0 : 0 < q) by (apply pow_lt; lra).
  assert (J : 0 < 1 / 10 ^ 23 <= 1 / 1000). { rewrite pow_IZR. split; [apply Rdiv_lt_0_compat; [lra|apply IZR_lt; reflexivity]|]. unfold Rdiv. rewrite !Rmult_1_l. apply Rinv_le_contravar; [lra|apply IZR_le; apply Z.leb_le; reflexivity]. }
  set (j := 1 / 10 ^ 23) in *. replace (1 / (6626068 / q)) with (q / 6626068) by (field; lra).
  apply Rle_trans with q; [|lra]. clearbody q j. assert (0 <= t * j <= 1) by nra. set (u := t * j) in *. clearbody u. nra.
Qed.
Lemma zp_value pp b m : sane pp -> lit b -> calc_zp_t pp b = Ok (Some m) -> Rpower 10 (- (2/5) * m) = 1 / counts0 pp b.
Proof.
  intros S L E. unfold calc_zp_t in E. rewrite lit_counts1 in E by exact L. cbn [bind] in E.
  change (map (fun x : R => x * (1 / counts0 pp b)) flat_fnu) with (times (1 / counts0 pp b) flat_fnu) in E.
  apply lit_mag_inv in E; [|exact L]. symmetry. apply E.
Qed.
Theorem C187_per_second_refuted : ~ (forall pp b m, sane pp -> lit b -> calc_zp_t pp b = Ok (Some m) -> flat_counts (one_second pp) b m = Ok (Some 1)).
Proof.
  intros C. set (pp := {| p_exptime := 1; p_nexp := 2; p_effarea := 1; p_gain := 1; p_readnoise := 0; p_darkcurrent := 0; p_othernoise := 0; p_platescale := 1; p_sigma_sys := 0 |}).
  assert (Sa : sane pp) by (unfold sane, pp; cbn; lra). pose proof (counts0_pos pp ex_band Sa ex_lit) as P.
  assert (E : exists m, calc_zp_t pp ex_band = Ok (Some m) /\ Rpower 10 (- (2/5) * m) = 1 / counts0 pp ex_band).
  { unfold calc_zp_t. rewrite lit_counts1 by apply ex_lit. cbn [bind]. change (map (fun x : R => x * (1 / counts0 pp ex_band)) flat_fnu) with (times (1 / counts0 pp ex_band) flat_fnu).
    rewrite lit_mag_k; [|apply ex_lit|].
    - eexists. split; [reflexivity|]. replace (- (2/5) * (- (5/2) * lg (1 / counts0 pp ex_band))) with (lg (1 / counts0 pp ex_band)) by field. apply pow_lg, Rdiv_lt_0_compat; lra.
    - (* the counts are below 10^300 *)
      assert (B : counts0 pp ex_band <= 10 ^ 40) by (apply ex_counts; cbn; lra).
      assert (H300 : 1 / 10 ^ 300 <= 1 / 10 ^ 40). { unfold Rdiv. rewrite !Rmult_1_l. apply Rinv_le_contravar; [apply pow_lt; lra|]. apply Rle_pow; [lra|lia]. }
      assert (1 / 10 ^ 40 <= 1 / counts0 pp ex_band). { unfold Rdiv. rewrite !Rmult_1_l. apply Rinv_le_contravar; assumption. }
      pose proof (Rdiv_lt_0_compat 1 (counts0 pp ex_band) ltac:(lra) P). lra. }
  destruct E as (m & E & F). specialize (C pp ex_band m Sa ex_lit E). rewrite flat_counts_value, F in C by apply ex_lit.
  unfold counts0, adu_factor, one_second, with_exposure, pp in *. cbn [p_exptime p_nexp p_effarea p_gain] in *. injection C as C.
  pose proof planck_pos. pose proof jansky_pos. pose proof (band_sum_pos ex_band ex_throughput) as Bp.
  set (bs := band_sum ex_band) in *. clearbody bs. set (j := ergsetc2jansky) in *. set (p := planck) in *. clearbody j p.
  assert (1 = 1 / 2); [|lra]. rewrite <- C at 1. field. repeat split; lra.
Qed.
Print Assumptions C187_per_second_refuted.
Theorem C187_per_visit : forall pp b m, sane pp -> lit b -> calc_zp_t pp b = Ok (Some m) -> flat_counts pp b m = Ok (Some 1) /\
  flat_counts (one_second pp) b m = Ok (Some (1 / (p_exptime pp * p_nexp pp))).
Proof.
  intros pp b m S L E. pose proof (zp_value pp b m S L E) as F. pose proof (counts0_pos pp b S L) as P. pose proof S as (S1 & S2 & S3 & S4 & _).
  rewrite !flat_counts_value, F by exact L. split; do 2 f_equal; [field; lra|]. unfold counts0 in *.
  assert (adu_factor (one_second pp) = adu_factor pp / (p_exptime pp * p_nexp pp)) as ->.
  { unfold adu_factor, one_second, with_exposure. cbn. pose proof planck_pos. pose proof jansky_pos. field. repeat split; lra. }
  destruct L as [[T _] _]. pose proof (band_sum_pos b T). pose proof (factor_pos pp S). field. repeat split; lra.
Qed.
Print Assumptions C187_per_visit.
(** outside 300 to 1150 nm there is no zeropoint: NaN *)
Lemma numbers_none vs : In None vs -> numbers vs = None.
Proof. induction vs as [|[x|] vs IH]; intros H; [destruct H| |reflexivity]. destruct H as [H|H]; [discriminate|]. cbn [numbers]. rewrite IH by exact H. reflexivity. Qed.
Theorem C187_outside : forall pp w sb b, ascending w -> (2 <= length w)%nat -> set_bandpass w sb = Ok b -> length w <> length flat_wavelen ->
  (bin_lo w 0 < 300 - 1/20 \/ 1150 + 1/20 < bin_hi w (length w - 1)) -> calc_zp_t pp b = Ok None.
Proof.
  intros pp w sb b A L E N H. unfold set_bandpass in E. destruct (Nat.eqb (length w) (length sb)); [|discriminate]. injection E as <-.
  unfold calc_zp_t, calc_adu, resample_match. pose proof flat_spectrum1 as (Af & Lf & Ef). rewrite (proj2 (Nat.eqb_eq _ _) (eq_sym Ef)). cbn [b_w orb].
  assert (need_match w flat_wavelen = true) as ->. { unfold need_match. rewrite (proj2 (Nat.eqb_neq _ _) N). reflexivity. }
  destruct (C174_mean w flat_wavelen flat_fnu None A Af L Lf Ef) as (vs & -> & B & C). cbn [bind fst snd].
  rewrite numbers_none; [reflexivity|]. destruct flat_ends as [F1 F2]. destruct H as [H|H].
  - rewrite <- (proj2 (C 0%nat ltac:(lia))); [apply nth_In; lia|]. intros [K _]. lra.
  - rewrite <- (proj2 (C (length w - 1)%nat ltac:(lia))); [apply nth_In; lia|]. intros [_ K]. lra.
Qed.
Print Assumptions C187_outside.
Example C187_case : lit ex_band. Proof. apply ex_lit. Qed.

(** C188: effective wavelengths lie in the range of the bandpass; that weighted by the response is not longer than that
    weighted by the throughput *)
Lemma weighted_bounds l f h lo hi : (forall i : nat, In i l -> 0 <= h i) -> 0 < rsum (map h l) -> (forall i, In i l -> lo <= f i <= hi) ->
  lo <= rsum (map (fun i => f i * h i) l) / rsum (map h l) <= hi.
Proof.
  intros Hh P B. assert (X : lo * rsum (map h l) <= rsum (map (fun i => f i * h i) l) <= hi * rsum (map h l)).
  { rewrite <- !rsum_scale. split; apply rsum_le; intros i Hi; specialize (Hh i Hi); specialize (B i Hi); nra. }
  split; [apply Rmult_le_reg_r with (rsum (map h l))|apply Rmult_le_reg_r with (rsum (map h l))]; try exact P; unfold Rdiv; rewrite Rmult_assoc, Rinv_l by lra; lra.
Qed.
Theorem C188_effective : forall w sb b, throughput w sb -> set_bandpass w sb = Ok b ->
  exists p s, calc_eff_wavelen b = Some (p, s) /\ nth 0 w 0 <= p <= s /\ s <= nth (length w - 1) w 0.
Proof.
  intros w sb b T E. unfold set_bandpass in E. destruct (Nat.eqb (length w) (length sb)); [|discriminate]. injection E as <-.
  set (b := {| b_w := w; b_sb := sb; b_phi := None |}). destruct (throughput_resp b T) as (W & Q & N). cbn [b b_w b_sb] in W, Q. fold b in Q.
  pose proof T as (A & L & Ls & P0 & Hs & (x & Hx & Px)).
  unfold calc_eff_wavelen. change (b_phi (with_phi b)) with (b_phi (sb_tophi b)). cbn [b_phi sb_tophi]. do 2 eexists. split; [reflexivity|].
  unfold weighted_mean. change (b_w b) with w. change (b_sb b) with sb. rewrite raw_phi_tab by exact Ls. cbn [b b_w]. fold b.
  replace (map (fun x => x / phi_norm b) (tab (resp b) (length w))) with (tab (fun i => resp b i / phi_norm b) (length w)) by (unfold tab; rewrite map_map; reflexivity).
  rewrite (zip_as_tab Rmult w (tab _ _) (length w)) by (rewrite ?tab_length; auto). rewrite (zip_as_tab Rmult w sb (length w)) by auto. 
  set (l := seq 0 (length w)). set (u i := nth i w 0). set (s i := nth i sb 0).
  assert (X1 : rsum (tab (fun i => nth i w 0 * nth i (tab (fun i => resp b i / phi_norm b) (length w)) 0) (length w)) = rsum (map s l) / phi_norm b).
  { unfold tab at 1. unfold Rdiv. rewrite Rmult_comm, <- rsum_scale. apply rsum_ext. intros i Hi. apply in_seq in Hi. rewrite tab_nth by lia. unfold resp, s. cbn [b b_w b_sb].
    specialize (W i ltac:(lia)). fold b. field. split; lra. }
  assert (X2 : rsum (tab (fun i => resp b i / phi_norm b) (length w)) = rsum (map (resp b) l) / phi_norm b).
  { unfold tab, Rdiv. rewrite (Rmult_comm (rsum _)), <- rsum_scale. apply rsum_ext. intros; ring. }
  rewrite X1, X2. change (rsum (tab (fun i => nth i w 0 * nth i sb 0) (length w))) with (rsum (map (fun i => u i * s i) l)).
  assert (rsum sb = rsum (map s l)) as -> by (rewrite (tab_self sb) at 1; rewrite Ls; reflexivity).
  assert (In' : forall i, In i l -> (i < length w)%nat) by (intros i Hi; apply in_seq in Hi; lia).
  assert (Hs' : forall i, In i l -> 0 <= s i) by (intros i Hi; apply Hs, nth_In; specialize (In' i Hi); lia).
  assert (Hu : forall i, In i l -> 0 < u i) by (intros i Hi; apply W; auto).
  destruct (In_nth _ _ 0 Hx) as (k & Hk & Ek).
  assert (Kl : In k l) by (apply in_seq; lia).
  assert (Ps : 0 < rsum (map s l)). { eapply Rlt_le_trans; [|apply (rsum_ge_one s l k); auto]. unfold s. lra. }
  assert (Pr : 0 < rsum (map (resp b) l)). { eapply Rlt_le_trans; [|apply (rsum_ge_one (resp b) l k); auto]. unfold resp. cbn [b b_sb b_w]. rewrite Ek. apply Rdiv_lt_0_compat; [exact Px|]. apply W. lia. }
  replace (rsum (map s l) / phi_norm b / (rsum (map (resp b) l) / phi_norm b)) with (rsum (map s l) / rsum (map (resp b) l)) by (field; lra).
  assert (Er : rsum (map s l) = rsum (map (fun i => u i * resp b i) l)).
  { apply rsum_ext. intros i Hi. unfold resp, u, s. cbn [b b_w b_sb]. specialize (Hu i Hi). unfold u in Hu. field. lra. }
  assert (Bd : forall i, In i l -> nth 0 w 0 <= u i <= nth (length w - 1) w 0).
  { intros i Hi. specialize (In' i Hi). split; apply ascending_le; auto; lia. }
  split; [split|].
  - rewrite Er. apply (weighted_bounds l u (resp b) _ (nth (length w - 1) w 0)); auto.
  - (* Cauchy and Schwarz *)
    set (m := rsum (map s l) / rsum (map (resp b) l)).
    assert (CS : 0 <= rsum (map (fun i => resp b i * ((u i - m) * (u i - m))) l)).
    { apply rsum_nonneg. intros i Hi. apply Rmult_le_pos; [apply Q; auto|apply Rle_0_sqr]. }
    assert (CE : rsum (map (fun i => resp b i * ((u i - m) * (u i - m))) l) = rsum (map (fun i => u i * s i) l) + (- 2 * m) * rsum (map s l) + (m * m) * rsum (map (resp b) l)).
    { rewrite <- !rsum_scale, <- !rsum_plus. apply rsum_ext. intros i Hi. assert (s i = u i * resp b i) as ->; [|ring].
      unfold resp, u, s. cbn [b b_w b_sb]. specialize (Hu i Hi). unfold u in Hu. field. lra. }
    rewrite CE in CS. assert (M : m * rsum (map (resp b) l) = rsum (map s l)) by (unfold m; field; lra).
    apply Rmult_le_reg_r with (rsum (map s l)); [exact Ps|]. replace (rsum (map (fun i => u i * s i) l) / rsum (map s l) * rsum (map s l)) with (rsum (map (fun i => u i * s i) l)) by (field; lra).
    replace (m * m * rsum (map (resp b) l)) with (m * rsum (map s l)) in CS by (rewrite <- M; ring). lra.
  - apply (weighted_bounds l u s (nth 0 w 0)); auto.
Qed.
Print Assumptions C188_effective.
Example C188_case : throughput (b_w ex_band) (b_sb ex_band). Proof. apply ex_throughput. Qed.
