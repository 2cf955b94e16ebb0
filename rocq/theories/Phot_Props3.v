(** Properties of depths and of signal to noise: C189-C195. *)
From Verif Require Import Base Astrom_Model Astrom_Proofs Astrom_Proofs2 MoMag_Model MoMag_Proofs Resample_Model Resample_Spec Resample_Proofs Resample_Proofs2 Resample_Proofs3 Resample_Props Resample_Props2 Phot_Model Phot_Spec Phot_Proofs Phot_Proofs2 Phot_Props Phot_Proofs3 Phot_Props2.
From Coq Require Import Reals List Lia Lra.
Open Scope R_scope.

(** [s] is the signal to noise of a flat source of magnitude [m] *)
Definition snr_at (pp : phot_params) (total hardware : bandpass) (fwhm : R) (sky_w sky_fnu : list R) (m s : R) : Prop :=
  exists n, calc_flux_norm zp_new m total flat_wavelen flat_fnu None = Ok (Some n) /\
            calc_snr_sed pp total hardware fwhm flat_wavelen (multiply_flux_norm n flat_fnu) sky_w sky_fnu = Ok (Some s).
Lemma snr_at_value pp total hardware fwhm sky_w sky_fnu m s a : lit total -> calc_adu pp hardware sky_w sky_fnu = Ok (Some a) ->
  snr_at pp total hardware fwhm sky_w sky_fnu m s <->
  s = snr_of_counts (p_gain pp) (counts0 pp total * Rpower 10 (- (2/5) * m)) (non_source_noise_sq pp fwhm a).
Proof.
  intros L A. unfold snr_at, calc_snr_sed, calc_total_non_source_noise_sq. rewrite A, lit_norm by exact L. unfold multiply_flux_norm. split.
  - intros (n & N & E). injection N as <-. fold (times (Rpower 10 (- (2/5) * m)) flat_fnu) in E. rewrite lit_counts in E by exact L. cbn [bind] in E. injection E as <-. reflexivity.
  - intros ->. eexists. split; [reflexivity|]. fold (times (Rpower 10 (- (2/5) * m)) flat_fnu). rewrite lit_counts by exact L. reflexivity.
Qed.
Lemma m5_value pp total hardware fwhm sky_w sky_fnu m a : lit total -> sane pp -> calc_adu pp hardware sky_w sky_fnu = Ok (Some a) ->
  calc_m5 pp total hardware fwhm sky_w sky_fnu = Ok (Some m) ->
  counts0 pp total * Rpower 10 (- (2/5) * m) = counts_5sigma (p_gain pp) (non_source_noise_sq pp fwhm a).
Proof.
  intros L S A E. unfold calc_m5, calc_total_non_source_noise_sq in E. rewrite A, lit_counts1 in E by exact L. cbn [bind] in E. unfold multiply_flux_norm in E.
  change (map (fun x : R => x * ?k) flat_fnu) with (times k flat_fnu) in E. apply lit_mag_inv in E; [|exact L]. destruct E as (_ & _ & <-).
  pose proof (counts0_pos pp total S L). field. lra.
Qed.

(** C189: a source of the magnitude calc_m5 returns has a signal to noise of five: only with a gain of one; it is higher with a
    higher gain *)
Definition ex_pp : phot_params := {| p_exptime := 1; p_nexp := 1; p_effarea := 1; p_gain := 2; p_readnoise := 0; p_darkcurrent := 0; p_othernoise := 0; p_platescale := 1; p_sigma_sys := 0 |}.
Lemma ex_sane : sane ex_pp. Proof. unfold sane, ex_pp. cbn. lra. Qed.
Lemma ex_sky : calc_adu ex_pp ex_band flat_wavelen (times 0 flat_fnu) = Ok (Some 0).
Proof. rewrite lit_counts by apply ex_lit. do 2 f_equal. ring. Qed.
Lemma ex_m5_of f a : calc_adu ex_pp ex_band flat_wavelen f = Ok (Some a) -> exists m, calc_m5 ex_pp ex_band ex_band 1 flat_wavelen f = Ok (Some m).
Proof.
  intros A. unfold calc_m5, calc_total_non_source_noise_sq. rewrite A, lit_counts1 by apply ex_lit. cbn [bind]. unfold multiply_flux_norm.
  match goal with |- context [map (fun x => x * ?k) flat_fnu] => change (map (fun x : R => x * k) flat_fnu) with (times k flat_fnu); set (kk := k) end.
  rewrite lit_mag_k; [eexists; reflexivity|apply ex_lit|].
  pose proof (counts0_pos ex_pp ex_band ex_sane ex_lit) as P. pose proof (ex_counts ex_pp ltac:(cbn; lra)) as B.
  assert (H300 : 1 / 10 ^ 300 <= 1 / 10 ^ 40). { unfold Rdiv. rewrite !Rmult_1_l. apply Rinv_le_contravar; [apply pow_lt; lra|]. apply Rle_pow; [lra|lia]. }
  assert (1 / 10 ^ 40 <= 1 / counts0 ex_pp ex_band). { unfold Rdiv. rewrite !Rmult_1_l. apply Rinv_le_contravar; assumption. }
  assert (1 / counts0 ex_pp ex_band <= kk).
  { unfold kk, Rdiv. apply Rmult_le_compat_r; [left; apply Rinv_0_lt_compat, P|]. unfold counts_5sigma. cbn [ex_pp p_gain].
    pose proof (sqrt_pos (625 * / 4 * / 2 + 25 * non_source_noise_sq ex_pp 1 a)). unfold Rdiv. cbn in *. lra. }
  pose proof (Rdiv_lt_0_compat 1 (counts0 ex_pp ex_band) ltac:(lra) P). lra.
Qed.
Lemma ex_m5 : exists m, calc_m5 ex_pp ex_band ex_band 1 flat_wavelen (times 0 flat_fnu) = Ok (Some m).
Proof. apply (ex_m5_of _ 0 ex_sky). Qed.
Theorem C189_gain : forall pp total hardware fwhm sky_w sky_fnu m a s, sane pp -> lit total -> calc_adu pp hardware sky_w sky_fnu = Ok (Some a) -> 0 <= a ->
  calc_m5 pp total hardware fwhm sky_w sky_fnu = Ok (Some m) -> snr_at pp total hardware fwhm sky_w sky_fnu m s ->
  (s = 5 <-> p_gain pp = 1) /\ (5 < s <-> 1 < p_gain pp) /\ 0 < s.
Proof.
  intros pp total hardware fwhm sky_w sky_fnu m a s S L A Ha E N. apply (snr_at_value pp total hardware fwhm sky_w sky_fnu m s a L A) in N.
  rewrite (m5_value pp total hardware fwhm sky_w sky_fnu m a L S A E) in N. subst s.
  assert (G : 0 < p_gain pp) by apply S. pose proof (noise_nonneg pp fwhm a S Ha) as V. set (v := non_source_noise_sq pp fwhm a) in *. set (g := p_gain pp) in *. clearbody g v.
  pose proof (c5_pos g v G V) as C. destruct (snr_5 g (counts_5sigma g v) v G C V) as (H1 & H2 & H3). pose proof (c5_square g v G V) as Q.
  assert (D : counts_5sigma g v * counts_5sigma g v = 25 * (counts_5sigma g v / g + v) + 625 / 4 * (g - 1) / (g * g)) by lra.
  assert (I : 0 < / (g * g)) by (apply Rinv_0_lt_compat, Rmult_lt_0_compat; assumption).
  split; [|split; [|exact H3]].
  - rewrite H1, D. unfold Rdiv at 2. split; intros K; [|rewrite K; ring]. assert (625 / 4 * (g - 1) * / (g * g) = 0) as Z by lra. apply Rmult_integral in Z. destruct Z; lra.
  - rewrite H2, D. unfold Rdiv at 2. split; intros K; [|pose proof (Rmult_lt_0_compat (625 / 4 * (g - 1)) (/ (g * g)) ltac:(lra) I); lra].
    apply Rnot_le_lt. intros K'. pose proof (Rmult_le_compat_r (/ (g * g)) (625 / 4 * (g - 1)) 0 ltac:(lra) ltac:(lra)). lra.
Qed.
Print Assumptions C189_gain.
Theorem C189_five_refuted : ~ (forall pp total hardware fwhm sky_w sky_fnu m a s, sane pp -> lit total -> calc_adu pp hardware sky_w sky_fnu = Ok (Some a) -> 0 <= a ->
  calc_m5 pp total hardware fwhm sky_w sky_fnu = Ok (Some m) -> snr_at pp total hardware fwhm sky_w sky_fnu m s -> s = 5).
Proof.
  intros C. destruct ex_m5 as (m & E).
  assert (X : exists s, snr_at ex_pp ex_band ex_band 1 flat_wavelen (times 0 flat_fnu) m s) by (eexists; apply (snr_at_value _ _ _ _ _ _ _ _ 0 ex_lit ex_sky); reflexivity).
  destruct X as (s & X).
  pose proof (C ex_pp ex_band ex_band 1 flat_wavelen (times 0 flat_fnu) m 0 s ex_sane ex_lit ex_sky ltac:(lra) E X) as F.
  pose proof (proj1 (C189_gain ex_pp ex_band ex_band 1 flat_wavelen (times 0 flat_fnu) m 0 s ex_sane ex_lit ex_sky ltac:(lra) E X)) as G. apply G in F. cbn in F. lra.
Qed.
Print Assumptions C189_five_refuted.
(** more sky light or worse seeing never makes the depth fainter *)
Theorem C189_deeper : forall pp total hardware fwhm fwhm' sky_w sky_fnu sky_w' sky_fnu' m m' a a', sane pp -> lit total ->
  calc_adu pp hardware sky_w sky_fnu = Ok (Some a) -> calc_adu pp hardware sky_w' sky_fnu' = Ok (Some a') -> 0 <= a <= a' -> 0 <= fwhm <= fwhm' ->
  calc_m5 pp total hardware fwhm sky_w sky_fnu = Ok (Some m) -> calc_m5 pp total hardware fwhm' sky_w' sky_fnu' = Ok (Some m') -> m' <= m.
Proof.
  intros pp total hardware fwhm fwhm' sky_w sky_fnu sky_w' sky_fnu' m m' a a' S L A A' Ha Hf E E'.
  pose proof (m5_value _ _ _ _ _ _ _ _ L S A E) as M. pose proof (m5_value _ _ _ _ _ _ _ _ L S A' E') as M'.
  apply Rnot_lt_le. intros H. pose proof (counts0_pos pp total S L) as P.
  assert (Rpower 10 (- (2/5) * m') < Rpower 10 (- (2/5) * m)) as D by (apply pow10_lt; lra).
  apply (Rmult_lt_compat_l (counts0 pp total)) in D; [|exact P]. rewrite M, M' in D. unfold counts_5sigma in D.
  assert (sqrt (625 / 4 / p_gain pp + 25 * non_source_noise_sq pp fwhm a) <= sqrt (625 / 4 / p_gain pp + 25 * non_source_noise_sq pp fwhm' a')); [|lra].
  apply sqrt_le_1_alt. apply Rplus_le_compat_l, Rmult_le_compat_l; [lra|].
  pose proof (noise_nonneg pp fwhm a S ltac:(lra)) as V.
  unfold non_source_noise_sq in *. pose proof S as (S1 & S2 & S3 & S4 & S5 & S6 & S7 & S8 & _).
  assert (I : 0 <= calc_instr_noise_sq pp).
  { unfold calc_instr_noise_sq. apply Rle_mult_inv_pos; [|apply Rmult_lt_0_compat; lra].
    assert (0 <= p_nexp pp * (p_readnoise pp * p_readnoise pp)) by (repeat apply Rmult_le_pos; lra).
    assert (0 <= p_darkcurrent pp * p_exptime pp * p_nexp pp) by (repeat apply Rmult_le_pos; lra).
    assert (0 <= p_nexp pp * (p_othernoise pp * p_othernoise pp)) by (repeat apply Rmult_le_pos; lra). lra. }
  pose proof (Rinv_0_lt_compat _ S4) as G. pose proof (Rinv_0_lt_compat _ S5) as PS.
  assert (K : a * p_platescale pp * p_platescale pp / p_gain pp <= a' * p_platescale pp * p_platescale pp / p_gain pp).
  { unfold Rdiv. repeat apply Rmult_le_compat_r; lra. }
  assert (K0 : 0 <= a * p_platescale pp * p_platescale pp / p_gain pp) by (unfold Rdiv; repeat apply Rmult_le_pos; lra).
  unfold calc_neff. assert (F : 0 <= fwhm / p_platescale pp <= fwhm' / p_platescale pp).
  { unfold Rdiv. split; [apply Rmult_le_pos; lra|apply Rmult_le_compat_r; lra]. }
  set (u := fwhm / p_platescale pp) in *. set (u' := fwhm' / p_platescale pp) in *.
  apply Rmult_le_compat; [apply Rmult_le_pos; [lra|apply Rle_0_sqr]|lra| |lra]. apply Rmult_le_compat_l; [lra|]. apply Rmult_le_compat; lra.
Qed.
Print Assumptions C189_deeper.
Example C189_case : exists m, sane ex_pp /\ lit ex_band /\ calc_m5 ex_pp ex_band ex_band 1 flat_wavelen (times 0 flat_fnu) = Ok (Some m).
Proof. destruct ex_m5 as (m & E). exists m. split; [apply ex_sane|]. split; [apply ex_lit|exact E]. Qed.

(** C190: a sky scaled to a depth has this depth: the signal to noise there is five, but calc_m5 returns this depth only with a
    gain of one *)
Lemma scaled_noise pp total hardware fwhm m5 sky_w sky_fnu f a : sane pp -> lit total -> fwhm <> 0 -> ascending (b_w hardware) -> (2 <= length (b_w hardware))%nat -> spectrum sky_w sky_fnu ->
  calc_adu pp hardware sky_w sky_fnu = Ok (Some a) -> a <> 0 -> scale_sky_m5 pp total hardware fwhm m5 sky_w sky_fnu = Ok (Some f) ->
  exists a', calc_adu pp hardware sky_w f = Ok (Some a') /\
    let c := counts0 pp total * Rpower 10 (- (2/5) * m5) in non_source_noise_sq pp fwhm a' = c * c / 25 - c / p_gain pp.
Proof.
  intros S L F Ah Lh Sk A Ha E. unfold scale_sky_m5, calc_sky_counts_per_pixel_for_m5 in E. rewrite flat_counts_value, A in E by exact L. cbn [bind] in E. unfold multiply_flux_norm in E.
  injection E as <-. match goal with |- context [map (fun x => x * ?k) sky_fnu] => change (map (fun x : R => x * k) sky_fnu) with (times k sky_fnu) end.
  match goal with |- context [times ?k sky_fnu] => destruct (calc_adu_times pp hardware sky_w sky_fnu k Ah Lh Sk) as (y & E1 & E2); set (kk := k) in * end.
  rewrite A in E1. injection E1 as <-. rewrite E2. cbn [option_map]. eexists. split; [reflexivity|]. cbn zeta. pose proof S as (S1 & S2 & S3 & S4 & S5 & _).
  set (c := counts0 pp total * Rpower 10 (- (2/5) * m5)) in *. unfold non_source_noise_sq, kk, sky_counts_of, calc_neff. field. repeat split; auto; lra.
Qed.
Theorem C190_snr : forall pp total hardware fwhm m5 sky_w sky_fnu f a s, sane pp -> lit total -> fwhm <> 0 -> ascending (b_w hardware) -> (2 <= length (b_w hardware))%nat -> spectrum sky_w sky_fnu ->
  calc_adu pp hardware sky_w sky_fnu = Ok (Some a) -> a <> 0 -> scale_sky_m5 pp total hardware fwhm m5 sky_w sky_fnu = Ok (Some f) ->
  snr_at pp total hardware fwhm sky_w f m5 s -> s = 5.
Proof.
  intros pp total hardware fwhm m5 sky_w sky_fnu f a s S L F Ah Lh Sk A Ha E N. destruct (scaled_noise pp total hardware fwhm m5 sky_w sky_fnu f a) as (a' & A' & V); auto.
  apply (snr_at_value pp total hardware fwhm sky_w f m5 s a' L A') in N. rewrite V in N. subst s. unfold snr_of_counts.
  assert (P : 0 < counts0 pp total * Rpower 10 (- (2/5) * m5)) by (apply Rmult_lt_0_compat; [apply counts0_pos; auto|apply pow10_pos]).
  set (c := counts0 pp total * Rpower 10 (- (2/5) * m5)) in *. clearbody c. replace (c / p_gain pp + (c * c / 25 - c / p_gain pp)) with ((c / 5) * (c / 5)) by (assert (0 < p_gain pp) by apply S; field; lra).
  rewrite sqrt_square by lra. field. lra.
Qed.
Print Assumptions C190_snr.
Theorem C190_depth_partial : forall pp total hardware fwhm m5 sky_w sky_fnu f a a' m, sane pp -> lit total -> fwhm <> 0 -> ascending (b_w hardware) -> (2 <= length (b_w hardware))%nat -> spectrum sky_w sky_fnu ->
  calc_adu pp hardware sky_w sky_fnu = Ok (Some a) -> a <> 0 -> scale_sky_m5 pp total hardware fwhm m5 sky_w sky_fnu = Ok (Some f) ->
  calc_adu pp hardware sky_w f = Ok (Some a') -> 0 <= a' -> calc_m5 pp total hardware fwhm sky_w f = Ok (Some m) ->
  (m = m5 <-> p_gain pp = 1) /\ (m < m5 <-> 1 < p_gain pp).
Proof.
  intros pp total hardware fwhm m5 sky_w sky_fnu f a a' m S L F Ah Lh Sk A Ha E A' Ha' M. destruct (scaled_noise pp total hardware fwhm m5 sky_w sky_fnu f a) as (a'' & A'' & V); auto.
  assert (a'' = a') as -> by congruence. pose proof (m5_value _ _ _ _ _ _ _ _ L S A' M) as Q. pose proof (noise_nonneg pp fwhm a' S Ha') as NN. rewrite V in Q, NN. clear V.
  pose proof (counts0_pos pp total S L) as P. assert (G : 0 < p_gain pp) by apply S.
  assert (Pc : 0 < counts0 pp total * Rpower 10 (- (2/5) * m5)) by (apply Rmult_lt_0_compat; [exact P|apply pow10_pos]).
  assert (O1 : m = m5 <-> counts0 pp total * Rpower 10 (- (2/5) * m) = counts0 pp total * Rpower 10 (- (2/5) * m5)).
  { split; [intros ->; reflexivity|]. intros X. apply Rmult_eq_reg_l in X; [|lra]. apply (f_equal lg) in X. rewrite !lg_pow in X. lra. }
  assert (O2 : m < m5 <-> counts0 pp total * Rpower 10 (- (2/5) * m5) < counts0 pp total * Rpower 10 (- (2/5) * m)).
  { split; intros X; [apply Rmult_lt_compat_l; [exact P|]; apply pow10_lt; lra|]. apply Rmult_lt_reg_l in X; [|exact P].
    apply Rnot_le_lt. intros [K|K]; [|subst; lra]. assert (Rpower 10 (- (2/5) * m) < Rpower 10 (- (2/5) * m5)) by (apply pow10_lt; lra). lra. }
  rewrite O1, O2, Q. clear O1 O2 Q M E A A' A''. set (c := counts0 pp total * Rpower 10 (- (2/5) * m5)) in *. set (g := p_gain pp) in *. clearbody c g.
  assert (I : 0 < / g) by (apply Rinv_0_lt_compat, G). assert (Cg : 25 / g <= c). { unfold Rdiv in *. set (h := / g) in *. clearbody h. nra. }
  unfold counts_5sigma. set (h := / g) in *. assert (Hh : 25 / 2 / g = 25 / 2 * h) by reflexivity. rewrite Hh.
  assert (T : 625 / 4 / g + 25 * (c * c / 25 - c / g) = (c - 25 / 2 * h) * (c - 25 / 2 * h) + 625 / 4 * h * (1 - h)) by (unfold h; field; lra).
  rewrite T. unfold Rdiv in Cg. fold h in Cg.
  assert (B : 0 < c - 25 / 2 * h) by lra. set (d := c - 25 / 2 * h) in *. replace c with (25 / 2 * h + d) by (unfold d; lra).
  assert (Hg : h * g = 1) by (unfold h; field; lra).
  assert (PosT : 0 <= d * d + 625 / 4 * h * (1 - h)). { assert (25 / 2 * h <= d) by (unfold d; lra). nra. }
  assert (W1 : g = 1 <-> h = 1). { split; intros K; [subst g; lra|]. rewrite K in Hg. lra. }
  assert (W2 : 1 < g <-> h < 1). { split; intros K; nra. }
  rewrite W1, W2. clear W1 W2 Hg Hh T Cg NN. clearbody d h. split; split; intros K.
  - assert (sqrt (d * d + 625 / 4 * h * (1 - h)) = d) as R by lra. pose proof (sqrt_sqrt _ PosT) as Sq. rewrite R in Sq. assert (625 / 4 * h * (1 - h) = 0) as Z by lra.
    apply Rmult_integral in Z. destruct Z; [lra|lra].
  - subst h. replace (d * d + 625 / 4 * 1 * (1 - 1)) with (d * d) by lra. rewrite sqrt_square by lra. reflexivity.
  - assert (d < sqrt (d * d + 625 / 4 * h * (1 - h))) as R by lra. pose proof (sqrt_sqrt _ PosT) as Sq. assert (d * d < sqrt (d * d + 625 / 4 * h * (1 - h)) * sqrt (d * d + 625 / 4 * h * (1 - h))) by (apply Rmult_le_0_lt_compat; lra).
    apply Rnot_le_lt. intros K'. pose proof (Rmult_le_compat_l (625 / 4 * h) (1 - h) 0 ltac:(lra) ltac:(lra)). lra.
  - assert (d < sqrt (d * d + 625 / 4 * h * (1 - h))); [|lra]. rewrite <- (sqrt_square d) at 1 by lra. apply sqrt_lt_1_alt. split; [apply Rle_0_sqr|].
    pose proof (Rmult_lt_0_compat (625 / 4 * h) (1 - h) ltac:(lra) ltac:(lra)). lra.
Qed.
Print Assumptions C190_depth_partial.
Lemma ex_scaled m5 : exists f a', scale_sky_m5 ex_pp ex_band ex_band 1 m5 flat_wavelen flat_fnu = Ok (Some f) /\ calc_adu ex_pp ex_band flat_wavelen f = Ok (Some a') /\
  let c := counts0 ex_pp ex_band * Rpower 10 (- (2/5) * m5) in non_source_noise_sq ex_pp 1 a' = c * c / 25 - c / 2.
Proof.
  pose proof (counts0_pos ex_pp ex_band ex_sane ex_lit) as P.
  assert (E : exists f, scale_sky_m5 ex_pp ex_band ex_band 1 m5 flat_wavelen flat_fnu = Ok (Some f)).
  { unfold scale_sky_m5, calc_sky_counts_per_pixel_for_m5. rewrite flat_counts_value, lit_counts1 by apply ex_lit. cbn [bind]. eexists. reflexivity. }
  destruct E as (f & E). exists f.
  assert (Ab : ascending (b_w ex_band)) by apply ex_throughput.
  destruct (scaled_noise ex_pp ex_band ex_band 1 m5 flat_wavelen flat_fnu f (counts0 ex_pp ex_band) ex_sane ex_lit ltac:(lra) Ab ltac:(cbn; lia) flat_spectrum1 (lit_counts1 ex_pp ex_band ex_lit) ltac:(lra) E) as (a' & A' & V).
  exists a'. split; [exact E|]. split; [exact A'|exact V].
Qed.
Theorem C190_depth_refuted : ~ (forall pp total hardware fwhm m5 sky_w sky_fnu f a a' m, sane pp -> lit total -> fwhm <> 0 -> ascending (b_w hardware) -> (2 <= length (b_w hardware))%nat -> spectrum sky_w sky_fnu ->
  calc_adu pp hardware sky_w sky_fnu = Ok (Some a) -> a <> 0 -> scale_sky_m5 pp total hardware fwhm m5 sky_w sky_fnu = Ok (Some f) ->
  calc_adu pp hardware sky_w f = Ok (Some a') -> 0 <= a' -> calc_m5 pp total hardware fwhm sky_w f = Ok (Some m) -> m = m5).
Proof.
  intros C. pose proof (counts0_pos ex_pp ex_band ex_sane ex_lit) as P. set (c0 := counts0 ex_pp ex_band) in *.
  destruct (ex_scaled (- (5/2) * lg (100 / c0))) as (f & a' & E & A & V). destruct (ex_m5_of f a' A) as (m & M).
  assert (Ab : ascending (b_w ex_band)) by apply ex_throughput.
  assert (Pa : 0 <= a').
  { cbn zeta in V. fold c0 in V. replace (- (2/5) * (- (5/2) * lg (100 / c0))) with (lg (100 / c0)) in V by field. rewrite pow_lg in V by (apply Rdiv_lt_0_compat; lra).
    replace (c0 * (100 / c0)) with 100 in V by (field; lra). unfold non_source_noise_sq, calc_neff, calc_instr_noise_sq in V. cbn in V. lra. }
  pose proof (C ex_pp ex_band ex_band 1 _ flat_wavelen flat_fnu f c0 a' m ex_sane ex_lit ltac:(lra) Ab ltac:(cbn; lia) flat_spectrum1 (lit_counts1 ex_pp ex_band ex_lit) ltac:(lra) E A Pa M) as F.
  pose proof (C190_depth_partial ex_pp ex_band ex_band 1 _ flat_wavelen flat_fnu f c0 a' m ex_sane ex_lit ltac:(lra) Ab ltac:(cbn; lia) flat_spectrum1 (lit_counts1 ex_pp ex_band ex_lit) ltac:(lra) E A Pa M) as [G _].
  apply G in F. cbn in F. lra.
Qed.
Print Assumptions C190_depth_refuted.
Example C190_case : exists f, scale_sky_m5 ex_pp ex_band ex_band 1 20 flat_wavelen flat_fnu = Ok (Some f) /\ calc_adu ex_pp ex_band flat_wavelen flat_fnu = Ok (Some (counts0 ex_pp ex_band)) /\ 0 < counts0 ex_pp ex_band.
Proof.
  unfold scale_sky_m5, calc_sky_counts_per_pixel_for_m5. rewrite flat_counts_value, lit_counts1 by apply ex_lit. cbn [bind]. eexists. split; [reflexivity|]. split; [reflexivity|]. apply counts0_pos; [apply ex_sane|apply ex_lit].
Qed.

(** C191: with the gamma calc_gamma computes, the signal to noise from the depth is the signal to noise from the counts, for
    every flat source, provided the signal to noise at the depth is five *)
Theorem C191_agree : forall pp total hardware fwhm sky_w sky_fnu a m5 mag s, sane pp -> lit total -> calc_adu pp hardware sky_w sky_fnu = Ok (Some a) -> 0 <= a ->
  snr_at pp total hardware fwhm sky_w sky_fnu m5 5 -> snr_at pp total hardware fwhm sky_w sky_fnu mag s ->
  exists g, calc_gamma pp total m5 = Ok (Some g) /\ calc_snr_m5 pp total m5 mag None = Ok (Some (s, g)).
Proof.
  intros pp total hardware fwhm sky_w sky_fnu a m5 mag s S L A Ha N5 N. apply (snr_at_value pp total hardware fwhm sky_w sky_fnu mag s a L A) in N.
  apply (snr_at_value pp total hardware fwhm sky_w sky_fnu m5 5 a L A) in N5. pose proof (noise_nonneg pp fwhm a S Ha) as V. assert (G : 0 < p_gain pp) by apply S.
  pose proof (counts0_pos pp total S L) as P. pose proof (pow10_pos (- (2/5) * m5)) as P5. pose proof (pow10_pos (- (2/5) * mag)) as Pm.
  unfold calc_snr_m5, calc_gamma. rewrite flat_counts_value by exact L. cbn [bind]. eexists. split; [reflexivity|]. do 3 f_equal.
  unfold snr_m5, gamma_of_counts. subst s. unfold flux_from_mag. rewrite !Rmult_plus_distr_l, !pow10_plus. pose proof (pow10_pos (- (2/5) * zp_new)) as Pz.
  set (z := Rpower 10 (- (2/5) * zp_new)) in *. set (u5 := Rpower 10 (- (2/5) * m5)) in *. set (u := Rpower 10 (- (2/5) * mag)) in *. set (c := counts0 pp total) in *. set (g := p_gain pp) in *. set (v := non_source_noise_sq pp fwhm a) in *. clearbody z u5 u c g v.
  assert (C5 : 0 < c * u5) by (apply Rmult_lt_0_compat; lra). assert (C : 0 < c * u) by (apply Rmult_lt_0_compat; lra).
  destruct (snr_5 g (c * u5) v G C5 V) as (H5 & _ & _). destruct H5 as [H5 _]. specialize (H5 (eq_sym N5)).
  unfold snr_of_counts. assert (Pn : 0 < c * u / g + v) by (pose proof (Rdiv_lt_0_compat _ _ C G); lra).
  cbn zeta. replace (u5 * z / (u * z)) with (u5 / u) by (field; lra).
  replace ((1 / 25 - (1 / 25 - 1 / (c * u5 * g))) * (u5 / u) + (1 / 25 - 1 / (c * u5 * g)) * (u5 / u) * (u5 / u)) with ((c * u / g + v) / ((c * u) * (c * u))).
  - rewrite sqrt_div_alt by (apply Rmult_lt_0_compat; lra). rewrite sqrt_square by lra. pose proof (sqrt_lt_R0 _ Pn). field. repeat split; lra.
  - assert (Ev : v = c * u5 * (c * u5) / 25 - c * u5 / g) by lra. rewrite Ev. field. repeat split; lra.
Qed.
Print Assumptions C191_agree.
Example C191_case : exists f, scale_sky_m5 ex_pp ex_band ex_band 1 20 flat_wavelen flat_fnu = Ok (Some f) /\ snr_at ex_pp ex_band ex_band 1 flat_wavelen f 20 5.
Proof.
  destruct (ex_scaled 20) as (f & a' & E & A' & _). exists f. split; [exact E|]. pose proof (counts0_pos ex_pp ex_band ex_sane ex_lit) as P.
  assert (X : exists s, snr_at ex_pp ex_band ex_band 1 flat_wavelen f 20 s) by (eexists; apply (snr_at_value _ _ _ _ _ _ _ _ a' ex_lit A'); reflexivity).
  destruct X as (s & X). assert (Ab : ascending (b_w ex_band)) by apply ex_throughput.
  rewrite <- (C190_snr ex_pp ex_band ex_band 1 20 flat_wavelen flat_fnu f (counts0 ex_pp ex_band) s ex_sane ex_lit ltac:(lra) Ab ltac:(cbn; lia) flat_spectrum1 (lit_counts1 ex_pp ex_band ex_lit) ltac:(lra) E X). exact X.
Qed.

(** C192: the signal to noise at the depth is five, fainter sources have less, and it is that of m52snr; the gamma computed is
    below 0.04, and not negative when the source at the depth gives at least 25 electrons *)
Theorem C192_snr : forall gamma m5, 0 <= gamma <= 1/25 -> snr_m5 gamma m5 m5 = 5 /\
  (forall a b, a < b -> 0 < snr_m5 gamma m5 b < snr_m5 gamma m5 a) /\ (forall m, snr_m5 gamma m5 m = m52snr (Some gamma) m m5).
Proof.
  intros g m5 G. assert (X : forall m, snr_m5 g m5 m = m52snr (Some g) m m5).
  { intros m. unfold snr_m5, m52snr, snr_gamma, flux_from_mag. cbn zeta.
    replace (Rpower 10 (- (2/5) * (m5 + zp_new)) / Rpower 10 (- (2/5) * (m + zp_new))) with (Rpower 10 (2/5 * (m - m5))); [reflexivity|].
    replace (- (2/5) * (m5 + zp_new)) with (2/5 * (m - m5) + - (2/5) * (m + zp_new)) by ring. rewrite (pow10_plus (2/5 * (m - m5))). pose proof (pow10_pos (- (2/5) * (m + zp_new))). field. lra. }
  split; [|split; [|exact X]].
  - rewrite X. cbn [m52snr]. replace (2/5 * (m5 - m5)) with 0 by ring. rewrite pow10_0. apply snr_gamma_1.
  - intros a b H. rewrite !X. split; [apply snr_gamma_pos; [exact G|apply pow10_pos]|apply m52snr_lt; assumption].
Qed.
Print Assumptions C192_snr.
Theorem C192_gamma : forall pp b m5 gamma c, sane pp -> lit b -> calc_gamma pp b m5 = Ok (Some gamma) -> flat_counts pp b m5 = Ok (Some c) ->
  gamma < 1/25 /\ (0 <= gamma <-> 25 <= c * p_gain pp).
Proof.
  intros pp b m5 gamma c S L E C. unfold calc_gamma in E. rewrite C in E. cbn [bind] in E. injection E as <-. rewrite flat_counts_value in C by exact L. injection C as <-.
  assert (P : 0 < counts0 pp b * Rpower 10 (- (2/5) * m5) * p_gain pp) by (apply Rmult_lt_0_compat; [apply Rmult_lt_0_compat; [apply counts0_pos; auto|apply pow10_pos]|apply S]).
  unfold gamma_of_counts. set (e := counts0 pp b * Rpower 10 (- (2/5) * m5) * p_gain pp) in *. clearbody e. pose proof (Rdiv_lt_0_compat 1 e ltac:(lra) P) as I.
  assert (J : 1 / e * e = 1) by (field; lra). split; [lra|]. split; intros K; nra.
Qed.
Print Assumptions C192_gamma.
Example C192_case : snr_m5 (39/1000) 24 24 = 5 /\ snr_m5 (39/1000) 24 25 < 5.
Proof. destruct (C192_snr (39/1000) 24 ltac:(lra)) as (A & B & _). split; [exact A|]. rewrite <- A. apply B. lra. Qed.

(** C193: errors of magnitudes: positive, smaller for higher signal to noise, at most 1.09 times the inverse signal to noise, and
    with the systematic error never below either part *)
Theorem C193_error : forall snr, 0 < snr -> 0 < mag_error_from_snr snr /\ (forall t, snr < t -> mag_error_from_snr t < mag_error_from_snr snr) /\
  mag_error_from_snr snr < 5/2 / ln 10 / snr.
Proof.
  intros s P. unfold mag_error_from_snr. pose proof (Rdiv_lt_0_compat 1 s ltac:(lra) P) as I. split; [|split].
  - assert (0 < lg (1 + 1 / s)); [|lra]. replace 0 with (lg 1) by (unfold lg; rewrite ln_1; unfold Rdiv; ring). apply lg_lt; lra.
  - intros t H. apply Rmult_lt_compat_l; [lra|]. pose proof (Rdiv_lt_0_compat 1 t ltac:(lra) ltac:(lra)). apply lg_lt; [lra|]. apply Rplus_lt_compat_l. unfold Rdiv. rewrite !Rmult_1_l. apply Rinv_lt_contravar; [apply Rmult_lt_0_compat; lra|exact H].
  - unfold lg. pose proof ln10_pos as L. replace (5/2 / ln 10 / s) with (5/2 * (1 / s / ln 10)) by (field; lra). apply Rmult_lt_compat_l; [lra|]. apply Rmult_lt_compat_r; [apply Rinv_0_lt_compat, L|].
    rewrite <- (ln_exp (1 / s)) at 2. apply ln_increasing; [lra|]. pose proof (exp_ineq1 (1 / s) ltac:(lra)). lra.
Qed.
Print Assumptions C193_error.
Theorem C193_systematic : forall pp b m5 mag gamma e g, 0 <= p_sigma_sys pp -> 0 <= gamma <= 1/25 -> calc_mag_error_m5 pp b m5 mag (Some gamma) = Ok (Some (e, g)) ->
  g = gamma /\ p_sigma_sys pp < e /\ mag_error_from_snr (snr_m5 gamma m5 mag) <= e /\ e <= p_sigma_sys pp + mag_error_from_snr (snr_m5 gamma m5 mag) /\
  (forall mag' e', mag < mag' -> calc_mag_error_m5 pp b m5 mag' (Some gamma) = Ok (Some (e', g)) -> e < e').
Proof.
  intros pp b m5 mag gamma e g Hs G E. cbn in E. injection E as <- <-. split; [reflexivity|].
  destruct (C192_snr gamma m5 G) as (_ & M & _).
  assert (P : forall m, 0 < snr_m5 gamma m5 m) by (intros m; apply (M (m - 1) m ltac:(lra))).
  destruct (C193_error _ (P mag)) as (P1 & P2 & _). unfold add_sys. set (r := mag_error_from_snr (snr_m5 gamma m5 mag)) in *. set (s := p_sigma_sys pp) in *.
  split; [|split; [|split]].
  - rewrite <- (sqrt_square s) at 1 by exact Hs. apply sqrt_lt_1_alt. pose proof (Rmult_lt_0_compat r r P1 P1). pose proof (Rle_0_sqr s). unfold Rsqr in *. lra.
  - rewrite <- (sqrt_square r) at 1 by lra. apply sqrt_le_1_alt. pose proof (Rle_0_sqr s). unfold Rsqr in *. lra.
  - rewrite <- (sqrt_square (s + r)) by lra. apply sqrt_le_1_alt. nra.
  - intros m' e' H E'. cbn in E'. injection E' as <-. apply sqrt_lt_1_alt. specialize (M mag m' H).
    destruct (C193_error _ (P m')) as (_ & Q & _). specialize (Q _ (proj2 M)). fold r in Q. unfold add_sys. fold s. set (r' := mag_error_from_snr (snr_m5 gamma m5 m')) in *.
    pose proof (Rle_0_sqr s). pose proof (Rle_0_sqr r). unfold Rsqr in *. split; [lra|]. apply Rplus_lt_compat_r. apply Rmult_le_0_lt_compat; lra.
Qed.
Print Assumptions C193_systematic.
Example C193_case : 0 < mag_error_from_snr 5 < 5/2 / ln 10 / 5 /\ 0 <= 39/1000 <= 1/25.
Proof. destruct (C193_error 5 ltac:(lra)) as (A & _ & B). split; [split; assumption|lra]. Qed.

(** C194: the astrometric error is not below the floor, grows with magnitude and seeing, shrinks with the number of visits *)
Theorem C194_floor : forall mag m5 fwhm n floor, 0 < fwhm -> 0 < n -> 0 <= floor -> floor < calc_astrometric_error mag m5 fwhm n floor /\
  (forall mag' fwhm' n' floor', mag <= mag' -> fwhm <= fwhm' -> 0 < n' <= n -> floor <= floor' -> calc_astrometric_error mag m5 fwhm n floor <= calc_astrometric_error mag' m5 fwhm' n' floor') /\
  calc_astrometric_error m5 m5 fwhm n 0 = 200 * fwhm / sqrt n.
Proof.
  intros mag m5 fwhm n floor F N Fl.
  assert (NP : forall x, 0 < x -> 0 < (1/25 - 39/1000) * x + 39/1000 * x * x) by (intros x Hx; apply (noise_pos (39/1000)); lra).
  split; [|split].
  - unfold calc_astrometric_error. cbn zeta. rewrite <- (sqrt_square floor) at 1 by exact Fl. apply sqrt_lt_1_alt. split; [apply Rle_0_sqr|].
    match goal with |- _ < _ + ?r * ?r => assert (P : 0 < r) end.
    { apply Rdiv_lt_0_compat; [|apply sqrt_lt_R0, N]. apply Rmult_lt_0_compat; [lra|]. apply sqrt_lt_R0, NP, pow10_pos. }
    pose proof (Rmult_lt_0_compat _ _ P P). lra.
  - intros mag' fwhm' n' floor' Hm Hf Hn Hfl. unfold calc_astrometric_error. cbn zeta. apply sqrt_le_1_alt. apply Rplus_le_compat; [apply Rmult_le_compat; lra|].
    assert (X : Rpower 10 (2/5 * (mag - m5)) <= Rpower 10 (2/5 * (mag' - m5))). { destruct Hm as [Hm|Hm]; [left; apply pow10_lt; lra|right; subst; reflexivity]. }
    pose proof (pow10_pos (2/5 * (mag - m5))) as Px. set (x := Rpower 10 (2/5 * (mag - m5))) in *. set (x' := Rpower 10 (2/5 * (mag' - m5))) in *. clearbody x x'.
    assert (Sx : sqrt ((1/25 - 39/1000) * x + 39/1000 * x * x) <= sqrt ((1/25 - 39/1000) * x' + 39/1000 * x' * x')) by (apply sqrt_le_1_alt; nra).
    pose proof (sqrt_lt_R0 _ (NP x Px)) as Ps. pose proof (sqrt_lt_R0 n' ltac:(lra)) as Pn. assert (Sn : sqrt n' <= sqrt n) by (apply sqrt_le_1_alt; lra).
    set (q := sqrt ((1/25 - 39/1000) * x + 39/1000 * x * x)) in *. set (q' := sqrt ((1/25 - 39/1000) * x' + 39/1000 * x' * x')) in *. set (k := sqrt n) in *. set (k' := sqrt n') in *. clearbody q q' k k'.
    assert (R : 0 <= fwhm * 1000 * q / k <= fwhm' * 1000 * q' / k').
    { split; [apply Rle_mult_inv_pos; [repeat apply Rmult_le_pos; lra|lra]|]. unfold Rdiv. apply Rmult_le_compat; [repeat apply Rmult_le_pos; lra|left; apply Rinv_0_lt_compat; lra| |apply Rinv_le_contravar; lra].
      apply Rmult_le_compat; lra. }
    apply Rmult_le_compat; lra.
  - unfold calc_astrometric_error. cbn zeta. replace (2/5 * (m5 - m5)) with 0 by ring. rewrite pow10_0. replace ((1/25 - 39/1000) * 1 + 39/1000 * 1 * 1) with (1/25) by lra. rewrite sqrt_25.
    pose proof (sqrt_lt_R0 n N) as Pn. rewrite !Rmult_0_l, Rplus_0_l. rewrite sqrt_square; [field; lra|]. apply Rle_mult_inv_pos; lra.
Qed.
Print Assumptions C194_floor.
Example C194_case : calc_astrometric_error 24 24 (7/10) 1 0 = 140.
Proof. rewrite (proj2 (proj2 (C194_floor 24 24 (7/10) 1 0 ltac:(lra) ltac:(lra) ltac:(lra)))). rewrite sqrt_1. lra. Qed.

(** C195: the two seeings are inverse to each other; the effective one is the larger from 0.293 arcseconds on; the number of
    pixels grows with the square of the seeing and does not depend on the unit of length *)
Theorem C195_seeing : (forall x, fwhm_geom2_fwhm_eff (fwhm_eff2_fwhm_geom x) = x) /\ (forall x, fwhm_eff2_fwhm_geom (fwhm_geom2_fwhm_eff x) = x) /\
  (forall x, fwhm_eff2_fwhm_geom x < x <-> 26/89 < x) /\
  (forall f p k, p <> 0 -> k <> 0 -> calc_neff (k * f) p = k * k * calc_neff f p /\ calc_neff (k * f) (k * p) = calc_neff f p).
Proof.
  unfold fwhm_geom2_fwhm_eff, fwhm_eff2_fwhm_geom, calc_neff. split; [intros; lra|]. split; [intros; lra|]. split; [intros; lra|].
  intros f p k Hp Hk. split; field; auto.
Qed.
Print Assumptions C195_seeing.
Example C195_case : fwhm_eff2_fwhm_geom 1 = 874/1000 /\ calc_neff 1 (1/5) = 5665/100. Proof. unfold fwhm_eff2_fwhm_geom, calc_neff. split; lra. Qed.
