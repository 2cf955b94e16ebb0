(** Model of the photometry of spectra: rubin_sim/phot_utils/sed.py, bandpass.py, physical_parameters.py,
    signaltonoise.py.
    Numbers are real numbers [R] (exact; rounding, overflow and infinities are not modelled); a result that may be NaN is an
    [option R], with [None] for NaN. *)
From Verif Require Import Base Astrom_Model MoMag_Model Resample_Model.
From Coq Require Import Reals.
Open Scope R_scope.

(** PhysicalParameters, physical_parameters.py:10-14 *)
Definition lightspeed : R := 299792458.
Definition planck : R := 6626068 / 10 ^ 33.
Definition nm2m : R := 1 / 10 ^ 9.
Definition ergsetc2jansky : R := 10 ^ 23.
(** [np.trapezoid(y, x=x)] *)
Definition zip_with (f : R -> R -> R) (a b : list R) : list R := map (fun p => f (fst p) (snd p)) (combine a b).
Definition trapz (y x : list R) : R := rsum (zip_with Rmult (diffs x) (mids y)).

(** a bandpass: wavelengths, throughputs and the normalized response, which is None until it is needed *)
Record bandpass := { b_w : list R; b_sb : list R; b_phi : option (list R) }.
(** Bandpass.set_bandpass, bandpass.py:82-110, of two arrays *)
Definition set_bandpass (w sb : list R) : result bandpass :=
  if Nat.eqb (length w) (length sb) then Ok {| b_w := w; b_sb := sb; b_phi := None |} else Err ValueError.
(** Bandpass.sb_tophi, bandpass.py:321-332; a response whose integral is zero is NaN or infinite everywhere, which is [None]
    here *)
Definition raw_phi (b : bandpass) : list R := zip_with Rdiv (b_sb b) (b_w b).
Definition phi_norm (b : bandpass) : R := trapz (raw_phi b) (b_w b).
Definition sb_tophi (b : bandpass) : bandpass :=
  {| b_w := b_w b; b_sb := b_sb b; b_phi := Some (map (fun x => x / phi_norm b) (raw_phi b)) |}.
Definition with_phi (b : bandpass) : bandpass := match b_phi b with None => sb_tophi b | Some _ => b end.

(** the zeropoint of a new Sed, sed.py:390, and that of a cleared one, sed.py:655 *)
Definition zp_new : R := - (5/2) * lg 3631.
Definition zp_cleared : R := - 89 / 10.
(** Sed.flux_from_mag and Sed.mag_from_flux, sed.py:1234-1248 *)
Definition flux_from_mag (zp mag : R) : R := Rpower 10 (- (2/5) * (mag + zp)).
Definition mag_from_flux (zp flux : R) : R := - (5/2) * lg flux - zp.
(** Sed.flambda_tofnu and Sed.fnu_toflambda, sed.py:838-840, 867-869, of one value *)
Definition to_fnu (w fl : R) : R := fl * w * w * nm2m / lightspeed * ergsetc2jansky.
Definition to_flambda (w fnu : R) : R := fnu / w / w * lightspeed / nm2m / ergsetc2jansky.

(** the numbers of a list without NaN *)
Fixpoint numbers (l : list (option R)) : option (list R) :=
  match l with
  | [] => Some []
  | None :: _ => None
  | Some x :: t => match numbers t with Some r => Some (x :: r) | None => None end
  end.
(** Sed.calc_flux, sed.py:1286-1327, given arrays; the response must be there *)
Definition calc_flux (b : bandpass) (w fnu : list R) (fill : option R) : result (option R) :=
  do r <- resample_match (b_w b) w fnu false fill;
  Ok (match numbers (snd r), b_phi (with_phi b) with
      | Some f, Some p => if Req_EM_T (phi_norm b) 0 then None else Some (trapz (zip_with Rmult f p) (fst r))
      | _, _ => None
      end).
(** Sed.calc_mag, sed.py:1329-1343; NaN is not less than 1e-300 *)
Definition calc_mag (zp : R) (b : bandpass) (w fnu : list R) (fill : option R) : result (option R) :=
  do x <- calc_flux b w fnu fill;
  match x with
  | None => Ok None
  | Some flux => if Rlt_dec flux (1 / 10 ^ 300) then Err ValueError else Ok (Some (mag_from_flux zp flux))
  end.
(** Sed.calc_flux_norm, sed.py:1345-1369; the bad value is NaN, to which nothing is equal *)
Definition calc_flux_norm (zp magmatch : R) (b : bandpass) (w fnu : list R) (fill : option R) : result (option R) :=
  do m <- calc_mag zp b w fnu fill;
  Ok (match m with None => None | Some curmag => Some (Rpower 10 (- (2/5) * (magmatch - curmag))) end).
(** Sed.multiply_flux_norm, sed.py:1371-1402, given arrays *)
Definition multiply_flux_norm (norm : R) (fnu : list R) : list R := map (fun x => x * norm) fnu.

(** PhotometricParameters, photometric_parameters.py *)
Record phot_params := { p_exptime : R; p_nexp : R; p_effarea : R; p_gain : R; p_readnoise : R; p_darkcurrent : R;
                        p_othernoise : R; p_platescale : R; p_sigma_sys : R }.
(** Sed.calc_adu, sed.py:1187-1232, given arrays; [dlambda] is the first step of the grid *)
Definition first_step (w : list R) : R := nth 1 w 0 - nth 0 w 0.
Definition adu_factor (pp : phot_params) : R :=
  p_exptime pp * p_nexp pp * p_effarea pp / p_gain pp * (1 / ergsetc2jansky) * (1 / planck).
Definition nphoton (w fnu sb : list R) : R := rsum (zip_with Rmult (zip_with Rdiv fnu w) sb).
Definition calc_adu (pp : phot_params) (b : bandpass) (w fnu : list R) : result (option R) :=
  do r <- resample_match (b_w b) w fnu false None;
  Ok (match numbers (snd r) with
      | Some f => Some (nphoton (fst r) f (b_sb b) * adu_factor pp * first_step (fst r))
      | None => None
      end).
(** Sed.calc_ergs, sed.py:1250-1284: the trapezoids all have the width of the first *)
Definition calc_ergs (b : bandpass) (w fl : list R) (fill : option R) : result (option R) :=
  do r <- resample_match (b_w b) w fl false fill;
  Ok (match numbers (snd r) with
      | Some f => Some (rsum (map (fun m => m * first_step (fst r)) (mids (zip_with Rmult f (b_sb b)))))
      | None => None
      end).

(** Sed.set_flat_sed with its default grid, sed.py:488-498 *)
Definition flat_wavelen : list R := sed_grid 300 1150 (1 / 10).
Definition flat_fnu : list R := map (fun _ => 3631) flat_wavelen.
(** Bandpass.calc_zp_t, bandpass.py:356-387 *)
Definition calc_zp_t (pp : phot_params) (b : bandpass) : result (option R) :=
  do adu <- calc_adu pp b flat_wavelen flat_fnu;
  match adu with
  | None => Ok None
  | Some a => calc_mag zp_new b flat_wavelen (map (fun x => x * (1 / a)) flat_fnu) None
  end.
(** Bandpass.calc_eff_wavelen, bandpass.py:389-399 *)
Definition weighted_mean (w x : list R) : R := rsum (zip_with Rmult w x) / rsum x.
Definition calc_eff_wavelen (b : bandpass) : option (R * R) :=
  match b_phi (with_phi b) with Some p => Some (weighted_mean (b_w b) p, weighted_mean (b_w b) (b_sb b)) | None => None end.

(** signaltonoise.py:24-96: the two seeings, the effective number of pixels *)
Definition fwhm_eff2_fwhm_geom (x : R) : R := 822 / 1000 * x + 52 / 1000.
Definition fwhm_geom2_fwhm_eff (x : R) : R := (x - 52 / 1000) / (822 / 1000).
Definition calc_neff (fwhm_eff platescale : R) : R := 2266 / 1000 * ((fwhm_eff / platescale) * (fwhm_eff / platescale)).
(** calc_instr_noise_sq, lines 99-124 *)
Definition calc_instr_noise_sq (pp : phot_params) : R :=
  (p_nexp pp * (p_readnoise pp * p_readnoise pp) + p_darkcurrent pp * p_exptime pp * p_nexp pp + p_nexp pp * (p_othernoise pp * p_othernoise pp))
  / (p_gain pp * p_gain pp).
(** calc_total_non_source_noise_sq, lines 127-180, from the counts of the sky per square arcsecond *)
Definition non_source_noise_sq (pp : phot_params) (fwhm_eff sky_adu : R) : R :=
  calc_neff fwhm_eff (p_platescale pp) * (sky_adu * p_platescale pp * p_platescale pp / p_gain pp + calc_instr_noise_sq pp + 0).
Definition calc_total_non_source_noise_sq (pp : phot_params) (hardware : bandpass) (fwhm_eff : R) (sky_w sky_fnu : list R) : result (option R) :=
  do a <- calc_adu pp hardware sky_w sky_fnu;
  Ok (match a with Some a => Some (non_source_noise_sq pp fwhm_eff a) | None => None end).
(** calc_snr_sed, lines 473-545 *)
Definition snr_of_counts (gain counts noise_sq : R) : R := counts / sqrt (counts / gain + noise_sq).
Definition calc_snr_sed (pp : phot_params) (total hardware : bandpass) (fwhm_eff : R) (w fnu sky_w sky_fnu : list R) : result (option R) :=
  do c <- calc_adu pp total w fnu;
  do v <- calc_total_non_source_noise_sq pp hardware fwhm_eff sky_w sky_fnu;
  Ok (match c, v with Some c, Some v => Some (snr_of_counts (p_gain pp) c v) | _, _ => None end).
(** calc_m5, lines 250-305 *)
Definition counts_5sigma (gain v : R) : R := 25 / 2 / gain + sqrt (625 / 4 / gain + 25 * v).
Definition calc_m5 (pp : phot_params) (total hardware : bandpass) (fwhm_eff : R) (sky_w sky_fnu : list R) : result (option R) :=
  do v <- calc_total_non_source_noise_sq pp hardware fwhm_eff sky_w sky_fnu;
  do c <- calc_adu pp total flat_wavelen flat_fnu;
  match v, c with
  | Some v, Some c => calc_mag zp_new total flat_wavelen (multiply_flux_norm (counts_5sigma (p_gain pp) v / c) flat_fnu) None
  | _, _ => Ok None
  end.
(** the counts of a flat source of a given magnitude, lines 216-224, 351-357 *)
Definition flat_counts (pp : phot_params) (b : bandpass) (m : R) : result (option R) :=
  do n <- calc_flux_norm zp_new m b flat_wavelen flat_fnu None;
  match n with
  | Some n => calc_adu pp b flat_wavelen (multiply_flux_norm n flat_fnu)
  | None => Ok None
  end.
(** calc_sky_counts_per_pixel_for_m5, lines 183-247 *)
Definition sky_counts_of (pp : phot_params) (fwhm_eff c : R) : R :=
  ((c * c / 25 - c / p_gain pp) / calc_neff fwhm_eff (p_platescale pp) - calc_instr_noise_sq pp) * p_gain pp.
Definition calc_sky_counts_per_pixel_for_m5 (pp : phot_params) (total : bandpass) (fwhm_eff m5 : R) : result (option R) :=
  do c <- flat_counts pp total m5;
  Ok (match c with Some c => Some (sky_counts_of pp fwhm_eff c) | None => None end).
(** scale_sky_m5, lines 660-695: the scaled fluxes of the sky *)
Definition scale_sky_m5 (pp : phot_params) (total hardware : bandpass) (fwhm_eff m5 : R) (sky_w sky_fnu : list R) : result (option (list R)) :=
  do t <- calc_sky_counts_per_pixel_for_m5 pp total fwhm_eff m5;
  do a <- calc_adu pp hardware sky_w sky_fnu;
  Ok (match t, a with
      | Some t, Some a => Some (multiply_flux_norm (t / (a * p_platescale pp * p_platescale pp)) sky_fnu)
      | _, _ => None
      end).
(** mag_error_from_snr, lines 308-323 *)
Definition mag_error_from_snr (snr : R) : R := 5/2 * lg (1 + 1 / snr).
(** calc_gamma, lines 326-386 *)
Definition gamma_of_counts (gain c : R) : R := 1/25 - 1 / (c * gain).
Definition calc_gamma (pp : phot_params) (b : bandpass) (m5 : R) : result (option R) :=
  do c <- flat_counts pp b m5;
  Ok (match c with Some c => Some (gamma_of_counts (p_gain pp) c) | None => None end).
(** calc_snr_m5, lines 389-431 *)
Definition snr_m5 (gamma m5 mag : R) : R :=
  let x := flux_from_mag zp_new m5 / flux_from_mag zp_new mag in 1 / sqrt ((1/25 - gamma) * x + gamma * x * x).
Definition calc_snr_m5 (pp : phot_params) (b : bandpass) (m5 mag : R) (gamma : option R) : result (option (R * R)) :=
  do g <- match gamma with Some g => Ok (Some g) | None => calc_gamma pp b m5 end;
  Ok (match g with Some g => Some (snr_m5 g m5 mag, g) | None => None end).
(** calc_mag_error_m5 and calc_mag_error_sed, lines 434-470, 548-606; sigma_sys is never None (PhotometricParameters refuses
    that) *)
Definition add_sys (pp : phot_params) (snr : R) : R :=
  sqrt (mag_error_from_snr snr * mag_error_from_snr snr + p_sigma_sys pp * p_sigma_sys pp).
Definition calc_mag_error_m5 (pp : phot_params) (b : bandpass) (m5 mag : R) (gamma : option R) : result (option (R * R)) :=
  do s <- calc_snr_m5 pp b m5 mag gamma;
  Ok (match s with Some (snr, g) => Some (add_sys pp snr, g) | None => None end).
Definition calc_mag_error_sed (pp : phot_params) (total hardware : bandpass) (fwhm_eff : R) (w fnu sky_w sky_fnu : list R) : result (option R) :=
  do s <- calc_snr_sed pp total hardware fwhm_eff w fnu sky_w sky_fnu;
  Ok (match s with Some snr => Some (add_sys pp snr) | None => None end).
(** calc_astrometric_error, lines 609-657 *)
Definition calc_astrometric_error (mag m5 fwhm_geom nvisit floor : R) : R :=
  let x := Rpower 10 (2/5 * (mag - m5)) in
  let rand := fwhm_geom * 1000 * sqrt ((1/25 - 39/1000) * x + 39/1000 * x * x) / sqrt nvisit in
  sqrt (floor * floor + rand * rand).
