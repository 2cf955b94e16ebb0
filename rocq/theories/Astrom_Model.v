(** Model of the astrometric metrics: rubin_sim/maf/utils/astrometry_utils.py,
    rubin_sim/maf/metrics/calibration_metrics.py.
    Numbers are real numbers [R] (exact; rounding, overflow and infinities of floats are not modelled except where
    said).  The constants 0.4, 0.04 and 0.5 are written 2/5, 1/25 and 1/2. *)
From Verif Require Import Base.
From Coq Require Import Reals Ratan.
Open Scope R_scope.

(** [np.sum] *)
Definition rsum (l : list R) : R := fold_right Rplus 0 l.

(** m52snr, astrometry_utils.py:35-69; [gamma = None] is the Python None *)
Definition snr_gamma (gamma x : R) : R := 1 / sqrt ((1/25 - gamma) * x + gamma * x * x).
Definition m52snr (gamma : option R) (m m5 : R) : R :=
  match gamma with
  | None => 5 * Rpower 10 (- (2/5) * (m - m5))
  | Some g => snr_gamma g (Rpower 10 (2/5 * (m - m5)))
  end.

(** astrom_precision, astrometry_utils.py:72-93 *)
Definition astrom_precision (fwhm snr floor : R) : R := sqrt ((fwhm / snr) * (fwhm / snr) + floor * floor).

(** sigma_slope, astrometry_utils.py:8-32; a point is its x value and the uncertainty of its y value; NaN is [None] *)
Definition wgt (p : R * R) : R := 1 / (snd p * snd p).
Definition slope_denom (ps : list (R * R)) : R :=
  rsum (map wgt ps) * rsum (map (fun p => wgt p * (fst p * fst p)) ps) -
  rsum (map (fun p => wgt p * fst p) ps) * rsum (map (fun p => wgt p * fst p) ps).
Definition sigma_slope (ps : list (R * R)) : option R :=
  if Rle_dec (slope_denom ps) 0 then None else Some (sqrt (rsum (map wgt ps) / slope_denom ps)).

(** a visit, the columns used by these metrics *)
Record avisit := { av_band : string; av_m5 : R; av_seeing : R; av_mjd : R; av_ra_pi : R; av_dec_pi : R }.
(** the position error of a visit for the magnitudes [mags] of the star, lines 116-128, 241-252, 397-409: the magnitude of
    an unknown band raises KeyError *)
Definition pos_error (mags : string -> option R) (atm : R) (v : avisit) : result R :=
  match mags (av_band v) with None => Err KeyError | Some m => Ok (astrom_precision (av_seeing v) (m52snr (Some (1/25)) m (av_m5 v)) atm) end.
Fixpoint map_ok {A B} (f : A -> result B) (l : list A) : result (list B) :=
  match l with [] => Ok [] | x :: t => do y <- f x; do r <- map_ok f t; Ok (y :: r) end.
(** the flat template, lines 77-79, 215-217, 358-360: the same magnitude in the six bands *)
Definition flat (rmag : R) (band : string) : option R := if existsb (String.eqb band) ["u"; "g"; "r"; "i"; "z"; "y"]%string then Some rmag else None.

(** ParallaxMetric._final_sigma, lines 104-114, an amplitude being a pair of error and factor: the information
    sum (factor/error)^2 of both coordinates; zero information gives infinity, written [None] *)
Definition info (eps : list (R * R)) : R := rsum (map (fun p => (snd p / fst p) * (snd p / fst p)) eps).
Definition final_sigma (errs ras decs : list R) : option R :=
  let s := info (combine errs ras) + info (combine errs decs) in
  if Rle_dec s 0 then None else Some (sqrt (1 / s) * 1000).
(** ParallaxMetric.run, lines 116-138, for a non-empty slice ([filters[0]] raises IndexError on an empty one); dividing by
    infinity gives 0 *)
Definition parallax_run (mags : string -> option R) (atm : R) (normalize : bool) (vs : list avisit) : result (option R) :=
  match vs with
  | [] => Err IndexError
  | _ =>
      do errs <- map_ok (pos_error mags atm) vs;
      let sigma := final_sigma errs (map av_ra_pi vs) (map av_dec_pi vs) in
      if normalize then
        Ok (match final_sigma errs (map (fun v => av_ra_pi v * 0 + 1) vs) (map (fun v => av_dec_pi v * 0) vs), sigma with
            | Some b, Some s => Some (b / s) | Some _, None => Some 0 | None, _ => None end)
      else Ok sigma
  end.

(** ProperMotionMetric.run, lines 241-265.  A band with a single visit is left out (its error is set to badval, and errors
    equal to badval are dropped; badval is negative and no error is).  [None] is badval *)
Definition band_count (vs : list avisit) (b : string) : nat := length (filter (fun v => String.eqb (av_band v) b) vs).
Definition pm_good (vs : list avisit) : list avisit := filter (fun v => (2 <=? band_count vs (av_band v))%nat) vs.
Definition year : R := 36525 / 100.
(** the dates of the normalisation: the first half (in row order) at 0, the others at [baseline] *)
Definition norm_dates (baseline : R) (n : nat) : list R := repeat 0 (n / 2) ++ repeat (baseline * year) (n - n / 2).
Definition proper_motion_run (mags : string -> option R) (atm : R) (norm : option R) (vs : list avisit) : result (option R) :=
  do errs <- map_ok (pos_error mags atm) (pm_good vs);
  Ok (match sigma_slope (combine (map av_mjd (pm_good vs)) errs) with
      | None => None
      | Some s =>
          match norm with
          | None => Some (s * year * 1000)
          | Some baseline =>
              match sigma_slope (combine (norm_dates baseline (length errs)) errs) with
              | None => None
              | Some b => Some ((b * year * 1000) / (s * year * 1000))
              end
          end
      end).

(** [np.average(values, weights)] *)
Definition waverage (wxs : list (R * R)) : R := rsum (map (fun p => fst p * snd p) wxs) / rsum (map fst wxs).
(** ParallaxCoverageMetric._weighted_r, lines 390-395; a point is its weight and its two factors *)
Definition weighted_r (ps : list (R * (R * R))) : R :=
  let cx := waverage (map (fun p => (fst p, fst (snd p))) ps) in
  let cy := waverage (map (fun p => (fst p, snd (snd p))) ps) in
  waverage (map (fun p => (fst p, sqrt ((fst (snd p) - cx) * (fst (snd p) - cx) + (snd (snd p) - cy) * (snd (snd p) - cy)))) ps).

(** [np.arctan2] *)
Definition atan2 (y x : R) : R :=
  if Rlt_dec 0 x then atan (y / x)
  else if Rlt_dec x 0 then (if Rle_dec 0 y then atan (y / x) + PI else atan (y / x) - PI)
  else if Rlt_dec 0 y then PI / 2 else if Rlt_dec y 0 then - (PI / 2) else 0.
(** Python's [x % y] for positive [y] *)
Definition pymod (x y : R) : R := x - y * IZR (Int_part (x / y)).
Definition rmin_list (l : list R) : R := match l with [] => 0 | x :: t => fold_left Rmin t x end.
Definition rmax_list (l : list R) : R := match l with [] => 0 | x :: t => fold_left Rmax t x end.
(** ParallaxCoverageMetric._theta_check, lines 370-382; a point is its signal to noise and its two factors.  [np.min] of
    nothing raises ValueError.  Line 378 is [(theta + np.pi) % 2.0 * np.pi], which Python reads as [((theta + pi) % 2) * pi] *)
Definition theta_check (snr_limit range : R) (ps : list (R * (R * R))) : result R :=
  let good := filter (fun p => if Rle_dec snr_limit (fst p) then true else false) ps in
  match map (fun p => atan2 (snd (snd p)) (fst (snd p))) good with
  | [] => Err ValueError
  | th =>
      let th1 := map (fun t => t - rmin_list th) th in
      Ok (if Rle_dec range (rmax_list th1) then
            let th2 := map (fun t => pymod (t + PI) 2 * PI) th1 in
            let th3 := map (fun t => t - rmin_list th2) th2 in
            if Rle_dec range (rmax_list th3) then 1 else 0
          else 0)
  end.
(** ParallaxCoverageMetric.run, lines 397-416; [None] is badval.  The call of [_weighted_r] passes the two factors in the
    other order, which makes no difference to the radius *)
Definition coverage_run (mags : string -> option R) (atm range snr_limit : R) (vs : list avisit) : result (option R) :=
  if (length vs <? 2)%nat then Ok None
  else
    do errs <- map_ok (pos_error mags atm) vs;
    do snrs <- map_ok (fun v => match mags (av_band v) with None => Err KeyError | Some m => Ok (m52snr (Some (1/25)) m (av_m5 v)) end) vs;
    let fs := map (fun v => (av_ra_pi v, av_dec_pi v)) vs in
    let ave := weighted_r (combine (map (fun e => 1 / (e * e)) errs) (map (fun f => (snd f, fst f)) fs)) in
    if Rlt_dec 0 range then do c <- theta_check snr_limit range (combine snrs fs); Ok (Some (ave * c))
    else Ok (Some (ave * 1)).

(** ParallaxDcrDegenMetric.run, lines 503-555, the value for a fit that converged to the exact weighted least squares
    solution: the data are [1*p + 1*d] exactly, so that solution is (1, 1), and the covariance is the inverse of the
    normal matrix.  A point is its error, its parallax factor and its refraction shift (both coordinates of all visits).
    [curve_fit] itself is not modelled; a singular normal matrix is [None] *)
Definition dcr_sum (f : R * R -> R) (ps : list (R * (R * R))) : R := rsum (map (fun p => f (snd p) / (fst p * fst p)) ps).
Definition dcr_correlation (ps : list (R * (R * R))) : option R :=
  let a := dcr_sum (fun q => fst q * fst q) ps in
  let b := dcr_sum (fun q => fst q * snd q) ps in
  let c := dcr_sum (fun q => snd q * snd q) ps in
  let det := a * c - b * b in
  if Rle_dec det 0 then None else Some ((- b / det) / (sqrt (c / det) * sqrt (a / det))).

(** calc_dist_cosines, lines 558-582 *)
Definition dist_cosines (ra1 dec1 ra2 dec2 : R) : R := acos (sin dec2 * sin dec1 + cos dec1 * cos dec2 * cos (ra2 - ra1)).
Definition degrees (x : R) : R := x * 180 / PI.
Definition radians (x : R) : R := x * PI / 180.
(** RadiusObsMetric.run, lines 599-609; the slice point is in radians and the pointings in degrees.  The units given to the
    base class (line 591) are radians *)
Definition radius_run (ra dec : R) (pointings : list (R * R)) : list R := map (fun p => degrees (dist_cosines ra dec (radians (fst p)) (radians (snd p)))) pointings.
Definition radius_units : string := "radians".
(** the reductions, lines 611-618, of a non-empty list *)
Definition rmean (l : list R) : R := rsum l / INR (length l).
Definition reduce_full_range (l : list R) : R := rmax_list l - rmin_list l.
