(** Model of metrics about crowding, star counts and quasars, of brown dwarfs, differential refraction and periodic stars, of
    visits in windows and of the hourglass: rubin_sim/maf/metrics/{crowding_metric,star_density,sky_sat_metric,use_metrics,
    dcr_metric,brown_dwarf_metric,qso_number_counts_metric,periodic_detect_metric,hourglass_metric}.py and
    maf_contrib/{intervals_between_obs_metric,num_obs_in_survey_time_overlap_metric}.py.
    Numbers are reals (rounding and overflow are not modelled); NaN is [None] where it can be a result. *)
From Coq Require Import String Ascii Reals ZArith List.
From Verif Require Import Base Depth_Model.
From Verif Require Import Template_Model.  (* rleb, rltb *)
From Verif Require Small_Model Astrom_Model.
Import ListNotations.
Open Scope R_scope.

(** * Interpolation *)
(** the line through two points at [x] *)
Definition line (x0 y0 x1 y1 x : R) : R := y0 + (y1 - y0) / (x1 - x0) * (x - x0).
(** the broken line through the points, the first and last piece extended; fewer than two points are not used *)
Fixpoint broken (xs ys : list R) (x : R) : R :=
  match xs, ys with
  | x0 :: ((x1 :: xt) as xs'), y0 :: ((y1 :: _) as ys') =>
      match xt with
      | [] => line x0 y0 x1 y1 x
      | _ => if rleb x x1 then line x0 y0 x1 y1 x else broken xs' ys' x
      end
  | _, y0 :: _ => y0
  | _, [] => 0
  end.
(** [np.interp] for increasing [xs]: constant outside *)
Definition np_interp (x : R) (xs ys : list R) : result R :=
  match xs, ys with
  | [], _ | _, [] => Err ValueError
  | x0 :: _, y0 :: _ =>
      if negb (Nat.eqb (length xs) (length ys)) then Err ValueError
      else Ok (if rleb x x0 then y0 else if rleb (last xs 0) x then last ys 0 else broken xs ys x)
  end.
(** scipy's [interp1d] for increasing [xs]: ValueError outside.  Simplified: at least two points. *)
Definition interp1d (xs ys : list R) (x : R) : result R :=
  match xs with
  | x0 :: _ :: _ => if negb (Nat.eqb (length xs) (length ys)) then Err ValueError
                    else if rltb x x0 then Err ValueError else if rltb (last xs 0) x then Err ValueError
                    else Ok (broken xs ys x)
  | _ => Err ValueError
  end.

(** * Crowding, crowding_metric.py *)
Fixpoint diff (l : list R) : list R := match l with a :: ((b :: _) as t) => (b - a) :: diff t | _ => [] end.
(** [np.add.accumulate(l[::-1])[::-1]]: sums of the entries from each one on *)
Fixpoint sums_from (l : list R) : list R := match l with [] => [] | x :: t => rsum (x :: t) :: sums_from t end.
(** _comp_crowd_error, lines 12-52, with [single_mag] None: one value for each magnitude but the first.  Simplified: a list of
    another length than the magnitudes raises (numpy stretches lists of one entry). *)
Definition lum (m : R) : R := Rpower 10 (- (4/10) * m).
Definition coeff (seeing : R) : R := sqrt (PI / (3600 * 3600)) * seeing / 2.
Definition crowd_temp (mags counts : list R) : list R :=
  let lums := map lum mags in
  map (fun p => sqrt (fst p) / snd p) (combine (sums_from (map (fun p => fst p * fst p * snd p) (combine lums counts))) lums).
Definition comp_crowd (mags lum_func : list R) (seeing : R) : result (list R) :=
  if Nat.eqb (length mags) (length lum_func) then Ok (map (fun t => coeff seeing * t) (crowd_temp (tl mags) (diff lum_func)))
  else Err ValueError.
(** with a [single_mag], lines 48-52 *)
Definition comp_crowd_single (mags lum_func : list R) (seeing mag : R) : result R :=
  if Nat.eqb (length mags) (length lum_func)
  then do t <- interp1d (tl mags) (crowd_temp (tl mags) (diff lum_func)) mag; Ok (coeff seeing * t)
  else Err ValueError.
(** Python's [min] and [max] *)
Definition pmin (l : list R) : result R := match l with [] => Err ValueError | x :: t => Ok (fold_left Rmin t x) end.
Definition pmax (l : list R) : result R := match l with [] => Err ValueError | x :: t => Ok (fold_left Rmax t x) end.
Fixpoint first_where {A} (p : A -> bool) (i : nat) (l : list A) : option nat :=
  match l with [] => None | x :: t => if p x then Some i else first_where p (S i) t end.
(** the magnitude of the crowding limit, CrowdingM5Metric.run lines 98-117 (and NstarsMetric.run, 168-185).
    [bins] and [lum_func] are the entries of the slice point; [seeing] the seeing of the visits. *)
Definition crowd_mag (limit : R) (bins lum_func seeing : list R) : result R :=
  let mags := tl bins in
  do best <- pmin seeing;
  do err <- comp_crowd mags lum_func best;
  match first_where (fun e => rleb limit e) O err with
  | None => pmax mags
  | Some a => arr_get mags (a - 1)   (* max(a - 1, 0) *)
  end.
(** NstarsMetric.run, lines 168-208: the visits are (seeing, m5) *)
Definition mag_limit (limit : R) (m5 : list R) : R :=
  - (25/10) * log10 (1 / (limit * (109/100 * 5))) + 5/4 * log10 (rsum (map flux m5)).
Definition nstars (limit pix_area : R) (ignore_crowding : bool) (bins lum_func : list R) (visits : list (R * R)) : result R :=
  do c <- crowd_mag limit bins lum_func (map fst visits);
  let m := mag_limit limit (map snd visits) in
  do n <- np_interp (if ignore_crowding then m else Rmin c m) (tl bins) lum_func;
  Ok (n * pix_area).
(** CrowdingMagUncertMetric.run, lines 242-255 *)
Definition crowd_uncert (rmag : R) (bins lum_func seeing : list R) : result R :=
  do best <- pmin seeing; comp_crowd_single (tl bins) lum_func best rmag.

(** * StarDensityMetric, star_density.py *)
(** lines 51-62: [extra] are the names of further keyword arguments; BaseMetric.__init__ (base_metric.py:131-140) only takes
    the names listed *)
Definition base_kwargs : list string := ["metric_name"; "metric_dtype"; "badval"; "mask_val"]%string.
Definition star_density_new (limit : R) (extra : list (string * R)) : result R :=
  if forallb (fun k => existsb (String.eqb (fst k)) base_kwargs) extra
  then Ok (match dget String.eqb extra "rmagLimit"%string with Some r => r | None => limit end) else Err TypeError.
(** run, lines 64-77; outside the map badval *)
Definition star_density (limit badval : R) (bins lum_func : list R) : R :=
  match interp1d (tl bins) lum_func limit with Ok v => v / (3600 * 3600) | Err _ => badval end.

(** * SkySaturationMetric and UseMetric *)
(** sky_sat_metric.py:14-18; [None] is NaN or infinite *)
Definition sky_sat (mags : list (option R)) : nat :=
  length mags - length (filter (fun m => match m with Some _ => true | None => false end) mags).
(** use_metrics.py:9-53.  A data slice is one record, with strings, or an array of them, with columns.  [v not in programs] of
    a column compares elementwise: ValueError for more or less than one entry *)
Definition start_matches : list string :=
  ["singles"; "pairs"; "triplet"; "template"; "too"; "twilight"; "ddf_cosmos"; "ddf_ecdfs"; "ddf_edfs"; "ddf_elaiss1"; "ddf_xmm_lss"]%string.
Inductive slice := Record1 (reason program : string) | Rows1 (rows : list (string * string)).
Definition use_run (programs : list string) (data : slice) : result string :=
  match data with
  | Record1 reason program =>
      if negb (Nat.eqb (length programs) 0) && negb (existsb (String.eqb program) programs) then Ok "not science"%string
      else Ok (match find (fun m => String.prefix m reason) start_matches with Some m => m | None => "other"%string end)
  | Rows1 rows =>
      if Nat.eqb (length programs) 0 then Err AttributeError
      else match rows with
           | [r] => if existsb (String.eqb (snd r)) programs then Err AttributeError else Ok "not science"%string
           | _ => Err ValueError
           end
  end.

(** * DcrPrecisionMetric, dcr_metric.py *)
Record dcr_visit := { d_band : string; d_m5 : R; d_seeing : R; d_zd : R; d_pa : R }.
(** lines 40-44: the magnitudes; another template is looked up by rubin_scheduler.utils.stellarMags, which is not in this
    repository ([stellar = None] when that package has no such name; the function here is maf.utils.stellar_mags) *)
Definition dcr_mags (stellar : option (string -> R -> result (list (string * R)))) (template : string) (rmag : R) : result (list (string * R)) :=
  if String.eqb template "flat" then Ok (map (fun f => (f, rmag)) ["u"; "g"; "r"; "i"; "z"; "y"]%string)
  else match stellar with None => Err AttributeError | Some f => f template rmag end.
(** the inverse squares of the two slope uncertainties of a visit, lines 58-81.  A visit in another band has signal to noise
    zero, an infinite error, and an inverse square of zero, as has a coordinate of zero.  Angles are in degrees. *)
Definition radians (x : R) : R := x * PI / 180.
Definition dcr_info (mags : list (string * R)) (atm : R) (v : dcr_visit) : R * R :=
  match dget String.eqb mags (d_band v) with
  | None => (0, 0)
  | Some m =>
      let e := Astrom_Model.astrom_precision (d_seeing v) (Astrom_Model.m52snr (Some (1/25)) m (d_m5 v)) 0 in
      let err2 := e * e + atm * atm in
      let x := tan (radians (d_zd v)) * sin (radians (d_pa v)) in
      let y := tan (radians (d_zd v)) * cos (radians (d_pa v)) in
      (x * x / err2, y * y / err2)
  end.
(** line 83; [None] is infinity *)
Definition dcr_run (mags : list (string * R)) (atm : R) (vs : list dcr_visit) : option R :=
  let total := rsum (map (fun v => fst (dcr_info mags atm v)) vs) + rsum (map (fun v => snd (dcr_info mags atm v)) vs) in
  if Rlt_dec 0 total then Some (1 / sqrt total) else None.

(** * BDParallaxMetric and VolumeSumMetric, brown_dwarf_metric.py *)
(** bd_colors, lines 12-42: a dictionary, but for L3 a tuple with a dictionary *)
Inductive colors := Dict (l : list (string * R)) | Tuple (l : list (string * R)).
Definition bd_table : list (string * colors) :=
  [("L0", Dict [("i", 16.00); ("z", 14.52); ("y", 13.58)]); ("L1", Dict [("i", 16.41); ("z", 14.93); ("y", 13.97)]);
   ("L2", Dict [("i", 16.73); ("z", 15.30); ("y", 14.33)]); ("L3", Tuple [("i", 17.4); ("z", 15.88); ("y", 14.89)]);
   ("L4", Dict [("i", 18.35); ("z", 16.68); ("y", 15.66)]); ("L5", Dict [("i", 18.71); ("z", 16.94); ("y", 15.87)]);
   ("L6", Dict [("i", 19.27); ("z", 17.35); ("y", 16.27)]); ("L7", Dict [("i", 20.09); ("z", 18.18); ("y", 17.13)]);
   ("L8", Dict [("i", 20.38); ("z", 18.10); ("y", 17.04)]); ("L9", Dict [("i", 20.09); ("z", 17.69); ("y", 16.57)]);
   ("T0", Dict [("i", 20.22); ("z", 17.98); ("y", 16.77)]); ("T1", Dict [("i", 21.10); ("z", 18.84); ("y", 17.45)]);
   ("T2", Dict [("i", 21.97); ("z", 18.26); ("y", 16.75)]); ("T3", Dict [("i", 22.50); ("z", 18.08); ("y", 16.50)]);
   ("T4", Dict [("i", 22.50); ("z", 18.02); ("y", 16.32)]); ("T5", Dict [("i", 22.69); ("z", 19.20); ("y", 17.43)]);
   ("T6", Dict [("i", 23.00); ("z", 19.82); ("y", 18.06)]); ("T7", Dict [("z", 21.17); ("y", 19.34)]);
   ("T8", Dict [("z", 21.52); ("y", 19.75)]); ("T9", Dict [("z", 21.82); ("y", 20.37)])]%string.
Definition bd_colors (spec_type : string) : result colors :=
  match dget String.eqb bd_table spec_type with Some c => Ok c | None => Err KeyError end.
(** lines 107-112: the magnitudes at each distance, kept as absolute magnitudes here; [for key in mags: mags[key]] of a tuple
    raises *)
Definition bd_new (mags : option colors) : result (list (string * R)) :=
  match mags with
  | None => do c <- bd_colors "L7"; match c with Dict l => Ok l | Tuple _ => Err TypeError end
  | Some (Dict l) => Ok l
  | Some (Tuple _) => Err TypeError
  end.
Record bd_visit := { b_band : string; b_m5 : R; b_seeing : R; b_ra : R; b_dec : R }.
Definition distance_mod (d : R) : R := 5 * log10 d - 5.
(** the inverse squares of sigma_a and sigma_b of a visit at the distance [d], lines 122-123 and 131-140; zero for a visit in
    another band or an amplitude of zero *)
Definition bd_info (mags : list (string * R)) (atm d : R) (v : bd_visit) : R * R :=
  match dget String.eqb mags (b_band v) with
  | None => (0, 0)
  | Some m =>
      let e := Astrom_Model.astrom_precision (b_seeing v) (Astrom_Model.m52snr (Some (1/25)) (m + distance_mod d) (b_m5 v)) atm in
      (b_ra v * b_ra v / (e * e), b_dec v * b_dec v / (e * e))
  end.
(** the signal to noise of the parallax: 1000 / d over sigma (lines 116, 124-127, 143), 0 if sigma is infinite *)
Definition bd_snr (mags : list (string * R)) (atm : R) (vs : list bd_visit) (d : R) : R :=
  let w := rsum (map (fun v => fst (bd_info mags atm d v)) vs) + rsum (map (fun v => snd (bd_info mags atm d v)) vs) in
  if Rlt_dec 0 w then (1000 / d) / (sqrt (1 / w) * 1000) else 0.
(** scipy's [interp1d(xs, ys, fill_value="extrapolate")]: sorts by [xs] *)
Fixpoint pinsert (p : R * R) (l : list (R * R)) : list (R * R) :=
  match l with [] => [p] | q :: t => if Rle_dec (fst p) (fst q) then p :: l else q :: pinsert p t end.
Definition psort (l : list (R * R)) : list (R * R) := fold_right pinsert [] l.
Definition extrapolate (xs ys : list R) (x : R) : R :=
  let l := psort (combine xs ys) in broken (map fst l) (map snd l) x.
(** run, lines 130-149, for at least two distances *)
Definition bd_run (mags : list (string * R)) (atm goal badval : R) (distances : list R) (vs : list bd_visit) : result R :=
  let snrs := map (bd_snr mags atm vs) distances in
  do top <- pmax snrs;
  Ok (if rleb goal top then extrapolate snrs distances goal else badval).
(** VolumeSumMetric.run, lines 159-162 *)
Definition volume_sum (pix_area : R) (distances : list R) : R := rsum (map (fun d => 1/3 * (d * d * d) * pix_area) distances).

(** * QSONumberCountsMetric, qso_number_counts_metric.py *)
Definition eff_wavelen : list (string * R) := [("u", 367.0); ("g", 482.5); ("r", 622.2); ("i", 754.5); ("z", 869.1); ("y", 971.0)]%string.
(** lines 67-70 *)
Definition qso_zmax (band : string) (zmax : option R) : result R :=
  match zmax with
  | Some z => Ok z
  | None => match dget String.eqb eff_wavelen band with None => Err KeyError | Some w => Ok (Rmin 6.7 (w / 91.2 - 1)) end
  end.
(** [np.cumsum] of a list *)
Fixpoint cumsum_from (acc : R) (l : list R) : list R := match l with [] => [] | x :: t => (acc + x) :: cumsum_from (acc + x) t end.
Definition cumsum (l : list R) : list R := cumsum_from 0 l.
(** sum of two rows *)
Definition add_rows (a b : list R) : list R := map (fun p => fst p + snd p) (combine a b).
(** [np.cumsum(axis=0)]: sums of the rows up to each *)
Fixpoint cumsum0_from (acc : list R) (rows : list (list R)) : list (list R) :=
  match rows with [] => [] | r :: t => add_rows acc r :: cumsum0_from (add_rows acc r) t end.
(** lines 94-97: a row and a column of zeros before, then both sums; [ncols] is the number of columns of the table *)
Definition cumulative (ncols : nat) (table : list (list R)) : list (list R) :=
  let padded := repeat 0 (S ncols) :: map (cons 0) table in
  map cumsum (cumsum0_from (repeat 0 (S ncols)) padded).
(** run, lines 116-138.  [spline z m] is the interpolation of the cumulative table; [mlim5] the dust-corrected depth of
    ExgalM5 for the visits in the band; a visit is its band and its saturation magnitude. *)
Definition qso_run (spline : R -> R -> R) (mlim5 : list R -> R) (band : string) (zmin zmax cut pix_area badval ebv : R)
    (visits : list (string * R)) : result R :=
  if rltb cut ebv then Ok badval
  else
    let sat := map snd (filter (fun v => String.eqb (fst v) band) visits) in
    let m := mlim5 sat in
    do bright <- pmax sat;
    Ok ((spline zmax m - spline zmax bright - spline zmin m + spline zmin bright) * pix_area).

(** * PeriodicDetectMetric, periodic_detect_metric.py *)
Record pvisit := { p_mjd : R; p_m5 : R; p_band : string }.
Record star := { s_period : R; s_mag : R; s_amp : R }.
(** the distinct bands, in some order ([np.unique] sorts them) *)
Definition bands_of (vs : list pvisit) : list string := nodup string_dec (map p_band vs).
(** lines 108-114 for one visit: light curve and weight *)
Definition light (s : star) (mean : R) (v : pvisit) : R := s_amp s * sin (p_mjd v * (PI * 2) / s_period s) + mean.
Definition delta_m (s : star) (mean : R) (v : pvisit) : R :=
  25/10 * log10 (1 + 1 / Astrom_Model.m52snr (Some (1/25)) (light s mean v) (p_m5 v)).
Definition pweight (s : star) (mean : R) (v : pvisit) : R := 1 / (delta_m s mean v * delta_m s mean v).
(** lines 105-116 for one band; [mags s band] is the magnitude of the template *)
Definition chi_band (s : star) (mean : R) (vs : list pvisit) : R :=
  let w := rsum (map (fun v => pweight s mean v * light s mean v) vs) / rsum (map (pweight s mean) vs) in
  rsum (map (fun v => (light s mean v - w) * (light s mean v - w) / (delta_m s mean v * delta_m s mean v)) vs).
Fixpoint chi_sq (mags : star -> string -> result R) (s : star) (vs : list pvisit) (bands : list string) : result R :=
  match bands with
  | [] => Ok 0
  | b :: t => do m <- mags s b; do r <- chi_sq mags s vs t; Ok (chi_band s m (filter (fun v => String.eqb (p_band v) b) vs) + r)
  end.
(** lines 121-131; [sf f d1 d2] is scipy.stats.f.sf, [None] if not finite *)
Definition detected (sf : R -> R -> R -> option R) (sig_level : R) (n_pts n_filt : nat) (chi : R) : bool :=
  let f := (chi - (INR n_pts - (3 + INR n_filt))) / 3 in
  match sf f 3 (INR n_pts - (3 + INR n_filt)) with Some p => rltb p sig_level | None => false end.
Fixpoint periodic_stars (mags : star -> string -> result R) sf sig_level (vs : list pvisit) (stars : list star) : result nat :=
  match stars with
  | [] => Ok O
  | s :: t => do chi <- chi_sq mags s vs (bands_of vs);
              do r <- periodic_stars mags sf sig_level vs t;
              Ok ((if detected sf sig_level (length vs) (length (bands_of vs)) chi then 1 else 0) + r)%nat
  end.
(** run, lines 88-133 *)
Definition periodic_run mags sf sig_level (stars : list star) (vs : list pvisit) : result nat :=
  if Nat.ltb (3 + length (bands_of vs)) (length vs) then periodic_stars mags sf sig_level vs stars else Ok O.

(** * Visits in windows, num_obs_in_survey_time_overlap_metric.py and intervals_between_obs_metric.py *)
(** num_obs_in_survey_time_overlap_metric.py:32-43; windows are given by their first and last time *)
Definition within (w : R * R) (t : R) : bool := rltb (fst w) t && rltb t (snd w).
Definition num_obs (windows : list (R * R)) (times : list R) : nat :=
  fold_left (fun n w => n + length (filter (within w) times))%nat windows O.
(** all intervals, intervals_between_obs_metric.py:44-57 (the slice is sorted first) *)
Definition gaps (windows : list (R * R)) (times : list R) : list R :=
  flat_map (fun w => diff (filter (within w) (Small_Model.rsort times))) windows.
(** the statistics, intervals_between_obs_metric.py:59-68; [None] is NaN *)
Definition mean (l : list R) : option R := match l with [] => None | _ => Some (rsum l / INR (length l)) end.
Definition median (l : list R) : option R := match l with [] => None | _ => Some (percentile l 50) end.
Definition std (l : list R) : option R :=
  match mean l with None => None | Some m => Some (sqrt (rsum (map (fun x => (x - m) * (x - m)) l) / INR (length l))) end.
Definition intervals_run (stat : string) (windows : list (R * R)) (times : list R) : result (option R) :=
  let g := gaps windows times in
  if String.eqb stat "mean" then Ok (mean g) else if String.eqb stat "median" then Ok (median g)
  else if String.eqb stat "std" then Ok (std g) else Err UnboundLocalError.

(** * HourglassMetric, hourglass_metric.py *)
(** the visits of the sorted slice are (mjd, filter); a break, lines 54-60, with [np.roll] *)
Definition break_at (vs : list (R * string)) (i : nat) : bool :=
  let p := nth (match i with O => length vs - 1 | S j => j end) vs (0, ""%string) in
  let v := nth i vs (0, ""%string) in
  negb (String.eqb (snd v) (snd p)) || rltb (120 / 3600 / 24) (Rabs (fst p - fst v)).
(** lines 61-65: sorted distinct values of the breaks, 0 and the length *)
Definition breaks (vs : list (R * string)) : list nat :=
  let n := length vs in
  filter (fun i => (Nat.ltb i n && break_at vs i) || Nat.eqb i 0 || Nat.eqb i n) (seq 0 (S n)).
Fixpoint blocks_of (good : list nat) : list (nat * nat) :=
  match good with l :: ((r :: _) as t) => (l, r - 1)%nat :: blocks_of t | _ => [] end.
Definition blocks (vs : list (R * string)) : list (nat * nat) := blocks_of (breaks vs).
(** lines 108-115: the midnight of a time; [midnights] increasing.  [midnights[indx - 1]] is the last one for index 0. *)
Fixpoint search (l : list R) (x : R) : nat := match l with [] => O | y :: t => if rltb y x then S (search t x) else O end.
Definition midnight_of (midnights : list R) (mjd : R) : result R :=
  match midnights with
  | [] => Err IndexError
  | _ =>
      let n := length midnights in
      let i0 := search midnights mjd in
      let before i := nth (match i with O => n - 1 | S j => j end) midnights 0 in
      let d1 := Rabs (mjd - before i0) in
      let i := if Nat.leb n i0 then (i0 - 1)%nat else i0 in
      let d2 := Rabs (mjd - nth i midnights 0) in
      Ok (if rltb d1 d2 then before i else nth i midnights 0)
  end.
