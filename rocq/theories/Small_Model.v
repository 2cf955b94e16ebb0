(** Small metrics: the area summaries, year coverage, cumulative counts, Kuiper
    statistic, SNR weighting, age, chip vendors, colour-and-slope counts and the
    AGN time lag.  Floats that are compared, added, divided or exponentiated are
    real numbers; a value that may be NaN is an [option R].
    Source: rubin_sim/maf/metrics/*.py as cited at each definition.  No proofs here. *)
From Coq Require Import Reals ZArith Lra Ascii.
From Verif Require Import Base.
Open Scope R_scope.

(** [np.sort] / [np.argsort] on reals: ascending (the order among equal values
    does not matter for what is modelled). *)
Fixpoint rinsert (x : R) (l : list R) : list R :=
  match l with [] => [x] | y :: t => if Rle_dec x y then x :: l else y :: rinsert x t end.
Definition rsort (l : list R) : list R := fold_right rinsert [] l.

(** [np.min] / [np.max]: ValueError on an empty array. *)
Definition np_min (l : list R) : result R := match l with [] => Err ValueError | x :: t => Ok (fold_left Rmin t x) end.
Definition np_max (l : list R) : result R := match l with [] => Err ValueError | x :: t => Ok (fold_left Rmax t x) end.

(** [hp.nside2pixarea(nside, degrees=True)] for a map of [npix] = 12 nside^2 pixels. *)
Definition pix_area (npix : nat) : R := 4 * PI * (180 / PI) * (180 / PI) / INR npix.

(** [np.ceil] as an integer. *)
Definition ceil (x : R) : Z := (- Int_part (- x))%Z.

(** AreaSummaryMetric.run, area_summary_metrics.py 53-65, with the default
    [reduce_func] chosen at 45-51.  [nside_ok] says which sizes [hp.npix2nside]
    accepts (ValueError otherwise).  [None] is a pixel that is not finite (NaN,
    masked pixels are passed as NaN because of [mask_val]).  Simplified: a
    negative area is not modelled ([Z.to_nat] makes it zero pixels). *)
Definition finite (data : list (option R)) : list R :=
  flat_map (fun v => match v with Some x => [x] | None => [] end) data.
Definition area_summary (nside_ok : nat -> bool) (area : R) (decreasing : bool) (data : list (option R)) : result R :=
  if nside_ok (length data) then
    let n_pix_needed := Z.to_nat (ceil (area / pix_area (length data))) in
    let order := rsort (finite data) in
    let order := if decreasing then rev order else order in
    (if decreasing then np_min else np_max) (firstn n_pix_needed order)
  else Err ValueError.

(** AreaThresholdMetric.run, area_summary_metrics.py 101-120. *)
Definition above (lo : R) (v : option R) : bool := match v with Some x => if Rlt_dec lo x then true else false | None => false end.
Definition below (hi : R) (v : option R) : bool := match v with Some x => if Rlt_dec x hi then true else false | None => false end.
Definition area_threshold (nside_ok : nat -> bool) (upper lower : option R) (data : list (option R)) : result R :=
  if nside_ok (length data) then
    let npix :=
      match upper, lower with
      | None, None => length data
      | None, Some lo => length (filter (above lo) data)
      | Some hi, None => length (filter (below hi) data)
      | Some hi, Some lo => length (filter (fun v => above lo v && below hi v) data)
      end in
    Ok (pix_area (length data) * INR npix)
  else Err ValueError.

(** [np.histogram] with explicit edges: bin [i] is [e_i, e_(i+1)), the last bin is
    closed.  Edges and data in quarters of a night (integers). *)
Fixpoint hist (edges data : list Z) : list nat :=
  match edges with
  | a :: ((b :: rest) as t) =>
      let inb := match rest with
                 | [] => fun x => (a <=? x)%Z && (x <=? b)%Z
                 | _ => fun x => (a <=? x)%Z && (x <? b)%Z
                 end in
      length (filter inb data) :: hist t data
  | _ => []
  end.

(** YearCoverageMetric, coverage_metric.py 33-48: default edges 365.25 k - 0.5 for
    k = 0..10 ([np.arange(0, 3653, 365.25) - 0.5]). *)
Definition default_year_edges : list Z := map (fun k => 1461 * Z.of_nat k - 2)%Z (seq 0 11).
Definition year_coverage (edges nights : list Z) : nat :=
  length (filter (fun h => Nat.ltb 0 h) (hist edges (map (fun n => 4 * n)%Z nights))).
(** YearCoverageMetric.__init__, 33-43, and base_metric.py's default name
    (class name without "Metric", then the column): [**kwargs] is accepted and
    not passed on, so a given [metric_name] has no effect. *)
Definition year_coverage_name (metric_name : option string) (night_col : string) : string :=
  ("YearCoverage " ++ night_col)%string.

(** [np.interp(x, xp, fp)] for non-decreasing [xp]: left of the range the first
    value, right of it the last; at [xp_j = x] (last such j) the value [fp_j];
    otherwise linear. *)
Fixpoint interp_from (x : R) (x0 y0 : R) (pts : list (R * R)) : R :=
  match pts with
  | [] => y0
  | (x1, y1) :: t =>
      if Rle_dec x1 x then interp_from x x1 y1 t
      else if Req_EM_T x0 x then y0
      else (y1 - y0) / (x1 - x0) * (x - x0) + y0
  end.
Definition interp (x : R) (pts : list (R * R)) : result R :=
  match pts with
  | [] => Err ValueError                       (* "array of sample points is empty" *)
  | (x0, y0) :: t => Ok (if Rlt_dec x x0 then y0 else interp_from x x0 y0 t)
  end.

(** CumulativeMetric.run, cumulative_metric.py 33-46, for given interpolation
    points: visits (time, night) sorted by time; the values [y]. *)
Fixpoint tinsert (v : R * Z) (l : list (R * Z)) : list (R * Z) :=
  match l with [] => [v] | w :: t => if Rle_dec (fst v) (fst w) then v :: l else w :: tinsert v t end.
Definition tsort (l : list (R * Z)) : list (R * Z) := fold_right tinsert [] l.
Definition cumulative_pts (visits : list (R * Z)) : list (R * R) :=
  let s := tsort visits in
  combine (map (fun v => IZR (snd v)) s) (map (fun i => INR i + 1) (seq 0 (length s))).
Fixpoint all_results {A} (l : list (result A)) : result (list A) :=
  match l with [] => Ok [] | r :: t => do x <- r; do xs <- all_results t; Ok (x :: xs) end.
Definition cumulative (interp_points : list R) (visits : list (R * Z)) : result (list R) :=
  all_results (map (fun x => interp x (cumulative_pts visits)) interp_points).
(** The default points, 35-40: [np.arange(min night, max night + 1, 1)]. *)
Definition zmin (a : Z) (l : list Z) : Z := fold_left Z.min l a.
Definition zmax (a : Z) (l : list Z) : Z := fold_left Z.max l a.
Definition cumulative_default (visits : list (R * Z)) : result (list R) :=
  match map snd visits with
  | [] => Err ValueError
  | n :: t => let lo := zmin n t in let hi := zmax n t in
      cumulative (map (fun i => IZR (lo + Z.of_nat i)) (seq 0 (Z.to_nat (hi + 1 - lo)))) visits
  end.

(** KuiperMetric.run, kuiper_metrics.py 14-26. *)
Definition mod360 (x : R) : R := x - 360 * IZR (Int_part (x / 360)).
Definition offsets (values : list R) : list R :=        (* uniform - dist_1 *)
  map (fun p => snd p / 360 - (INR (fst p) + 1) / INR (length values)) (combine (seq 0 (length values)) values).
Definition kuiper (data : list R) : result R :=
  let values := rsort (map mod360 data) in
  do d_plus <- np_max (offsets values);
  do d_minus <- np_max (map (fun x => - x) (offsets values));
  Ok (d_plus + d_minus).

(** SnrWeightedMetric.run, snr_weight.py 21-24; [m52snr(m, m5)] =
    5 * 10^(-0.4 (m - m5)) (rubin_scheduler).  [np.average] raises
    ZeroDivisionError when the weights sum to zero, which is only possible for no
    visits.  A visit is (m5, value). *)
Definition m52snr (m m5 : R) : R := 5 * Rpower 10 (- (4 / 10) * (m - m5)).
Fixpoint rsum (l : list R) : R := match l with [] => 0 | x :: t => x + rsum t end.
Definition snr_weighted_at (star_mag : R) (visits : list (R * R)) : result R :=
  match visits with
  | [] => Err ZeroDivisionError
  | _ => Ok (rsum (map (fun v => snd v * m52snr star_mag (fst v)) visits)
             / rsum (map (fun v => m52snr star_mag (fst v)) visits))
  end.
Definition snr_weighted (visits : list (R * R)) : result R := snr_weighted_at 20 visits.

(** AgeMetric.run, schedview_metrics.py 35-39; [None] is the mask value. *)
Definition age (mjd long_limit : R) (times : list R) : result (option R) :=
  do m <- np_max times;
  let a := mjd - m in
  Ok (if Rlt_dec long_limit a then None else Some a).

(** ChipVendorMetric, chip_vendor_metric.py 20-43.  [int(chip[2])] of a chip name:
    IndexError when the name is too short, ValueError when not a digit. *)
Definition digit (c : ascii) : result nat :=
  let n := nat_of_ascii c in
  if Nat.leb 48 n && Nat.leb n 57 then Ok (n - 48)%nat else Err ValueError.
Definition vendor_of (chip : string) : result nat :=
  match String.get 2 chip with
  | None => Err IndexError
  | Some c => do d <- digit c; Ok (if Nat.even d then 1 else 2)%nat
  end.
(** [np.unique] then the size test, 38-42; [None] for [chips] is a slice point
    without "chipNames". *)
Definition chip_vendor (chips : option (list string)) : result nat :=
  match chips with
  | None => Err ValueError
  | Some cs =>
      do vs <- all_results (map vendor_of cs);
      match nodup Nat.eq_dec vs with [v] => Ok v | _ => Ok 3%nat end
  end.

(** A visit for the colour-and-slope metrics.  A table has named columns; the
    metric reads the band from [filter_col] and the night and depth from its own
    columns, the checker always reads "band" and "observationStartMJD". *)
Record csvisit := { c_text : string -> string; c_num : string -> R; c_night : Z; c_m5 : R }.

(** CheckColorSlope.__call__, color_slope_metrics.py 29-63 (lengths in days). *)
Definition in_band (fc b : string) (vs : list csvisit) : list csvisit :=
  filter (fun v => String.eqb (c_text v fc) b) vs.
Definition span (ts : list R) : R :=
  match ts with [] => 0 | x :: t => fold_left Rmax t x - fold_left Rmin t x end.
Definition has_slope (fc tc : string) (slope : R) (vs : list csvisit) : bool :=
  existsb (fun b => if Rle_dec slope (span (map (fun v => c_num v tc) (in_band fc b vs))) then true else false)
          (nodup string_dec (map (fun v => c_text v fc) vs)).
Definition gaps (tc : string) (l1 l2 : list csvisit) : list R :=
  flat_map (fun w => map (fun v => c_num v tc - c_num w tc) l1) l2.
Definition positive_gaps (l : list R) : list R := filter (fun x => if Rlt_dec 0 x then true else false) l.
Definition has_color (fc tc : string) (color : R) (vs : list csvisit) : bool :=
  let bands := nodup string_dec (map (fun v => c_text v fc) vs) in
  existsb (fun b1 => existsb (fun b2 =>
      if String.eqb b1 b2 then false else
      match positive_gaps (gaps tc (in_band fc b1 vs) (in_band fc b2 vs)) with
      | [] => false
      | g :: t => if Rle_dec (fold_left Rmin t g) color then true else false
      end) bands) bands.
Definition check_color_slope (fc tc : string) (color slope : R) (vs : list csvisit) : nat :=
  if Nat.ltb (length vs) 3 then 0%nat
  else if has_color fc tc color vs && has_slope fc tc slope vs then 1%nat else 0%nat.

(** The deep-enough selection, 116-121: [self.mag[filtername]] raises KeyError for
    a band that is not in the dictionary. *)
Definition deep (fc : string) (mag : list (string * R)) (vs : list csvisit) : result (list csvisit) :=
  if forallb (fun v => match dget String.eqb mag (c_text v fc) with Some _ => true | None => false end) vs then
    Ok (filter (fun v => match dget String.eqb mag (c_text v fc) with
                         | Some m => if Rlt_dec m (c_m5 v) then true else false
                         | None => false end) vs)
  else Err KeyError.

(** [int_binned_stat(ids, data, statistic)] (rubin_scheduler): one value per
    distinct id; here their sum. *)
Definition binned_sum (id : csvisit -> Z) (stat : list csvisit -> nat) (vs : list csvisit) : nat :=
  list_sum (map (fun k => stat (filter (fun v => Z.eqb (id v) k) vs)) (nodup Z.eq_dec (map id vs))).

(** ColorSlopeMetric.run, 114-125; the checker is built at 112 without the column
    names.  [cols] are the columns of the table: a missing column is a ValueError. *)
Definition checker_ok (cols : list string) : bool :=
  existsb (String.eqb "band") cols && existsb (String.eqb "observationStartMJD") cols.
(** The checker reads its columns only for a group of at least three visits. *)
Definition groups_big (id : csvisit -> Z) (vs : list csvisit) : bool :=
  existsb (fun k => Nat.leb 3 (length (filter (fun v => Z.eqb (id v) k) vs))) (nodup Z.eq_dec (map id vs)).
Definition run_checker (cols : list string) (id : csvisit -> Z) (color slope : R) (vs : list csvisit) : result nat :=
  if groups_big id vs && negb (checker_ok cols) then Err ValueError
  else Ok (binned_sum id (check_color_slope "band" "observationStartMJD" (color / 24) (slope / 24)) vs).
Definition color_slope (cols : list string) (fc : string) (mag : list (string * R)) (color slope : R) (vs : list csvisit) : result nat :=
  do data <- deep fc mag vs;
  match data with [] => Ok 0%nat | _ => run_checker cols c_night color slope data end.

(** ColorSlope2NightMetric.run, 170-189: floor(n/2), then ceil(n/2). *)
Definition color_slope_2night (cols : list string) (fc : string) (mag : list (string * R)) (color slope : R) (vs : list csvisit) : result nat :=
  do data <- deep fc mag vs;
  match data with
  | [] => Ok 0%nat
  | _ => do r1 <- run_checker cols (fun v => c_night v / 2)%Z color slope data;
         do r2 <- run_checker cols (fun v => - ((- c_night v) / 2))%Z color slope data;
         Ok (r1 + r2)%nat
  end.

(** AgnTimeLagMetric.run, agn_time_lag_metric.py 58-118.  A visit is (band, time,
    m5).  [ax1] is the extinction table (KeyError for the first visit's band when
    dust is on); the branches for "g" and "r" at 76-81 are never reached because
    74 already takes all six bands, so [m5] and the cut-offs do not matter; visits
    in other bands keep time 0 and are dropped, as are times <= 0.  A zero gap is
    an infinite value. *)
Inductive lagval := Bad | Fin (x : R) | Inf.
Inductive calc := Mean | Min | Max | Gcd.
Definition ugrizy : list string := ["u"; "i"; "z"; "y"; "r"; "g"]%string.
Fixpoint diffs (l : list R) : list R :=
  match l with a :: ((b :: _) as t) => (b - a) :: diffs t | _ => [] end.
Definition lag_times (g_cutoff r_cutoff : R) (vs : list (string * R * R)) : list R :=
  filter (fun t => if Rlt_dec 0 t then true else false)
    (map (fun v => let '(b, t, m5) := v in
        if existsb (String.eqb b) ugrizy then t
        else if String.eqb b "g" then (if Rlt_dec g_cutoff m5 then t else 0)
        else if String.eqb b "r" then (if Rlt_dec r_cutoff m5 then t else 0)
        else 0) vs).
Definition summarize (rint : R -> Z) (c : calc) (l : list R) : R :=
  match c, l with
  | _, [] => 0
  | Mean, _ => rsum l / INR (length l)
  | Min, x :: t => fold_left Rmin t x
  | Max, x :: t => fold_left Rmax t x
  | Gcd, _ => IZR (fold_left (fun a x => Z.gcd a (rint x)) l 0%Z)
  end.
Definition agn_time_lag (ax1 : list (string * R)) (dust : bool) (ebv : R) (rint : R -> Z)
    (lag z threshold : R) (c : calc) (g_cutoff r_cutoff : R) (vs : list (string * R * R)) : result lagval :=
  let first_ok := match vs with [] => true | (b, _, _) :: _ => match dget String.eqb ax1 b with Some _ => true | None => false end end in
  if dust && negb first_ok then Err KeyError else
  match diffs (rsort (lag_times g_cutoff r_cutoff vs)) with
  | [] => Ok Bad
  | val =>
      let gap := summarize rint c val in
      if Req_EM_T gap 0 then Ok Inf
      else let n := lag / ((1 + z) * gap) in
           Ok (if Rlt_dec n threshold then Bad else Fin n)
  end.
