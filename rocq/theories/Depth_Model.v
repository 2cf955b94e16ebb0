(** Model of the metrics about depth and of accumulated (vector) metrics:
    rubin_sim/maf/metrics/{simple_metrics,vector_metrics,optimal_m5_metric}.py,
    maf/utils/{maf_utils,opsim_utils}.py, maf/stackers/teff_stacker.py.
    Magnitudes are real numbers [R] (exact; float rounding and overflow are not modelled;
    the constants 0.8 and 1.25 are written 4/5 and 5/4). *)
From Verif Require Import Base Slicer_Model GapMetrics_Model Vector_Model.
From Coq Require Import Reals.
Open Scope R_scope.

(** [np.log10] of a positive number *)
Definition log10 (x : R) : R := ln x / ln 10.
(** [10.0 ** (0.8 * m)] *)
Definition flux (m : R) : R := Rpower 10 (4/5 * m).
(** [np.sum] *)
Definition rsum (l : list R) : R := fold_right Rplus 0 l.

(** the value of a metric: [self.badval], minus infinity (numpy's log10(0)), or a number *)
Inductive mval := BadVal | NegInf | Val (x : R).

(** Coaddm5Metric.coadd, simple_metrics.py:99-101; coadd_m5, maf_utils.py:42-44 *)
Definition coadd (ms : list R) : mval :=
  match ms with [] => NegInf | _ => Val (5/4 * log10 (rsum (map flux ms))) end.

(** Coaddm5Metric.run, simple_metrics.py:103-111; a visit is its band and its depth *)
Definition coaddm5_run (filter_name : option string) (data : list (string * R)) : mval :=
  match data with
  | [] => BadVal
  | _ => match filter_name with
         | Some f => coadd (map snd (filter (fun v => String.eqb (fst v) f) data))
         | None => coadd (map snd data)
         end
  end.

(** calc_coadded_depth, opsim_utils.py:236-259, for one band; [nvisits = 0] gives log10(0), not finite *)
Definition calc_coadded_depth1 (nvisits : nat) (depth : R) : R :=
  match nvisits with
  | O => depth
  | _ => 5/4 * log10 (INR nvisits * flux depth)
  end.
(** the loop over the bands (lines 251-259); the dictionaries are association lists *)
Fixpoint calc_coadded_depth (nvisits : list (string * nat)) (single : list (string * R)) : result (list (string * R)) :=
  match nvisits with
  | [] => Ok []
  | (f, n) :: t =>
      match dget String.eqb single f with
      | None => Err ValueError
      | Some d => do r <- calc_coadded_depth t single; Ok ((f, calc_coadded_depth1 n d) :: r)
      end
  end.

(** compute_teff, teff_stacker.py:31-83, for one visit; [fid] is the fiducial depth of its band *)
Definition compute_teff (teff_base fid m5 : R) : R := teff_base * Rpower 10 (4/5 * (m5 - fid)).
Definition compute_teff_normed (teff_base exptime fid m5 : R) : R := compute_teff teff_base fid m5 / exptime.

(** OptimalM5Metric.run, optimal_m5_metric.py:73-93, with [mag_diff=False], [normalize=False], for a non-empty
    slice; [median] is [np.median] of the m5 column *)
Definition optimal_m5_run (median : R) (m5 opt : list R) : option R :=
  match coadd m5, coadd opt with
  | Val regular, Val optimal => Some ((flux optimal - flux regular) / flux median)
  | _, _ => None
  end.

(** * vector_metrics.py *)
(** AccumulateM5Metric.run, vector_metrics.py:146-156 *)
Definition accumulate_m5_run (bins : list Z) (data : list (Z * R)) : result (list (option R)) :=
  do r <- accumulate_run Rplus bins (map (fun v => (fst v, flux (snd v))) data);
  Ok (map (option_map (fun f => 5/4 * log10 f)) r).

(** [scipy.stats.binned_statistic(.., statistic="sum")] with increasing edges: bin k holds the values in
    [edge k, edge k+1), the last bin is closed *)
Definition in_stat_bin (nbins k : nat) (lo hi x : Z) : bool :=
  ((lo <=? x) && ((x <? hi) || ((S k =? nbins)%nat && (x =? hi))))%Z.
(** HistogramM5Metric.run, vector_metrics.py:123-133; [None] is badval (no flux in the bin) *)
Definition histogram_m5_run (bins : list Z) (data : list (Z * R)) : list mval :=
  map (fun ke => let '(k, (lo, hi)) := ke in
         match filter (fun v => in_stat_bin (length bins - 1) k lo hi (fst v)) data with
         | [] => BadVal
         | vs => Val (5/4 * log10 (rsum (map (fun v => flux (snd v)) vs)))
         end)
      (combine (seq 0 (length bins - 1)) (combine (removelast bins) (tl bins))).

(** NgalScaleMetric.run, scaling_metrics.py:56-75: zero or (the median seeing of) the density.  [a_x] of line 59
    uses the band of the first visit of the slice.  A visit: band, depth, seeing; [median] and [density] are
    the numpy median and lines 71-75 as functions. [ax1] is the dust coefficient of a band. *)
Definition ngal_scale_run (ax1 : string -> R) (median : list R -> R) (density : R -> R)
    (a_max m5min ebv : R) (filtername : string) (data : list (string * R * R)) : result R :=
  match data with
  | [] => Err IndexError
  | (band0, _, _) :: _ =>
      if Rlt_dec a_max (ax1 band0 * ebv) then Ok 0
      else
        match coadd (map (fun v => snd (fst v)) (filter (fun v => String.eqb (fst (fst v)) filtername) data)) with
        | Val c => if Rlt_dec c m5min then Ok 0 else Ok (density (median (map snd data)))
        | _ => Ok 0       (* -inf < m5min *)
        end
  end.
