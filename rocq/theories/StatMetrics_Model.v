(** Model of statistics metrics:
    rubin_sim/maf/metrics/{simple_metrics,cadence_metrics,summary_metrics}.py.
    Data values are [Z] ticks; quotients are exact rationals [Q] (float rounding is not modelled). *)
From Verif Require Import Base Slicer_Model GapMetrics_Model.
From Coq Require Import QArith Qabs Qminmax Qround.
Open Scope Z_scope.

(** [np.max] of a non-empty rational array *)
Definition qmaxl (l : list Q) : Q := fold_right Qmax (hd 0%Q l) l.

(** exact quotient of two naturals, [np.arange(..)/float(n)], for n > 0 *)
Definition nfrac (k n : nat) : Q := (Z.of_nat k # Pos.of_nat n)%Q.

(** * KS-like uniformity, cadence_metrics.py *)

(** cadence_metrics.py:97-99 and 208-210: [np.max(np.abs(n_cum - dates - dates[1]))] with
    [n_cum = np.arange(1, size + 1) / size]; IndexError for a single date. *)
Definition ks_dmax (dates : list Q) : result Q :=
  do d1 <- arr_get dates 1;
  let n := length dates in
  Ok (qmaxl (map (fun p => Qabs (nfrac (S (fst p)) n - snd p - d1)) (combine (seq 0 n) dates))).

(** UniformityMetric.run, cadence_metrics.py:90-100.  [survey] is survey_length * 365.25 in ticks.  The code
    sorts after scaling; scaling by a positive number keeps the order, so sorting first gives the same.
    An empty column raises ValueError in [min]. *)
Definition uniformity_run (survey : Z) (col : list Z) : result Q :=
  match col with
  | [] => Err ValueError
  | [_] => Ok 1%Q
  | _ => ks_dmax (map (fun x => inject_Z (x - zmin col) / inject_Z survey)%Q (zsort col))
  end.

(** RapidRevisitUniformityMetric.run, cadence_metrics.py:196-211; [min_nvisits] as stored by the
    constructor (lines 191-194, at least 2).  [None] is badval. *)
Definition rapid_revisit_uniformity_run (min_nvisits : nat) (d_tmin d_tmax : Z) (col : list Z) : result (option Q) :=
  let min_nvisits := Nat.max 2 min_nvisits in
  let dtimes := diff (zsort col) in
  let good := filter (fun d => (d_tmin <=? d) && (d <=? d_tmax)) dtimes in
  if (length good <? min_nvisits)%nat then Ok None
  else
    let s := zsort good in
    do r <- ks_dmax (map (fun d => inject_Z (d - zmin s) / inject_Z (d_tmax - d_tmin))%Q s);
    Ok (Some r).

(** GeneralUniformityMetric.run, cadence_metrics.py:134-152.  Note line 149: the shifted values are divided
    by [max_value].  [None] is the nan/inf that numpy gives when max_value is 0.  Sorting before scaling is
    only the same for a positive divisor, so the scaled values are sorted as in the code. *)
Fixpoint qinsert (x : Q) (l : list Q) : list Q :=
  match l with [] => [x] | h :: t => if Qle_bool x h then x :: l else h :: qinsert x t end.
Definition qsort (l : list Q) : list Q := fold_right qinsert [] l.

Definition general_uniformity_run (min_value max_value : option Z) (col : list Z) : result (option Q) :=
  match col with
  | [] => Err ValueError
  | [_] => Ok (Some 1%Q)
  | _ =>
    let mn := match min_value with None => zmin col | Some m => m end in
    let mx := match max_value with None => zmax col | Some m => m end in
    if mx =? 0 then Ok None
    else
      let scaled := qsort (map (fun x => inject_Z (x - mn) / inject_Z mx)%Q col) in
      let n := length scaled in
      Ok (Some (qmaxl (map (fun p => Qabs (nfrac (fst p) (n - 1) - snd p)) (combine (seq 0 n) scaled))))
  end.

(** * simple_metrics.py *)

(** FracAboveMetric.run, simple_metrics.py:369-373, and FracBelowMetric.run, 386-390: numerator and
    denominator before the multiplication by [scale] *)
Definition frac_above_run (cutoff : Z) (col : list Z) : nat * nat :=
  (length (filter (fun x => cutoff <=? x) col), length col).
Definition frac_below_run (cutoff : Z) (col : list Z) : nat * nat :=
  (length (filter (fun x => x <=? cutoff) col), length col).

(** CountUniqueMetric 191-195, UniqueRatioMetric 198-205 (numerator and denominator), CountMetric 215-216,
    CountSubsetMetric 277-279 *)
Definition count_unique_run (col : list Z) : nat := length (np_unique col).
Definition unique_ratio_run (col : list Z) : nat * nat := (length (np_unique col), length col).
Definition count_run (col : list Z) : nat := length col.
Definition count_subset_run (subset : Z) (col : list Z) : nat := length (filter (fun x => x =? subset) col).

(** CountBeyondThreshold.run, simple_metrics.py:292-309.  With both thresholds the Python [and] takes the
    truth value of the first boolean array: ValueError unless it has exactly one element.  (For an empty
    array numpy's answer depends on its version; the theorems exclude it.) *)
Definition count_beyond_run (lower upper : option Z) (col : list Z) : result nat :=
  match lower, upper with
  | None, None => Ok (length col)
  | Some lo, None => Ok (length (filter (fun x => lo <? x) col))
  | None, Some up => Ok (length (filter (fun x => x <? up) col))
  | Some lo, Some up =>
    match col with
    | [x] => Ok (if (lo <? x) && (x <? up) then 1%nat else 0%nat)
    | [] => Ok 0%nat
    | _ => Err ValueError
    end
  end.

(** _rotate_angles, simple_metrics.py:433-455; [turn] is two pi in ticks.  [last_max_index] is
    [np.where(diffangles == diffangles.max())[0][-1]]. *)
Fixpoint last_index (P : Z -> bool) (l : list Z) (i : nat) : option nat :=
  match l with
  | [] => None
  | h :: t => match last_index P t (S i) with
              | Some j => Some j
              | None => if P h then Some i else None
              end
  end.
Definition rotate_angles (turn : Z) (angles : list Z) : result (Z * list Z) :=
  let s := zsort angles in
  match s with
  | [] => Err IndexError
  | first :: _ =>
    let last := nth (length s - 1) s 0 in
    let start_to_end := turn - last + first in
    if start_to_end <? - turn then Err ValueError
    else
      let diffangles := diff s ++ [start_to_end] in
      match last_index (fun d => d =? zmax diffangles) diffangles 0 with
      | None => Err ValueError
      | Some maxdiff =>
        let rotation := if (maxdiff =? length angles - 1)%nat then first else nth (S maxdiff) s 0 in
        Ok (rotation, map (fun a => (a - rotation) mod turn) angles)
      end
  end.
(** FullRangeAngleMetric.run, simple_metrics.py:502-504 *)
Definition full_range_angle_run (turn : Z) (angles : list Z) : result Z :=
  do ra <- rotate_angles turn angles;
  Ok (zmax (snd ra) - zmin (snd ra)).

(** * summary_metrics.py *)

(** [l[-k:]] : the last k elements, the whole list for k = 0 *)
Definition pylast (l : list Z) (k : nat) : list Z :=
  match k with O => l | _ => skipn (length l - k) l end.

(** [np.median] of a sorted non-empty array, doubled: the sum of the two middle elements *)
Definition median2 (s : list Z) : Z := nth ((length s - 1) / 2) s 0 + nth (length s / 2) s 0.

(** FONv.__init__, summary_metrics.py:76: [int(np.ceil(asky / scale))] *)
Definition npix_asky (asky scale : Q) : nat := Z.to_nat (Qceiling (asky / scale)).

(** FONv.run, summary_metrics.py:82-99 without [norm]: (twice the median, minimum), [None] for badval *)
Definition fonv_run (npix : nat) (col : list Z) : result (option (Z * Z)) :=
  if (length col <? npix)%nat then Ok None
  else
    let nvis_sorted := zsort col in
    let nvis_asky := pylast nvis_sorted npix in
    match nvis_asky with
    | [] => Err ValueError
    | _ => Ok (Some (median2 nvis_asky, zmin nvis_asky))
    end.

(** FOArea.run, summary_metrics.py:140-150 without [norm]: the number of pixels that is multiplied by the
    pixel area; [None] for badval *)
Definition foarea_run (nvisit : Z) (col : list Z) : option nat :=
  let nvis_min := filter (fun x => nvisit <=? x) (zsort col) in
  match nvis_min with [] => None | _ => Some (length nvis_min) end.
