(** Model of the metrics about gaps between visits:
    rubin_sim/maf/metrics/{tgaps,cadence_metrics,visit_groups_metric,season_metrics}.py.
    Times are [Z] ticks (float rounding of sums and differences is not modelled), nights are [Z].
    [None] stands for [self.badval] (a masked value). *)
From Verif Require Import Base Slicer_Model.
Open Scope Z_scope.

(** * numpy primitives *)

(** [np.diff] *)
Fixpoint diff (l : list Z) : list Z :=
  match l with
  | a :: t => match t with b :: _ => (b - a) :: diff t | [] => [] end
  | [] => []
  end.

(** [np.roll(l, i)] for 0 <= i <= len(l) *)
Definition roll (l : list Z) (i : nat) : list Z :=
  skipn (length l - i) l ++ firstn (length l - i) l.

(** elementwise [a - b] of two arrays of equal length *)
Definition zsub (a b : list Z) : list Z := map (fun p => fst p - snd p) (combine a b).

(** [np.searchsorted(s, v, "right")] on a sorted array: the first position whose element is > v *)
Fixpoint ssr (s : list Z) (v : Z) : nat :=
  match s with
  | [] => O
  | h :: t => if v <? h then O else S (ssr t v)
  end.

(** [np.unique]: sorted, without repetitions *)
Fixpoint uinsert (x : Z) (l : list Z) : list Z :=
  match l with
  | [] => [x]
  | h :: t => if x <? h then x :: l else if x =? h then l else h :: uinsert x t
  end.
Fixpoint np_unique (l : list Z) : list Z :=
  match l with [] => [] | h :: t => uinsert h (np_unique t) end.

(** differences of consecutive cumulative counts *)
Fixpoint ndiff (l : list nat) : list nat :=
  match l with
  | a :: t => match t with b :: _ => (b - a)%nat :: ndiff t | [] => [] end
  | [] => []
  end.

Fixpoint monotone (l : list Z) : bool :=
  match l with
  | a :: t => match t with b :: _ => (a <=? b) && monotone t | [] => true end
  | [] => true
  end.

(** [np.histogram(a, bins)] with explicit bin edges: ValueError unless the edges increase monotonically;
    cumulative counts by searchsorted, "left" for all edges but the last one and "right" for the last. *)
Definition np_histogram (a bins : list Z) : result (list nat) :=
  if monotone bins then
    let sa := zsort a in
    let cum := map (ssl sa) (removelast bins) ++ map (ssr sa) (skipn (length bins - 1) bins) in
    Ok (ndiff cum)
  else Err ValueError.

(** [np.concatenate]: ValueError for an empty list of arrays *)
Definition np_concatenate (ls : list (list Z)) : result (list Z) :=
  match ls with [] => Err ValueError | _ => Ok (concat ls) end.

(** * tgaps.py *)

(** tgaps.py:113-117 (and 185-189, 247-251): [(times - np.roll(times, i))[i:]] for i = 1 .. size-1 *)
Definition all_diffs (times : list Z) : list (list Z) :=
  map (fun i => skipn i (zsub times (roll times i))) (seq 1 (length times - 1)).

(** tgaps.py:113-120: the time gaps of sorted times *)
Definition gap_list (all_gaps : bool) (times : list Z) : result (list Z) :=
  if all_gaps then np_concatenate (all_diffs times) else Ok (diff times).

(** TgapsMetric.run, tgaps.py:109-122 *)
Definition tgaps_run (all_gaps : bool) (bins col : list Z) : result (option (list nat)) :=
  if (length col <? 2)%nat then Ok None
  else do dts <- gap_list all_gaps (zsort col);
       do h <- np_histogram dts bins;
       Ok (Some h).

(** TgapsPercentMetric.run, tgaps.py:181-194: the numerator and denominator of the fraction that is
    then multiplied by 100 (the constructor asserts min_time <= max_time, line 176) *)
Definition tgaps_percent_run (all_gaps : bool) (min_time max_time : Z) (col : list Z) : result (option (nat * nat)) :=
  if (length col <? 2)%nat then Ok None
  else do dts <- gap_list all_gaps (zsort col);
       Ok (Some (length (filter (fun d => (min_time <=? d) && (d <=? max_time)) dts), length dts)).

(** NightgapsMetric.run, tgaps.py:243-256 *)
Definition nightgaps_run (all_gaps : bool) (bins col : list Z) : result (option (list nat)) :=
  if (length col <? 2)%nat then Ok None
  else do dts <- gap_list all_gaps (zsort (np_unique col));
       do h <- np_histogram dts bins;
       Ok (Some h).

(** NVisitsPerNightMetric.run, tgaps.py:289-292 ([np.unique] with counts) *)
Definition visits_per_night (col : list Z) : list Z :=
  map (fun n => Z.of_nat (length (filter (Z.eqb n) col))) (np_unique col).
Definition nvisits_per_night_run (bins col : list Z) : result (list nat) :=
  np_histogram (visits_per_night col) bins.

(** MaxGapMetric.run, tgaps.py:362-368 *)
Definition max_gap_run (col : list Z) : option Z :=
  let gaps := diff (zsort col) in
  match gaps with [] => None | _ => Some (zmax gaps) end.

(** * visit_groups_metric.py *)

(** PairFractionMetric.run, visit_groups_metric.py:44-68: which (sorted) times count as paired *)
Definition pair_flags (min_gap max_gap : Z) (times : list Z) : list bool :=
  map (fun t =>
         negb (ssl times (t + max_gap) =? ssl times (t + min_gap))%nat
         || negb (ssl times (t - max_gap) =? ssl times (t - min_gap))%nat) times.

(** numerator and denominator of the returned fraction; the division by [float(nobs)] raises
    ZeroDivisionError for an empty slice *)
Definition pair_fraction (min_gap max_gap : Z) (col : list Z) : result (nat * nat) :=
  let times := zsort col in
  match length col with
  | O => Err ZeroDivisionError
  | n => Ok (length (filter (fun b => b) (pair_flags min_gap max_gap times)), n)
  end.

(** * cadence_metrics.py *)

(** One visit: start time and night. *)
Record visit := { mjd : Z; night : Z }.

(** IntraNightGapsMetric.run, cadence_metrics.py:313-323: the values handed to [reduce_func] (before the
    factor 24), [None] for badval.  [data] is the slice after [data_slice.sort(order=mjd)]. *)
Definition intra_night_gaps (data : list visit) : option (list Z) :=
  let dt := diff (map mjd data) in
  let dn := diff (map night data) in
  let good := filter (fun p => snd p =? 0) (combine dt dn) in
  match good with [] => None | _ => Some (map fst good) end.

(** InterNightGapsMetric.run, cadence_metrics.py:352-363: the values handed to [reduce_func].
    searchsorted is used on the night column of the time-sorted slice. *)
Definition inter_night_gaps (data : list visit) : option (list Z) :=
  let nights := map night data in
  let times := map mjd data in
  let unights := np_unique nights in
  if (length unights <? 2)%nat then None
  else
    let first_of_night := map (ssl nights) unights in
    let last_of_night := map (fun n => (ssr nights n - 1)%nat) unights in
    Some (map (fun fl => nth (fst fl) times 0 - nth (snd fl) times 0)
              (combine (tl first_of_night) (removelast last_of_night))).

(** VisitGapMetric.run, cadence_metrics.py:396-400: the values handed to [reduce_func] *)
Definition visit_gaps (data : list visit) : list Z := diff (map mjd data).

(** TemplateExistsMetric.run, cadence_metrics.py:53-64, on the seeing column of the slice after the
    sort by time: numerator and denominator of the fraction. *)
Fixpoint min_accumulate_from (m : Z) (l : list Z) : list Z :=
  match l with
  | [] => []
  | h :: t => Z.min m h :: min_accumulate_from (Z.min m h) t
  end.
(** [np.minimum.accumulate] *)
Definition min_accumulate (l : list Z) : list Z :=
  match l with [] => [] | h :: t => h :: min_accumulate_from h t end.
Definition template_exists_run (seeing : list Z) : nat * nat :=
  let seeing_mins := min_accumulate seeing in
  let seeing_diff := zsub seeing (roll seeing_mins 1) in
  (length (filter (fun d => 0 <=? d) (tl seeing_diff)), length seeing).

(** * season_metrics.py *)

(** find_season_edges, season_metrics.py:22-42.  Seasons are ticks, [unit] ticks make one season. *)
Definition find_season_edges (unit : Z) (seasons : list Z) : list nat * list nat :=
  let int_seasons := map (fun s => s / unit) seasons in
  let season_list := np_unique int_seasons in
  (map (ssl int_seasons) season_list, map (fun s => (ssr int_seasons s - 1)%nat) season_list).

(** SeasonLengthMetric.run, season_metrics.py:91-95: season lengths of the time-ordered visits *)
Definition season_lengths (unit : Z) (seasons times : list Z) : list Z :=
  let (firsts, lasts) := find_season_edges unit seasons in
  map (fun fl => nth (snd fl) times 0 - nth (fst fl) times 0) (combine firsts lasts).
