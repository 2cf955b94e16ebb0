(** Model of the vector metrics of rubin_sim/maf/metrics/vector_metrics.py that need no real numbers.
    Bin values (nights) and bin edges are [Z] ticks. *)
From Verif Require Import Base Slicer_Model GapMetrics_Model StatMetrics_Model.
From Coq Require Import QArith Qabs Qminmax.
Open Scope Z_scope.

(** * vector_metrics.py *)
(** [ufunc.accumulate] *)
Fixpoint accumulate_from {A} (op : A -> A -> A) (acc : A) (l : list A) : list A :=
  match l with [] => [] | h :: t => op acc h :: accumulate_from op (op acc h) t end.
Definition accumulate {A} (op : A -> A -> A) (l : list A) : list A :=
  match l with [] => [] | h :: t => h :: accumulate_from op h t end.

(** AccumulateMetric.run, vector_metrics.py:79-88: [data] are (bin value, column value) of the slice after the
    sort by [bin_col]; [bins] the bin edges.  [None] is badval.  For an empty slice [result[indices]] raises
    IndexError (unless there are no bins). *)
Definition accumulate_run {A} (op : A -> A -> A) (bins : list Z) (data : list (Z * A)) : result (list (option A)) :=
  let result := accumulate op (map snd data) in
  let indices := map (ssr (map fst data)) (tl bins) in
  match result with
  | [] => match indices with [] => Ok [] | _ => Err IndexError end
  | d :: _ =>
      let clip := map (fun i => if (length result <=? i)%nat then (length result - 1)%nat else i) indices in
      Ok (map (fun i => if (i =? 0)%nat then None else Some (nth i result d)) clip)
  end.
(** AccumulateCountMetric.run, vector_metrics.py:91-101 (with the default [function=np.add]) *)
Definition accumulate_count_run (bins : list Z) (nights : list Z) : result (list (option nat)) :=
  accumulate_run Nat.add bins (map (fun n => (n, 1%nat)) nights).

(** AccumulateUniformityMetric.run, vector_metrics.py:183-196.  [nights] is the sorted bin column of the slice.
    [None] in the list is numpy's nan/inf: with fewer than three edges the division by [bins.size - 2] is 0/0
    (two edges) or the array is empty and [max] raises ValueError; an empty slice gives 0/0. *)
Definition accumulate_uniformity_run (bins nights : list Z) : result (list (option Q)) :=
  let nb := (length bins - 1)%nat in
  match length nights with
  | 1%nat => Ok (repeat (Some 1%Q) nb)
  | n =>
      do h <- np_histogram nights bins;
      let visits_per_night := accumulate Nat.add h in
      match nb with
      | O => Err ValueError
      | S O => Ok [None]
      | S m =>
          match n with
          | O => Ok (repeat None nb)
          | _ =>
              let expected := map (fun j => (nfrac j m * inject_Z (Z.of_nat n))%Q) (seq 0 nb) in
              let d := map (fun p => Qabs (inject_Z (Z.of_nat (fst p)) - snd p)) (combine visits_per_night expected) in
              Ok (map (fun x => Some (x / qmaxl expected)%Q) (accumulate Qmax d))
          end
      end
  end.
