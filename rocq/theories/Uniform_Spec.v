(** What is claimed about the uniformity of the self-calibration, without the model's helpers. *)
From Coq Require Import Reals ZArith List Permutation Sorted.
From Verif Require Import Template_Spec Plane_Spec.
Import ListNotations.
Open Scope R_scope.

(** the order of an array: all places, the values not decreasing *)
Definition Argsort (a : list Z) (st : list nat) : Prop :=
  Permutation st (seq 0 (length a)) /\ StronglySorted Z.le (map (fun i => nth i a 0%Z) st).
(** the middle value *)
Definition Median (l : list R) (m : R) : Prop := Percentile 50 l m.
(** the robust scatter: the median of the distances to the median, over the quantile of the normal distribution *)
Definition Scatter (q : R) (l : list R) (s : R) : Prop :=
  exists m d, Median l m /\ Median (map (fun x => Rabs (x - m)) l) d /\ s = d / q.
