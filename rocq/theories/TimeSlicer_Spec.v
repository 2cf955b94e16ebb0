(** Vocabulary for the time interval slicers. *)
From Verif Require Import Base TimeSlicer_Model.

(** visit [v] is among the indices delivered for a slice *)
Definition delivered (x : idxs_value) (v : nat) : Prop := exists l, x = Visits l /\ In v l.
