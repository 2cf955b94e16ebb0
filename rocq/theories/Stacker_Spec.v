(** Vocabulary of the stacker properties. *)
From Verif Require Import Base Stacker_Model.
From Coq Require Import QArith.
Open Scope Z_scope.

(** a column the metric, the slicer or one of the stackers of the final list reads *)
Definition needed (slicer_cols metric_cols : list string) (final : list sinst) (col : string) : Prop :=
  In col slicer_cols \/ In col metric_cols \/ exists s, In s final /\ In col (i_req s).
(** one of the stackers makes the column *)
Definition made_by (w : world) (l : list sinst) (col : string) : Prop :=
  exists s, In s l /\ In col (w_added w (i_class s)).
(** every stacker comes after one that makes the column it reads, whenever some stacker of the list makes it *)
Definition runs_after_inputs (w : world) (final : list sinst) : Prop :=
  forall before s after, final = before ++ s :: after ->
  forall col, In col (i_req s) -> made_by w final col -> made_by w before col.
(** the visit's sky alone is above saturation *)
Definition saturated (v : satvisit) : Prop := sv_remaining v < 0.
(** [sum_by f l] adds up f *)
Definition sum_by {A} (f : A -> Z) (l : list A) : Z := fold_right Z.add 0 (map f l).
