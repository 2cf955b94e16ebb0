(** What spatial slicers are to do, without the model's helpers. *)
From Coq Require Import Reals.
From Verif Require Import Base Spatial_Model DirectObs_Spec.
Open Scope R_scope.

(** a column of angles in degrees *)
Definition in_degrees (deg : bool) (x : R) : R := if deg then x else x * 180 / PI.
(** visit k, as the columns have it, is within a circle around a position (degrees) *)
Definition in_circle (deg : bool) (radius ra dec : R) (lon lat : list R) (k : nat) : bool :=
  if Rle_dec (great_circle (in_degrees deg (nth k lon 0)) (in_degrees deg (nth k lat 0)) ra dec) radius then true else false.
(** and its footprint covers the position; the footprint works with radians *)
Definition rad (x : R) : R := x * PI / 180.
Definition in_footprint (cam : R -> R -> R -> R -> R -> bool) (deg : bool) (ra dec : R) (lon lat rot : list R) (k : nat) : bool :=
  cam (rad ra) (rad dec) (rad (in_degrees deg (nth k lon 0))) (rad (in_degrees deg (nth k lat 0))) (rad (in_degrees deg (nth k rot 0))).
(** a map adds information, but leaves what there is *)
Definition adds (m : points -> result points) : Prop :=
  forall p q, m p = Ok q -> forall k v, dget String.eqb p k = Some v -> dget String.eqb q k = Some v.
Definition adds_key (k : string) (e : entry) (p : points) : result points := Ok (dset String.eqb p k e).
