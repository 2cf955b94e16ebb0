(** What is claimed about coordinates, labels, distances, depths, parameters and zero points, without the model's helpers. *)
From Coq Require Import String Ascii Reals ZArith List.
Import ListNotations.
Open Scope R_scope.

(** the altitude and azimuth (north through east) of the direction with hour angle [ha] and declination [dec] at latitude [lat]:
    the horizontal components of the unit vector *)
Definition Altitude (ha dec lat alt : R) : Prop :=
  - PI / 2 <= alt <= PI / 2 /\ sin alt = sin dec * sin lat + cos dec * cos lat * cos ha.
Definition Azimuth (ha dec lat alt az : R) : Prop :=
  0 <= az <= 2 * PI /\
  cos alt * cos az = sin dec * cos lat - cos dec * sin lat * cos ha /\      (* towards the north *)
  cos alt * sin az = - (cos dec * sin ha).                                  (* towards the east *)

(** [x] expresses the angle [angle] (radians) in the unit called [unit] *)
Definition InUnit (unit : string) (x angle : R) : Prop :=
  (unit = "radians"%string /\ x = angle) \/ (unit = "degrees"%string /\ x = angle * 180 / PI).

(** the text before the first comma *)
Definition Head (s h : string) : Prop :=
  (forall t, ~ (exists k, h = append t (String "," k))) /\ (s = h \/ exists rest, s = append h (String "," rest)).

(** the least element that satisfies [P] *)
Definition FirstWith (P : R -> Prop) (l : list R) (x : R) : Prop := In x l /\ P x /\ forall y, In y l -> P y -> x <= y.
(** distance between two points of the plane *)
Definition dist2 (p q : R * R) : R := (fst p - fst q) * (fst p - fst q) + (snd p - snd q) * (snd p - snd q).

(** the number of elements that satisfy a test *)
Inductive Count (P : nat -> Prop) : list nat -> nat -> Prop :=
| C_nil : Count P [] 0
| C_in : forall x t n, P x -> Count P t n -> Count P (x :: t) (S n)
| C_out : forall x t n, ~ P x -> Count P t n -> Count P (x :: t) n.
