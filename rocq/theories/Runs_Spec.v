(** What is claimed about the comparison of runs, without the model's helpers. *)
From Coq Require Import String Reals ZArith List.
Import ListNotations.
Open Scope R_scope.

(** the cell at row [i] and column [j] of a table *)
Definition At {A} (cells : list (list A)) (i j : nat) (v : A) : Prop := exists row, nth_error cells i = Some row /\ nth_error row j = Some v.
(** the value of run [r] and metric [m] in a table in which labels may be repeated: the first number in the first row that has one *)
Definition Stands (index cols : list string) (cells : list (list (option R))) (r m : string) (v : option R) : Prop :=
  match v with
  | Some x => exists i j, nth_error index i = Some r /\ nth_error cols j = Some m /\ At cells i j (Some x)
              /\ (forall j', (j' < j)%nat -> nth_error cols j' = Some m -> forall v', At cells i j' v' -> v' = None)
              /\ (forall i', (i' < i)%nat -> nth_error index i' = Some r -> forall j' v', nth_error cols j' = Some m -> At cells i' j' v' -> v' = None)
  | None => forall i j v', nth_error index i = Some r -> nth_error cols j = Some m -> At cells i j v' -> v' = None
  end.
(** a value [x] compared with [b]: a ratio, an inverted ratio, a difference of magnitudes or an inverted difference; [None] when there is no finite answer *)
Definition Compared (invert mag : bool) (b x v : option R) : Prop :=
  match b, x with
  | Some b, Some x =>
      match invert, mag with
      | false, false => (b = 0 -> v = None) /\ (b <> 0 -> v = Some (x / b))
      | true, false => (b = 0 \/ x = 0 -> v = None) /\ (b <> 0 -> x <> 0 -> v = Some (b / x))
      | false, true => v = Some (1 + (x - b))
      | true, true => v = Some (1 - (x - b))
      end
  | _, _ => v = None
  end.
(** the sublist of elements with a property, in order *)
Inductive Sub {A} (P : A -> Prop) : list A -> list A -> Prop :=
| Sub_nil : Sub P [] []
| Sub_in : forall x t s, P x -> Sub P t s -> Sub P (x :: t) (x :: s)
| Sub_out : forall x t s, ~ P x -> Sub P t s -> Sub P (x :: t) s.
(** the position of the last occurrence *)
Definition LastAt {A} (l : list A) (x : A) (k : nat) : Prop := nth_error l k = Some x /\ forall j, (k < j)%nat -> nth_error l j <> Some x.
(** the first row about [m] in a list of metrics with their flags *)
Definition FlagsAre (subsets : list (string * (bool * bool))) (m : string) (fl : bool * bool) : Prop :=
  exists k, nth_error subsets k = Some (m, fl) /\ forall j fl', (j < k)%nat -> nth_error subsets j <> Some (m, fl').
(** the names of the two axes are those of a table of runs (rows) by metrics (columns) *)
Definition Labelled (rows cols : option string) : Prop :=
  (cols = None \/ cols = Some "metric"%string) /\ (rows = None \/ rows = Some "run"%string \/ rows = Some "OpsimRun"%string \/ rows = Some "run_name"%string).
