(** What is claimed about the Galactic plane, structure function and supernova metrics, without the model's helpers. *)
From Coq Require Import String Reals ZArith List.
Import ListNotations.
Open Scope R_scope.

(** the number of elements with a property *)
Inductive CountP {A} (P : A -> Prop) : list A -> nat -> Prop :=
| CP_nil : CountP P [] 0
| CP_in : forall x t n, P x -> CountP P t n -> CountP P (x :: t) (S n)
| CP_out : forall x t n, ~ P x -> CountP P t n -> CountP P (x :: t) n.
(** the sum of a number over the elements with a property *)
Inductive SumP {A} (P : A -> Prop) (f : A -> R -> Prop) : list A -> R -> Prop :=
| SP_nil : SumP P f [] 0
| SP_in : forall x t w s, P x -> f x w -> SumP P f t s -> SumP P f (x :: t) (w + s)
| SP_out : forall x t s, ~ P x -> SumP P f t s -> SumP P f (x :: t) s.
(** the arithmetic mean *)
Definition Average (l : list R) (m : R) : Prop := l <> [] /\ m * INR (length l) = fold_right Rplus 0 l.
(** neighbours of a list *)
Definition Neighbours {A} (l : list A) (a b : A) : Prop := exists k, nth_error l k = Some a /\ nth_error l (S k) = Some b.
