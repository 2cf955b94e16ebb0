(** Vocabulary for the statements about statistics metrics. *)
From Verif Require Import Base GapMetrics_Spec.
From Coq Require Import QArith Permutation.
Open Scope Z_scope.

(** the dates lie inside a survey of the given length that starts at the first visit *)
Definition inside_survey (survey : Z) (col : list Z) : Prop :=
  forall x y, In x col -> In y col -> x - y <= survey.

(** [s] is [col] in increasing order and its k-th element is lo + k * step *)
Definition evenly_spaced (lo step : Z) (s : list Z) : Prop :=
  forall k x, nth_error s k = Some x -> x = lo + Z.of_nat k * step.

(** all angles lie on the arc of length [r] that starts at angle [a] *)
Definition on_arc (turn a r : Z) (angles : list Z) : Prop :=
  forall x, In x angles -> (x - a) mod turn <= r.

(** [top] are [k] of the best pixels of [col] *)
Definition best_pixels (k : nat) (col top : list Z) : Prop :=
  length top = k /\ exists rest, Permutation (top ++ rest) col /\
  forall x y, In x top -> In y rest -> y <= x.

(** [m2] is twice the median of [l]: the sum of the two middle elements in increasing order *)
Definition twice_median (l : list Z) (m2 : Z) : Prop :=
  forall s, time_ordered l s -> exists a b,
    nth_error s ((length l - 1) / 2) = Some a /\ nth_error s (length l / 2) = Some b /\ m2 = a + b.
