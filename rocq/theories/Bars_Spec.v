(** What is claimed about the plots of binned data, without the model's helpers. *)
From Coq Require Import Reals List.
Import ListNotations.
Open Scope R_scope.
(** the line of steps over the bins [ix]: from edge to edge at the height of the value *)
Definition Steps (bins : list R) (value : nat -> R) (ix : list nat) (x y : list R) : Prop :=
  x = concat (map (fun i => [nth i bins 0; nth (S i) bins 0]) ix) /\ y = concat (map (fun i => [value i; value i]) ix).
(** the bins below [n] for which [p] holds, in order *)
Definition Bins (n : nat) (p : nat -> Prop) (ix : list nat) : Prop :=
  (forall i, In i ix <-> (i < n)%nat /\ p i) /\ (forall a b i j, (a < b)%nat -> nth_error ix a = Some i -> nth_error ix b = Some j -> (i < j)%nat).
