(** What a user of the maps expects, stated without the model. *)
From Coq Require Import String Reals ZArith List.
Import ListNotations.
Open Scope R_scope.

(** the states that a sequence of calls can lead to *)
Inductive Reached {S C : Type} (step : S -> C -> S) (s0 : S) : S -> Prop :=
| Start : Reached step s0 s0
| Next s c : Reached step s0 s -> Reached step s0 (step s c).

(** [out] are the entries of [m] at the numbers [ix] *)
Definition ValuesAt {A} (m : list A) (ix : list nat) (out : list A) : Prop := Forall2 (fun i x => nth_error m i = Some x) ix out.
(** [v] is the sum of the entries of [m] with these weights *)
Inductive WSum (m : list R) : list (nat * R) -> R -> Prop :=
| WNil : WSum m [] 0
| WCons i w x ws v : nth_error m i = Some x -> WSum m ws v -> WSum m ((i, w) :: ws) (w * x + v).
(** weights of an interpolation *)
Inductive Sum : list R -> R -> Prop := SNil : Sum [] 0 | SCons x l s : Sum l s -> Sum (x :: l) (x + s).
Definition Weights (ws : list (nat * R)) : Prop := Forall (fun w => 0 <= snd w) ws /\ Sum (map snd ws) 1.

(** [i] is the number of the entry nearest to [goal], the first one if several are as near *)
Definition FirstNearest (x : list R) (goal : R) (i : nat) : Prop :=
  exists a, nth_error x i = Some a
    /\ (forall j b, nth_error x j = Some b -> Rabs (a - goal) <= Rabs (b - goal))
    /\ (forall j b, (j < i)%nat -> nth_error x j = Some b -> Rabs (a - goal) < Rabs (b - goal)).

(** by how many magnitudes an object at a distance of [d] pc looks fainter, behind an extinction of [a] magnitudes *)
Definition Dimming (d a m : R) : Prop := m = 5 * (ln d / ln 10) - 5 + a.
(** no text [a ++ pre ++ b] *)
Definition Without (pre s : string) : Prop := forall a b, s <> (a ++ pre ++ b)%string.
