(** What a user expects of the metrics about crowding, counts, parallaxes and windows, stated without the model. *)
From Coq Require Import String Reals ZArith List.
Import ListNotations.
Open Scope R_scope.

Definition Sum (l : list R) : R := fold_right Rplus 0 l.
(** never decreasing *)
Definition Rising (l : list R) : Prop :=
  forall i j x y, (i <= j)%nat -> nth_error l i = Some x -> nth_error l j = Some y -> x <= y.
(** [d] are the steps from each entry of [l] to the next *)
Definition Steps (l d : list R) : Prop :=
  length d = Nat.pred (length l) /\
  forall k a b, nth_error l k = Some a -> nth_error l (S k) = Some b -> nth_error d k = Some (b - a).
(** the light, in units of that of a star of magnitude [m], summed in squares over the stars of the bins *)
Definition Light (m : R) (mags counts : list R) : R :=
  Sum (map (fun p => snd p * Rpower 10 (8/10 * (m - fst p))) (combine mags counts)).
(** Olsen, Blum & Rigaut: the crowding error at the [i]-th magnitude of a luminosity function per square degree *)
Definition Crowding (seeing : R) (mags counts : list R) (i : nat) (e : R) : Prop :=
  exists m, nth_error mags i = Some m /\
    e = sqrt PI / 3600 * (seeing / 2) * sqrt (Light m (skipn i mags) (skipn i counts)).
(** the smallest of a list *)
Definition Least (l : list R) (x : R) : Prop := In x l /\ forall y, In y l -> x <= y.
Definition Greatest (l : list R) (x : R) : Prop := In x l /\ forall y, In y l -> y <= x.
(** [s] begins with [p] *)
Definition Begins (p s : string) : Prop := exists t, s = (p ++ t)%string.
(** the sum of the entries of a table in the rows and columns of a rectangle *)
Definition Box (table : list (list R)) (r0 r1 c0 c1 : nat) : R :=
  Sum (map (fun i => Sum (map (fun j => nth j (nth i table []) 0) (seq c0 (c1 - c0)))) (seq r0 (r1 - r0))).
(** [x] is the entry of [l] nearest to [t] *)
Definition Nearest (l : list R) (t x : R) : Prop := In x l /\ forall y, In y l -> Rabs (t - x) <= Rabs (t - y).
