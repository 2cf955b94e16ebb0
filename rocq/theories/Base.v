(** Common vocabulary: Python exceptions as values and small list helpers that
    stand for numpy / dict primitives.  No proofs here. *)
From Coq Require Export String Arith ZArith Bool List.
Export ListNotations.

(** Python exceptions that the modelled code can raise. *)
Inductive exn :=
| NameError | KeyError | ValueError | IndexError | TypeError | AttributeError
| AssertionError | UnboundLocalError | ZeroDivisionError | OperationalError | PoolError | NotImplementedError
| RuntimeError | LinAlgError | EmptyDataError | OSError
| MetricRaised.                       (* whatever a metric's [run] raises *)

(** Outcome of a Python call: a value or an exception. *)
Inductive result (A : Type) :=
| Ok  (a : A)
| Err (e : exn).
Arguments Ok {A} a.
Arguments Err {A} e.

Definition bind {A B} (r : result A) (f : A -> result B) : result B :=
  match r with Ok a => f a | Err e => Err e end.
Notation "'do' x <- r ; k" := (bind r (fun x => k)) (at level 200, x pattern, r at level 100, k at level 200).

(** [arr[i] = x] for an in-range [i] (numpy item assignment); callers check the range. *)
Fixpoint set_nth {A} (l : list A) (i : nat) (x : A) : list A :=
  match l, i with
  | [], _ => []
  | _ :: t, O => x :: t
  | h :: t, S j => h :: set_nth t j x
  end.

(** numpy item assignment with the bounds check: [IndexError] when out of range. *)
Definition arr_set {A} (l : list A) (i : nat) (x : A) : result (list A) :=
  if Nat.ltb i (length l) then Ok (set_nth l i x) else Err IndexError.

(** numpy item read with the bounds check. *)
Definition arr_get {A} (l : list A) (i : nat) : result A :=
  match nth_error l i with Some x => Ok x | None => Err IndexError end.

(** Python dict as association list in insertion order: lookup, assignment
    (overwriting keeps the position, new keys go last), deletion. *)
Section Dict.
  Context {K V : Type} (keqb : K -> K -> bool).
  Fixpoint dget (d : list (K * V)) (k : K) : option V :=
    match d with
    | [] => None
    | (k', v) :: t => if keqb k k' then Some v else dget t k
    end.
  Fixpoint dset (d : list (K * V)) (k : K) (v : V) : list (K * V) :=
    match d with
    | [] => [(k, v)]
    | (k', v') :: t => if keqb k k' then (k', v) :: t else (k', v') :: dset t k v
    end.
  Fixpoint ddel (d : list (K * V)) (k : K) : list (K * V) :=
    match d with
    | [] => []
    | (k', v') :: t => if keqb k k' then t else (k', v') :: ddel t k
    end.
  Definition dmem (d : list (K * V)) (k : K) : bool :=
    match dget d k with Some _ => true | None => false end.
End Dict.
