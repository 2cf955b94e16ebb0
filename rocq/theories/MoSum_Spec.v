(** What the properties of the moving object summary metrics talk about, without the functions of the model. *)
From Verif Require Import Base.
From Coq Require Import QArith Qabs.
Open Scope Q_scope.

Definition at_ (l : list Q) (i : nat) : Q := nth i l 0.
(** Σ_{j <= i} g j *)
Fixpoint sum_to (g : nat -> Q) (i : nat) : Q := match i with O => g O | S k => sum_to g k + g (S k) end.
Definition increasing (l : list Q) : Prop := forall i j, (i < j < length l)%nat -> at_ l i < at_ l j.
Definition nondecreasing (l : list Q) : Prop := forall i j, (i <= j < length l)%nat -> at_ l i <= at_ l j.
Definition nonincreasing (l : list Q) : Prop := forall i j, (i <= j < length l)%nat -> at_ l j <= at_ l i.
Definition all_positive (l : list Q) : Prop := forall x, In x l -> 0 < x.
(** how many elements have a property *)
Inductive how_many {A} (P : A -> Prop) : list A -> nat -> Prop :=
  | hm_nil : how_many P [] 0
  | hm_yes x l n : P x -> how_many P l n -> how_many P (x :: l) (S n)
  | hm_no x l n : ~ P x -> how_many P l n -> how_many P (x :: l) n.
(** q is the fraction of the list that has a property *)
Definition fraction {A} (P : A -> Prop) (l : list A) (q : Q) : Prop :=
  exists n, how_many P l n /\ q * inject_Z (Z.of_nat (length l)) == inject_Z (Z.of_nat n).
(** the time of a discovery counts for time k of a list: from the first time on, and before time k, or at time k if it is the
    last one *)
Definition found_before (times : list Q) (k : nat) (v : option Q) : Prop :=
  exists x, v = Some x /\ (0 < k)%nat /\ at_ times 0 <= x /\ (x < at_ times k \/ (S k = length times /\ x == at_ times k)).
