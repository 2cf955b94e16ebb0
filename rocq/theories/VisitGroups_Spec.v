(** Notions used to state the properties of groups of visits, independent of the model's helpers. *)
From Verif Require Import Base Technical_Model Technical_Spec.
From Coq Require Import Permutation Sorted.
Open Scope Z_scope.

(** the times of a night in order *)
Definition in_order (times s : list Z) : Prop := Permutation s times /\ StronglySorted Z.le s.
Definition in_range (tmin tmax d : Z) : bool := (tmin <=? d) && (d <=? tmax).
(** the i-th visit is between tmin and tmax of the previous or of the next one *)
Definition paired (tmin tmax : Z) (s : list Z) (i : nat) : bool :=
  ((1 <=? i)%nat && in_range tmin tmax (nth i s 0 - nth (i - 1) s 0)) ||
  ((S i <? length s)%nat && in_range tmin tmax (nth (S i) s 0 - nth i s 0)).
(** number of visits that are, and number of successive visits closer than tmin *)
Definition paired_visits (tmin tmax : Z) (s : list Z) : Z := Z.of_nat (count (paired tmin tmax s) (seq 0 (length s))).
Definition close_pairs (tmin : Z) (s : list Z) : Z := Z.of_nat (count_pairs (fun a b => b - a <? tmin) s).
(** a metric value: recorded nights in order, with their half visits *)
Definition nights_ok (mv : list (Z * Z)) : Prop := StronglySorted Z.lt (map fst mv).
(** nights with enough visits in a range of nights [a, b) *)
Definition good_nights (min_visits a b : Z) (mv : list (Z * Z)) : list (Z * Z) :=
  filter (fun p => (a <=? fst p) && (fst p <? b) && (2 * min_visits <=? snd p)) mv.
(** a group of nights in the k-th lunation from night [n0]: enough nights with enough visits within some window *)
Definition group_in (window min_visits min_nights n0 k : Z) (mv : list (Z * Z)) : Prop :=
  exists a, min_nights <= Z.of_nat (length
    (filter (fun p => (n0 + 30 * k <=? fst p) && (fst p <? n0 + 30 * (k + 1))) (good_nights min_visits a (a + window) mv))).
(** lunations a, a+1, ..., a+len-1 all have a group *)
Definition run_of (P : Z -> Prop) (a len : Z) : Prop := 0 <= a /\ forall j, 0 <= j < len -> P (a + j).
(** names of reduce functions: "reduce_" and a rest in which "reduce_" does not occur again *)
Definition plain_reduce (m : string) : Prop := exists x, m = ("reduce_" ++ x)%string /\ forall p q, x <> (p ++ "reduce_" ++ q)%string.
