(** Notions used to state the properties of the technical metrics, independent of the model's helpers. *)
From Verif Require Import Base Technical_Model.
From Coq Require Import QArith Permutation Sorted.
Open Scope Z_scope.

(** a possible result of sorting the visits by time *)
Definition by_time (a b : svisit) : Prop := s_time a <= s_time b.
Definition time_order (order : list svisit -> list svisit) : Prop :=
  forall l, Permutation (order l) l /\ StronglySorted by_time (order l).
Definition no_visit : svisit := {| s_time := 0; s_state := "" |}.
(** positions of visits of a list whose state differs from that of the next one *)
Definition change_positions (l : list svisit) : list nat :=
  filter (fun i => negb (String.eqb (s_state (nth i l no_visit)) (s_state (nth (S i) l no_visit)))) (seq 0 (length l - 1)).
(** the times of the visits after those changes *)
Definition changes (l : list svisit) : list Z := map (fun i => s_time (nth (S i) l no_visit)) (change_positions l).
(** [x] and [y] follow each other in [l] *)
Definition successive {A} (x y : A) (l : list A) : Prop := exists i, nth_error l i = Some x /\ nth_error l (S i) = Some y.
(** number of elements with a property *)
Definition count {A} (p : A -> bool) (l : list A) : nat := length (filter p l).
(** number of successive pairs with a property *)
Fixpoint count_pairs {A} (p : A -> A -> bool) (l : list A) : nat :=
  match l with a :: ((b :: _) as t) => (if p a b then 1 else 0) + count_pairs p t | _ => 0 end%nat.
(** nights that follow each other in a set of nights *)
Definition next_night (nights : list Z) (a b : Z) : Prop :=
  In a nights /\ In b nights /\ a < b /\ forall c, In c nights -> c <= a \/ b <= c.

(** visits that are followed by another within the gap *)
Fixpoint followed (maxgap : Z) (l : list ovis) : list ovis :=
  match l with
  | a :: ((b :: _) as t) => if o_mjd b - o_mjd a <? maxgap then a :: followed maxgap t else followed maxgap t
  | _ => []
  end.
(** texts of one or more decimal digits *)
Definition digit_text (q : string) : Prop :=
  q <> ""%string /\ forall i c, String.get i q = Some c -> (48 <= Ascii.nat_of_ascii c <= 57)%nat.
(** number of occurrences of a text *)
Definition occurrences (s : string) (l : list string) : Z := Z.of_nat (count (String.eqb s) l).
