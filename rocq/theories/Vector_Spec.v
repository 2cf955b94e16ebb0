(** Vocabulary for the statements about vector metrics. *)
From Verif Require Import Base.
Open Scope Z_scope.

(** combination of all elements of a non-empty list from the left *)
Definition fold1 {A} (op : A -> A -> A) (l : list A) : option A :=
  match l with [] => None | h :: t => Some (fold_left op t h) end.

(** the visits at or before [e] *)
Definition upto {A} (e : Z) (data : list (Z * A)) : list (Z * A) := filter (fun v => fst v <=? e) data.
