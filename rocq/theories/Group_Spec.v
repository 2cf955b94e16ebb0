(** Vocabulary of the group and utility properties. *)
From Verif Require Import Base Group_Model.
From Coq Require Import QArith.
Open Scope Z_scope.

(** a stacker that only writes the columns it declares and keeps the rows *)
Definition only_writes (s : stack) (cols : list string) : Prop :=
  forall t, t_rows (k_run s false t) = t_rows t /\ forall c, ~ In c cols -> column (k_run s false t) c = column t c.
(** its columns are determined by the columns it reads *)
Definition determined_by (s : stack) (req : list string) : Prop :=
  forall t t', t_rows t = t_rows t' -> (forall c, In c req -> column t c = column t' c) ->
  forall c, In c (k_added s) -> column (k_run s false t) c = column (k_run s false t') c.
(** [mix a b l]: l consists of a and b, each in its own order *)
Inductive mix {A} : list A -> list A -> list A -> Prop :=
| mix_nil : mix [] [] []
| mix_left : forall x a b l, mix a b l -> mix (x :: a) b (x :: l)
| mix_right : forall x a b l, mix a b l -> mix a (x :: b) (x :: l).
(** each stacker of the list reads columns of [have] or of stackers before it *)
Fixpoint reads_ok (have : list string) (own : list (stack * list string)) : Prop :=
  match own with
  | [] => True
  | (s, req) :: rest => (forall c, In c req -> In c have) /\ reads_ok (k_added s ++ have) rest
  end.
(** rows of the data that lie between the two bounds *)
Definition retained (lo hi : Q) (l : list Q) : nat := length (filter (fun x => Qle_bool lo x && Qle_bool x hi)%bool l).
(** a filter name of one character *)
Definition one_char (f : string) : Prop := exists c, f = String c EmptyString.
