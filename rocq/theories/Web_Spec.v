(** What is claimed about the pages about a MAF run and the helpers of the batches, without the model's helpers. *)
From Coq Require Import String Ascii ZArith List.
Import ListNotations.
Open Scope Z_scope.

(** texts in the order of their characters' codes *)
Definition Code (c : ascii) : nat := nat_of_ascii c.
Inductive TextLt : string -> string -> Prop :=
| TL_end : forall c t, TextLt EmptyString (String c t)
| TL_here : forall c d s t, (Code c < Code d)%nat -> TextLt (String c s) (String d t)
| TL_later : forall c s t, TextLt s t -> TextLt (String c s) (String c t).
(** every element is related to those after it *)
Definition InOrder {A} (R : A -> A -> Prop) (l : list A) : Prop := forall i j x y, (i < j)%nat -> nth_error l i = Some x -> nth_error l j = Some y -> R x y.
(** exactly the elements of [l] with [P], in the same order *)
Inductive Keeps {A} (P : A -> Prop) : list A -> list A -> Prop :=
| K_nil : Keeps P [] []
| K_yes : forall x l o, P x -> Keeps P l o -> Keeps P (x :: l) (x :: o)
| K_no : forall x l o, ~ P x -> Keeps P l o -> Keeps P (x :: l) o.
(** decided by the first pair of keys that differ: each with what it means to be less and to be equal *)
Fixpoint Lex (l : list (Prop * Prop)) : Prop := match l with [] => False | (less, same) :: t => less \/ (same /\ Lex t) end.
Definition ByText {A} (f : A -> string) (x y : A) : Prop * Prop := (TextLt (f x) (f y), f x = f y).
Definition ByNumber {A} (f : A -> Z) (x y : A) : Prop * Prop := (f x < f y, f x = f y).
(** a text in small letters *)
Definition Small (c d : ascii) : Prop := ((65 <= Code c <= 90)%nat /\ Code d = (Code c + 32)%nat) \/ (~ (65 <= Code c <= 90)%nat /\ d = c).
Definition Smalls (s t : string) : Prop := Forall2 Small (list_ascii_of_string s) (list_ascii_of_string t).
(** no character of a text is [c] *)
Definition Lacks (c : ascii) (s : string) : Prop := forall a b, s <> (a ++ String c b)%string.
(** [w] is somewhere in [s] *)
Definition Inside (w s : string) : Prop := exists a b, s = (a ++ w ++ b)%string.
(** the position of the first occurrence *)
Definition FirstAt {A} (P : A -> Prop) (l : list A) (x : A) : Prop := exists k, nth_error l k = Some x /\ P x /\ forall j y, (j < k)%nat -> nth_error l j = Some y -> ~ P y.
(** first what is in [order], in that order, then the rest by the alphabet *)
Definition Ranked (order : list string) (x y : string) : Prop :=
  (exists i j, (i < j)%nat /\ nth_error order i = Some x /\ nth_error order j = Some y) \/ (In x order /\ ~ In y order) \/
  (~ In x order /\ ~ In y order /\ TextLt x y).
(** a file in a directory, unless its name starts at the root *)
Definition FileIn (dir file path : string) : Prop :=
  (exists r, file = ("/" ++ r)%string /\ path = file) \/ ((forall r, file <> ("/" ++ r)%string) /\ path = (dir ++ "/" ++ file)%string).
(** a text sent by a form, in which a blank may have become a plus *)
Definition Sent1 (c d : ascii) : Prop := (c = " "%char /\ (d = " "%char \/ d = "+"%char)) \/ (c <> " "%char /\ c <> "+"%char /\ d = c).
Definition Sent (s t : string) : Prop := Forall2 Sent1 (list_ascii_of_string s) (list_ascii_of_string t).
(** the word NULL in small or capital letters *)
Definition IsNull (s : string) : Prop := exists a b c d, list_ascii_of_string s = [a; b; c; d] /\ (a = "N" \/ a = "n")%char /\ (b = "U" \/ b = "u")%char /\ (c = "L" \/ c = "l")%char /\ (d = "L" \/ d = "l")%char.
