(** What is claimed about the handler of plots, without the model's helpers. *)
From Coq Require Import String Ascii ZArith List.
Import ListNotations.
Open Scope string_scope.

(** no character of a text is [c] *)
Definition Lacks (c : ascii) (s : string) : Prop := forall a b, s <> a ++ String c b.
Definition Inside (w s : string) : Prop := exists a b, s = a ++ w ++ b.
(** a name made of parts *)
Definition Parts (sep : ascii) (s : string) (ps : list string) : Prop :=
  ps <> [] /\ s = String.concat (String sep "") ps /\ Forall (Lacks sep) ps.
(** the bands in the order of their wavelengths *)
Definition Bands : list string := ["u"; "g"; "r"; "i"; "z"; "y"].
(** the [n]th band is the last part of a name that stands for a band *)
Definition BandOf (root : string) (n : nat) : Prop :=
  exists before f after, Parts "_" root (before ++ f :: after) /\ nth_error Bands n = Some f /\ Forall (fun p => ~ In p (" " :: Bands)) after.
Definition NoBand (root : string) : Prop := exists ps, Parts "_" root ps /\ Forall (fun p => ~ In p (" " :: Bands)) ps.
(** the value of a key, by the source that comes first *)
Inductive FirstOf {V} : list (option V) -> option V -> Prop :=
| FO_none : FirstOf [] None
| FO_here : forall v l, FirstOf (Some v :: l) (Some v)
| FO_next : forall l o, FirstOf l o -> FirstOf (None :: l) o.
(** all have the same *)
Definition Shared {A B} (f : A -> B) (l : list A) (x : B) : Prop := l <> [] /\ forall a, In a l -> f a = x.
Definition Varies {A B} (f : A -> B) (l : list A) : Prop := exists a b, In a l /\ In b l /\ f a <> f b.
(** the elements of [order] that are in [l], in the order of the former *)
Inductive Selected {A} (l : list A) : list A -> list A -> Prop :=
| S_nil : Selected l [] []
| S_in : forall x o s, In x l -> Selected l o s -> Selected l (x :: o) (x :: s)
| S_out : forall x o s, ~ In x l -> Selected l o s -> Selected l (x :: o) s.
(** one word for the words at a position of several names: the word they share, or the bands *)
Definition Joint (ws : list string) (w : string) : Prop :=
  Shared (fun x => x) ws w \/ ((forall x, In x ws -> In x Bands) /\ exists sel, Selected ws Bands sel /\ w = String.concat "" sel).
(** the colours of the bands *)
Definition BandColours : list (string * string) := [("u", "cyan"); ("g", "g"); ("r", "y"); ("i", "r"); ("z", "m"); ("y", "k")].
