(** Vocabulary for the properties of segments. *)
From Verif Require Import Base ChebySeg_Model.
Open Scope Z_scope.

(** the events follow each other without gap or overlap from [a] to [b] *)
Fixpoint chain (a : Z) (l : list event) (b : Z) : Prop :=
  match l with [] => a = b | e :: r => e_start e = a /\ a < e_end e /\ chain (e_end e) r b end.
(** a table of coefficients in which the segments of an object are together, in the order of the objects *)
Definition table := list (Z * list segm).
Definition rows_of (t : table) : list segm := flat_map snd t.
Definition proper (t : table) : Prop := NoDup (map fst t) /\ forall g s, In g t -> In s (snd g) -> s_obj s = fst g.
(** all segments have a positive length and lie within [a, b], and these bounds are reached *)
Definition spans (tb : table) (a b : Z) : Prop :=
  (forall s, In s (rows_of tb) -> a <= s_t0 s /\ s_t0 s < s_t1 s /\ s_t1 s <= b) /\
  (exists s, In s (rows_of tb) /\ s_t0 s = a) /\ (exists s, In s (rows_of tb) /\ s_t1 s = b).
(** the segment that is to answer for the time [t]: it starts at or before it and ends after it; before the start of all segments
    it starts there, and from the end of all segments on it ends there *)
Definition answers (a b t : Z) (s : segm) : bool :=
  if b <=? t then s_t1 s =? b else if t <? a then s_t0 s =? a else (s_t0 s <=? t) && (t <? s_t1 s).
(** every object of the table has one such segment *)
Definition covered (tb : table) (a b t : Z) : Prop := forall g, In g tb -> exists s, filter (answers a b t) (snd g) = [s].
Definition answer (a b t : Z) (g : Z * list segm) : cell :=
  match filter (answers a b t) (snd g) with [s] => Value s t | _ => Zero end.
(** the column of a time: NaN outside the segments when not extrapolating *)
Definition inside (a b : Z) (ex : bool) (t : Z) : bool := negb ((t <? a) || (b <? t)) || ex.
Definition column (a b : Z) (ex : bool) (tb : table) (t : Z) : list cell :=
  if ((t <? a) || (b <? t)) && negb ex then repeat NaN (length tb) else map (answer a b t) tb.
(** the objects asked for *)
Definition asked (ids : list Z) (tb : table) : table := filter (fun g => existsb (Z.eqb (fst g)) ids) tb.
Definition same_ids (a b : list Z) : Prop := forall x, In x a <-> In x b.
(** an event that the fit to some ephemeris points stands behind: they run from its start to its end, and the event is a success
    exactly if the fit is good *)
Definition stands (fit : list Z -> verdict) (e : event) : Prop :=
  exists first rest, let ephs := first :: rest in
    e_start e = first /\ e_end e = last ephs first /\ fit ephs = (if e_ok e then Good else NotANumber).
