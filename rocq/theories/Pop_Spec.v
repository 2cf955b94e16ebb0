(** What is claimed about the population metrics and the metrics of pairs of visits, without the model's helpers. *)
From Coq Require Import String Reals ZArith List.
Import ListNotations.
Open Scope R_scope.

(** times that increase *)
Definition Increasing (l : list R) : Prop := forall i j x y, (i < j)%nat -> nth_error l i = Some x -> nth_error l j = Some y -> x < y.
Definition FirstOf {A} (l : list A) (x : A) : Prop := nth_error l 0 = Some x.
Definition LastOf {A} (l : list A) (x : A) : Prop := nth_error l (length l - 1) = Some x.
(** the magnitude read off a tabulated light curve: 99 outside the table, on the line between two neighbouring points inside *)
Definition Reads (ph mag : list R) (t m : R) : Prop :=
  exists a z, FirstOf ph a /\ LastOf ph z
  /\ (t < a \/ z < t -> m = 99)
  /\ (a <= t <= z -> (exists k, nth_error ph k = Some t /\ nth_error mag k = Some m)
                     \/ exists k x0 x1 y0 y1, nth_error ph k = Some x0 /\ nth_error ph (S k) = Some x1 /\ nth_error mag k = Some y0 /\ nth_error mag (S k) = Some y1
                          /\ x0 < t < x1 /\ (m - y0) * (x1 - x0) = (y1 - y0) * (t - x0)).
(** the entry of a dictionary *)
Definition Entry {V} (d : list (string * V)) (k : string) (v : V) : Prop :=
  exists i, nth_error d i = Some (k, v) /\ forall j w, (j < i)%nat -> nth_error d j <> Some (k, w).
(** the magnitude of an event behind dust and at a distance in Mpc *)
Definition Shines (curves : list (list (string * (list R * list R)))) (ax1 : list (string * R)) (indx : nat) (ebv : R) (dist : option R) (t : R) (band : string) (m : R) : Prop :=
  exists lc ph mag m0 a, nth_error curves indx = Some lc /\ Entry lc band (ph, mag) /\ Reads ph mag t m0 /\ Entry ax1 band a
  /\ m = m0 + a * ebv + match dist with Some d => 5 * (ln (d * 1000000) / ln 10) - 5 | None => 0 end.
Definition Curves (curves : list (list (string * (list R * list R)))) : Prop :=
  forall lc b ph mag, In lc curves -> In (b, (ph, mag)) lc -> Increasing ph.
(** two elements at least that differ in [f]; and three *)
Definition Two {A B} (f : A -> B) (l : list A) : Prop := exists x y, In x l /\ In y l /\ f x <> f y.
Definition Three {A B} (f : A -> B) (l : list A) : Prop := exists x y z, In x l /\ In y l /\ In z l /\ f x <> f y /\ f x <> f z /\ f y <> f z.
(** the first of the least, in a list *)
Definition FirstLeast {A} (f : A -> R) (P : A -> Prop) (l : list A) (x : A) : Prop :=
  exists k, nth_error l k = Some x /\ P x /\ forall j y, nth_error l j = Some y -> P y -> f x <= f y /\ ((j < k)%nat -> f x < f y).
(** values that are yes (1) or no (0) *)
Definition YesNo (n : nat) (P : Prop) : Prop := (n = 1%nat /\ P) \/ (n = 0%nat /\ ~ P).
(** * Detections *)
(** the magnitude error of the Gaussian approximation *)
Definition MagError (m m5 u : R) : Prop := u = 2.5 * (ln (1 + Rpower 10 (2/5 * (m - m5)) / 5) / ln 10).
Definition OneOf (l : list string) (b : string) : Prop := In b l.
(** * Gaps between visits *)
(** what [f] gives for [x] and each element of a list that is so related to it *)
Inductive Against (P : R -> R -> Prop) (f : R -> R -> R) (x : R) : list R -> list R -> Prop :=
| Ag_nil : Against P f x [] []
| Ag_in : forall y l h, P x y -> Against P f x l h -> Against P f x (y :: l) (f x y :: h)
| Ag_out : forall y l h, ~ P x y -> Against P f x l h -> Against P f x (y :: l) h.
(** the gaps of every two of a list that differ, each two once *)
Inductive PairGaps : list R -> list R -> Prop :=
| PG_nil : PairGaps [] []
| PG_cons : forall x l h g, Against (fun x y => x <> y) (fun x y => Rabs (x - y)) x l h -> PairGaps l g -> PairGaps (x :: l) (h ++ g).
(** the gaps of every one of a list to those of another that are not further than [d] *)
Inductive CrossGaps (d : R) : list R -> list R -> list R -> Prop :=
| CG_nil : forall m, CrossGaps d [] m []
| CG_cons : forall x l m h g, Against (fun x y => Rabs (x - y) <= d) (fun x y => Rabs (x - y)) x m h -> CrossGaps d l m g -> CrossGaps d (x :: l) m (h ++ g).
(** the values of a list in order *)
Definition InOrder (l : list R) : Prop := forall i j x y, (i < j)%nat -> nth_error l i = Some x -> nth_error l j = Some y -> x <= y.
(** the [k]-th bin: the last one includes its upper edge *)
Definition InBin (edges : list R) (k : nat) (x : R) : Prop :=
  exists a b, nth_error edges k = Some a /\ nth_error edges (S k) = Some b /\ a <= x /\ (x < b \/ (x = b /\ nth_error edges (S (S k)) = None)).
