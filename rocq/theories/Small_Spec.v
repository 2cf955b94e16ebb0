(** What a user of the small metrics expects, stated without the model. *)
From Coq Require Import Reals ZArith String Ascii List Permutation.
Import ListNotations.
Open Scope R_scope.

(** [n] of the entries of [l] satisfy [P]. *)
Inductive CountIs {A} (P : A -> Prop) : list A -> nat -> Prop :=
| count_nil : CountIs P [] 0
| count_yes : forall x l n, P x -> CountIs P l n -> CountIs P (x :: l) (S n)
| count_no : forall x l n, ~ P x -> CountIs P l n -> CountIs P (x :: l) n.

(** The whole sky in square degrees. *)
Definition sky : R := 4 * PI * (180 / PI) * (180 / PI).

(** [better larger a b]: the value [a] is strictly better than [b]. *)
Definition better (larger : bool) (a b : R) : Prop := if larger then b < a else a < b.

(** A valid pixel inside the open interval; [None] for a bound is no bound. *)
Definition meets (upper lower : option R) (v : option R) : Prop :=
  exists x, v = Some x /\ (forall hi, upper = Some hi -> x < hi) /\ (forall lo, lower = Some lo -> lo < x).

(** Night [n] lies in survey year [y] (0..9) of 365.25 nights, years meeting half a
    night before a night number; the last year includes its end, night 3652. *)
Definition in_year (y : nat) (n : Z) : Prop :=
  (365.25 * INR y - 0.5 <= IZR n < 365.25 * (INR y + 1) - 0.5) \/ (y = 9%nat /\ n = 3652%Z).

(** Angles evenly spread around the circle. *)
Definition same_angle (a b : R) : Prop := exists k : Z, b = a + 360 * IZR k.
Definition evenly_spread (l : list R) : Prop :=
  exists phi m, Permutation m (map (fun i => phi + 360 * (INR i / INR (length l))) (seq 0 (length l)))
             /\ Forall2 same_angle l m.

(** Colour: two visits in different bands at most [color] days apart; slope: two
    visits in one band at least [slope] days apart. *)
Section Colour.
Context {V : Type} (band : V -> string) (time : V -> R).
Definition colour (color : R) (l : list V) : Prop :=
  exists v w, In v l /\ In w l /\ band v <> band w /\ 0 < time v - time w <= color.
Definition slope (len : R) (l : list V) : Prop :=
  exists v w, In v l /\ In w l /\ band v = band w /\ len <= time v - time w.
Definition colour_and_slope (color len : R) (l : list V) : Prop :=
  (3 <= length l)%nat /\ colour color l /\ slope len l.
End Colour.

(** The third character of a chip name as a digit. *)
Definition raft_digit (chip : string) (d : nat) : Prop :=
  exists c, String.get 2 chip = Some c /\ nat_of_ascii c = (48 + d)%nat /\ (d <= 9)%nat.

(** The observation times an AGN time lag is about: visits (band, time, depth) in
    one of the six bands, with a positive time. *)
Definition six : list string := ["u"; "g"; "r"; "i"; "z"; "y"]%string.
Definition usable_times (vs : list (string * R * R)) (ts : list R) : Prop :=
  exists keep, ts = map (fun v => snd (fst v)) (filter keep vs)
  /\ forall v, In v vs -> (keep v = true <-> In (fst (fst v)) six /\ 0 < snd (fst v)).
