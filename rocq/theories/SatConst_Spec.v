(** What the properties of satellite constellations say, without the helpers of the model. *)
From Coq Require Import Reals Ascii.
From Verif Require Import Base SatConst_Model.
Open Scope Z_scope.

(** * Two line elements *)
(** the value of a character, if it is a digit *)
Definition code (c : ascii) : Z := Z.of_nat (nat_of_ascii c).
Definition numeral (c : ascii) : Prop := 48 <= code c <= 57.
Definition value_of (t : text) : Z := fold_left (fun a c => 10 * a + (code c - 48)) t 0.
(** a text that is a number, and one that is blanks and a number with d places, in units of the last *)
Definition reads (t : text) (n : Z) : Prop := t <> [] /\ Forall numeral t /\ value_of t = n.
Definition reads_places (d : nat) (t : text) (n : Z) : Prop :=
  exists blanks a b, t = repeat " "%char blanks ++ a ++ ["."%char] ++ b /\ a <> [] /\ Forall numeral a /\ length b = d /\ Forall numeral b /\
    value_of a * 10 ^ Z.of_nat d + value_of b = n.
(** k characters from the given column on, counted from 1 as in the description of the format *)
Definition columns (from k : nat) (t : text) : text := firstn k (skipn (from - 1) t).
(** the sum of digits, minus signs counting 1 *)
Definition worth (c : ascii) : Z := if Z.leb 48 (code c) && Z.leb (code c) 57 then code c - 48 else if Ascii.eqb c "-" then 1 else 0.
Definition tle_line (t : text) : Prop :=
  length t = 69%nat /\ ~ In (ascii_of_nat 10) t /\ reads (columns 69 1 t) (fold_right Z.add 0 (map worth (firstn 68 t)) mod 10).

(** * Constellations *)
Definition zsum (l : list nat) : nat := fold_right Nat.add 0%nat l.
(** decimal text without leading zeros *)
Definition plain_number (t : text) (n : Z) : Prop := reads t n /\ (t = ["0"%char] \/ exists c r, t = c :: r /\ c <> "0"%char).

(** * Streaks *)
Section Watch.
  Open Scope R_scope.
  Context {sat : Type} (sunlit : sat -> R -> bool) (radec : sat -> R -> R * R) (altitude : sat -> R -> R).
  Definition rsum (l : list R) : R := fold_right Rplus 0 l.
  Definition fraction (seconds : R) : R := seconds / 3600 / 24.
  (** up and in sunlight, both at one time *)
  Definition seen_at (limit : R) (s : sat) (t : R) : Prop := limit < altitude s t /\ sunlit s t = true.
  (** up at the start or at the end, lit at the start or at the end, and near the pointing *)
  Context (proj : R -> R -> R -> R -> R * R) (line_distance : R * R -> R * R -> R * R -> R) (within : list (R * R) -> R -> R).
  Definition finish (p : pointing) : R := p_mjd p + fraction (p_time p).
  Definition close_by (limit test : R) (s : sat) (p : pointing) : bool :=
    ((if Rlt_dec limit (altitude s (p_mjd p)) then true else if Rlt_dec limit (altitude s (finish p)) then true else false) &&
     (sunlit s (p_mjd p) || sunlit s (finish p)) &&
     (if Rlt_dec (line_distance (radec s (p_mjd p)) (radec s (finish p)) (p_ra p * PI / 180, p_dec p * PI / 180)) (test * PI / 180) then true else false))%bool.
  (** the length of its way through the field, from positions at num equally spaced times from start to end *)
  Definition streak (fov : R) (num : nat) (s : sat) (p : pointing) : R :=
    match num with
    | O => 0
    | _ => within (map (fun i => let q := radec s (p_mjd p + INR i * ((finish p - p_mjd p) / (INR num - 1))) in proj (fst q) (snd q) (p_ra p * PI / 180) (p_dec p * PI / 180)) (seq 0 num)) (fov * PI / 180)
    end.
  (** how many satellites are up, lit and in a pixel *)
  Definition lit_in (pixel : R * R -> nat) (limit : R) (sats : list sat) (t : R) (p : nat) : Z :=
    Z.of_nat (length (filter (fun s => (sunlit s t && negb (if Rlt_dec (altitude s t) limit then true else false) && Nat.eqb (pixel (radec s t)) p)%bool) sats)).
  (** the times of a window *)
  Definition in_window (from to : R) (t : R) : bool := if Rle_dec from t then if Rlt_dec t to then true else false else false.
  Fixpoint increasing (l : list R) : Prop := match l with [] => True | x :: r => Forall (Rle x) r /\ increasing r end.
  (** pixel by pixel *)
  Definition column_sum (maps : list (list Z)) (p : nat) : Z := fold_right Z.add 0%Z (map (fun m => nth p m 0%Z) maps).
End Watch.
