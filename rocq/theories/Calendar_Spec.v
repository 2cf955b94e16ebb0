(** Independent vocabulary for C44, C45 and C88-C90. *)
From Verif Require Import Base Calendar_Model.
From Coq Require Import Ascii.
Open Scope Z_scope.

(** The Gregorian calendar as one counts days: the day after a date. *)
Definition leap_year (y : Z) : Prop := (y mod 4 = 0 /\ y mod 100 <> 0) \/ y mod 400 = 0.
Definition last_of_month (y m d : Z) : Prop :=
  (In m [1;3;5;7;8;10;12] /\ d = 31) \/ (In m [4;6;9;11] /\ d = 30) \/
  (m = 2 /\ ((leap_year y /\ d = 29) \/ (~ leap_year y /\ d = 28))).
Inductive next_date : date -> date -> Prop :=
| Next_day y m d : ~ last_of_month y m d -> next_date (mkDate y m d) (mkDate y m (d + 1))
| Next_month y m d : last_of_month y m d -> m < 12 -> next_date (mkDate y m d) (mkDate y (m + 1) 1)
| Next_year y d : last_of_month y 12 d -> next_date (mkDate y 12 d) (mkDate (y + 1) 1 1).
(** [counted n d]: n days after 1 January of year 1 the date is d *)
Inductive counted : nat -> date -> Prop :=
| Counted_0 : counted 0 (mkDate 1 1 1)
| Counted_S n d d' : counted n d -> next_date d d' -> counted (S n) d'.
(** a date that occurs in that count *)
Definition real_date (d : date) : Prop := exists n, counted n d.
(** the observing day (SITCOMTN-32) of a time: the date d such that the time is in the 24 hours from noon UTC of d;
    1 January of year 1 begins 678575 days before MJD 0 *)
Definition observing_day (t : Z) (d : date) : Prop :=
  exists n, counted n d /\
    let noon := (Z.of_nat n - 678575) * 86400000000 + 43200000000 in noon <= t < noon + 86400000000.
(** a text that spells the date as YYYY-MM-DD *)
Fixpoint spells (s : string) (n : Z) : Prop :=       (* decimal digits, most significant first *)
  match s with
  | EmptyString => n = 0
  | String c r => exists k, (k <= 9)%nat /\ c = ascii_of_nat (48 + k) /\
      exists n', spells r n' /\ n = Z.of_nat k * 10 ^ Z.of_nat (String.length r) + n'
  end.
Definition iso_text (s : string) (d : date) : Prop :=
  exists y m e, s = (y ++ "-" ++ m ++ "-" ++ e)%string /\
    String.length y = 4%nat /\ String.length m = 2%nat /\ String.length e = 2%nat /\
    spells y (year d) /\ spells m (month d) /\ spells e (day d).
(** order of dates *)
Definition not_later (a b : date) : Prop :=
  year a < year b \/ (year a = year b /\ (month a < month b \/ (month a = month b /\ day a <= day b))).
