(** What is claimed about the metrics of periodic stars, without the model's helpers. *)
From Coq Require Import Ascii String Reals ZArith List.
Import ListNotations.
Open Scope R_scope.

(** the six bands and their places among the mean magnitudes *)
Inductive Place : string -> nat -> Prop :=
| P_u : Place "u" 0 | P_g : Place "g" 1 | P_r : Place "r" 2 | P_i : Place "i" 3 | P_z : Place "z" 4 | P_y : Place "y" 5.
(** the band whose letter begins a name *)
Definition Begins (name band : string) : Prop := exists c rest, name = String c rest /\ band = String c EmptyString.

(** the magnitude of a star at a time since the first visit *)
Definition Sine (period phase amplitude mean t m : R) : Prop := m = mean + amplitude * sin (2 * PI * (t + phase) / period).
(** the error of a magnitude of a star in a visit of 5-sigma depth m5 (signal to noise 5 at the depth) *)
Definition MagError (m m5 e : R) : Prop := e = 5/2 * (ln (1 + Rpower 10 (2/5 * (m - m5)) / 5) / ln 10).
(** the earliest of the times *)
Definition Earliest (l : list R) (t0 : R) : Prop := In t0 l /\ forall t, In t l -> t0 <= t.

(** a fit is within the tolerances: its period and amplitude relative to the true ones, and the magnitudes in at least [n]
    of the bands in [seen] *)
Definition Within (fit : option R) (truth tol : R) : Prop := exists f, fit = Some f /\ truth <> 0 /\ Rabs (f - truth) <= tol * Rabs truth.
Definition GoodBand (seen : list string) (fits : list (option R)) (mags : list R) (tol : R) (i : nat) : Prop :=
  exists b q m, Place b i /\ In b seen /\ nth_error fits i = Some (Some q) /\ nth_error mags i = Some m /\ Rabs (q - m) <= tol.
Definition WellFit (period amplitude ptol atol mtol : R) (n : nat) (seen : list string) (mags : list R)
  (fp fa : option R) (fm : list (option R)) : Prop :=
  Within fp period ptol /\ Within fa amplitude atol /\
  exists good, NoDup good /\ (n <= length good)%nat /\ forall i, In i good -> GoodBand seen fm mags mtol i.
