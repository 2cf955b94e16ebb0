(** Vocabulary for the statements about moving object magnitudes. *)
From Verif Require Import Base.
From Coq Require Import Reals.
Open Scope R_scope.

(** the magnitude of a coma of a given Af-rho in an aperture of radius rho, A'Hearn et al. 1984: m = sun - 2.5 log10 (Afrho rho
    / (2 r delta)^2), r in AU, the other lengths in the same unit *)
Definition coma_textbook (sun afrho rho r delta : R) : R := sun - 5/2 * (ln (afrho * rho / (4 * (r * r) * (delta * delta))) / ln 10).
Definition cm_per_au : R := 14959787070000.
(** flux of a magnitude *)
Definition brightness (m : R) : R := Rpower 10 (- (2/5) * m).
(** a unit vector turned about the x axis by the angle [i] (from the equator to the ecliptic) *)
Definition turned (i : R) (v : R * R * R) : R * R * R := let '(x, y, z) := v in (x, cos i * y + sin i * z, - sin i * y + cos i * z).
Definition deg (x : R) : R := x * PI / 180.
