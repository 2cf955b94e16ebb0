(** What is claimed about the star counts, without the model's helpers. *)
From Coq Require Import Reals List.
Import ListNotations.
Open Scope R_scope.
(** the volume of the part of [area] square degrees of the sky (of 41253) between two distances *)
Definition Cone (area d1 d2 v : R) : Prop := v = area / 41253 * (4 / 3 * PI * d2 ^ 3 - 4 / 3 * PI * d1 ^ 3).
Definition Total (l : list R) (s : R) : Prop := s = fold_right Rplus 0 l.
(** the position relative to the center of the Galaxy, in parsec, of a star at a distance in the direction [b], [l] in degrees *)
Definition Place (b l dist x y z : R) : Prop :=
  x = 8000 - dist * cos (b * PI / 180) * cos (l * PI / 180) /\ y = dist * cos (b * PI / 180) * sin (l * PI / 180) /\ z = dist * sin (b * PI / 180).
(** cylindrical coordinates *)
Definition Radius (x y r : R) : Prop := 0 <= r /\ r ^ 2 = x ^ 2 + y ^ 2.
Definition Angle (x y r phi : R) : Prop := x = r * cos phi /\ y = r * sin phi.
(** the magnitude of a star at [pc] parsec *)
Definition Modulus (absolute pc m : R) : Prop := 0 < pc /\ m = absolute + 5 * (ln pc / ln 10) - 5.
