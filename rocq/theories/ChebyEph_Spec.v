(** Vocabulary for the properties of fitted positions. *)
From Verif Require Import Base Astrom_Model Cheby_Model Cheby_Spec ChebyEph_Model.
From Coq Require Import Reals.
Open Scope R_scope.

(** [ra] is the angle [u] brought into [0, 360) *)
Definition wrapped (u ra : R) : Prop := 0 <= ra < 360 /\ exists k : Z, ra = u + 360 * IZR k.
(** the distance that is tolerated, in milliarcseconds, between an ephemeris point and a position (dec, ra), on the tangent plane *)
Definition offset (p : eph) (ra dec : R) : R :=
  sqrt ((p_dec p - dec) ^ 2 + ((p_ra p - ra) * cos (radians (p_dec p))) ^ 2) * (3600 * 1000).
(** a default for the lists *)
Definition p0 : eph := {| p_time := 0; p_ra := 0; p_dradt := 0; p_dec := 0; p_ddecdt := 0 |}.
