(** What the properties of generate_catalog say, without the helpers of the model. *)
From Coq Require Import Reals.
From Verif Require Import Base DirectObs_Spec SelfCat_Model.
Open Scope R_scope.

(** the gnomonic projection: ra, dec, ra and dec of the centre, in radians *)
Definition gnomonic (ra dec ra0 dec0 : R) : R * R :=
  let c := sin dec0 * sin dec + cos dec0 * cos dec * cos (ra - ra0) in
  (cos dec * sin (ra - ra0) / c, (cos dec0 * sin dec - sin dec0 * cos dec * cos (ra - ra0)) / c).
(** how far a star is from where a visit points, in degrees *)
Definition off_axis (v : visit) (s : star) : R := great_circle (s_ra s) (s_dec s) (v_ra v) (v_dec v).
Definition in_field (radius : R) (v : visit) (s : star) : bool := if Rle_dec (off_axis v s) radius then true else false.
(** the row of a star tells which star it is *)
Definition of_star (band : string) (s : star) (r : row) : Prop :=
  r_id r = s_id s /\ r_ra r = s_ra s /\ r_dec r = s_dec s /\ r_mag r = s_mag s band.
(** where a star is in the focal plane *)
Definition focal (v : visit) (s : star) : R * R :=
  let d x := x * PI / 180 in let p := gnomonic (d (s_ra s)) (d (s_dec s)) (d (v_ra v)) (d (v_dec v)) in
  (cos (d (v_rot v)) * fst p + sin (d (v_rot v)) * snd p, cos (d (v_rot v)) * snd p - sin (d (v_rot v)) * fst p).
(** the half width of the field, 1.8 degrees; column a of k columns of squares *)
Definition half : R := tan (1.8 * PI / 180).
Definition in_column (k a : Z) (x : R) : Prop := (0 <= a < k)%Z /\ - half + 2 * half * IZR a / IZR k <= x < - half + 2 * half * IZR (a + 1) / IZR k.

(** the arrays that the offsets give, each called with those before it *)
Inductive called (stars : list found) (v : visit) : list offset -> list (string * darray) -> list (list R) -> Prop :=
| called_nil : forall prev, called stars v [] prev []
| called_cons : forall o t prev d ds, call o stars v prev = Ok (Plain d) -> length d = length stars ->
    called stars v t (prev ++ [(newkey o, Plain d)]) ds -> called stars v (o :: t) prev (d :: ds).
Definition total (l : list R) : R := fold_right Rplus 0 l.

(** the error of a magnitude m at depth m5: the signal to noise is 5 at m5 and falls tenfold with 2.5 magnitudes *)
Definition error_at (m m5 : R) : R := 2.5 * (ln (1 + / (5 * Rpower 10 (0.4 * (m5 - m)))) / ln 10).
