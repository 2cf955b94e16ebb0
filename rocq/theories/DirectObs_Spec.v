(** What the properties of DirectObs say, without the helpers of the model. *)
From Coq Require Import Reals Sorted.
From Verif Require Import Base Orbits_Model DirectObs_Model.
Open Scope R_scope.

(** a loss in magnitudes of a trail: 1.25 log10 (1 + a x^2 / (1 + b x)), x the length of the trail in units of the seeing *)
Definition loss (a b velocity seeing texp : R) : R :=
  let x := velocity * texp / seeing / 24 in 1.25 * (ln (1 + a * (x * x) / (1 + b * x)) / ln 10).

(** where a visit points, in degrees *)
Definition pointing (s : settings) (v : visit) : R * R :=
  if s_degrees s then (v_ra v, v_dec v) else (v_ra v * 180 / PI, v_dec v * 180 / PI).
Definition rotation (s : settings) (v : visit) : R := if s_degrees s then v_rot v else v_rot v * 180 / PI.
(** a position is in a rectangle on the sky: right ascensions are the same if they differ by 360 degrees *)
Definition inside_rectangle (s : settings) (p : R * R) (v : visit) : Prop :=
  let c := pointing s v in
  Rabs (snd p - snd c) <= s_y_tol s /\
  exists k : Z, Rabs ((fst p - fst c - 360 * IZR k) * cos (snd c * PI / 180)) <= s_x_tol s.
(** a position is in the footprint that was asked for; the circle stands in for unknown footprints *)
Definition seen (sep : R -> R -> R -> R -> R) (camera : R -> R -> R -> R -> R -> bool) (s : settings) (p : R * R) (v : visit) : Prop :=
  let c := pointing s v in
  if string_dec (s_footprint s) "camera" then camera (fst p) (snd p) (fst c) (snd c) (rotation s v) = true
  else if string_dec (s_footprint s) "rectangle" then inside_rectangle s p v
  else sep (fst p) (snd p) (fst c) (snd c) <= s_r_fov s.
(** distance of a position from where a visit points *)
Definition distance (sep : R -> R -> R -> R -> R) (s : settings) (p : R * R) (v : visit) : R :=
  sep (fst p) (snd p) (fst (pointing s v)) (snd (pointing s v)).
(** the rectangle is used with visits in degrees and away from the jump of right ascension *)
Definition plain_rectangle (s : settings) (p : R * R) (v : visit) : Prop :=
  s_footprint s = "rectangle"%string -> s_degrees s = true /\ Rabs (fst p - v_ra v) <= 180.

(** pyoorb's letter of a mode *)
Definition letter (mode m : string) : Prop :=
  (m = "N"%string /\ (mode = "nbody" \/ mode = "n")%string) \/ (m = "2"%string /\ (mode = "2body" \/ mode = "2")%string).
(** the row of visit [k] of object [i] tells what it should *)
Definition right_row (ephem : nat -> string -> R -> eph) (color : string -> string -> result R) (m : string) (obs : list visit)
  (objs : list (cell * string)) (i k : nat) (r : row_) : Prop :=
  exists v id sed, nth_error obs k = Some v /\ nth_error objs i = Some (id, sed) /\
    r_eph r = ephem i m (v_time v) /\
    (forall z, id = Num (IZR z) -> r_obj r = z) /\ ((String.length sed <= 40)%nat -> r_sed r = sed) /\
    r_id r = v_id v /\ r_time r = v_time v /\ r_exp r = v_exp v /\ r_m5 r = v_m5 v /\ r_seeing r = v_seeing v /\ r_night r = v_night v /\
    ((String.length (v_band v) <= 40)%nat -> r_band r = v_band v) /\
    color (r_sed r) (v_band v) = Ok (r_color r) /\
    r_trail r = loss 0.761 1.162 (e_velocity (r_eph r)) (v_seeing v) (v_exp v) /\
    r_detect r = loss 0.420 0.003 (e_velocity (r_eph r)) (v_seeing v) (v_exp v).
(** objects in their order, and the visits of each in theirs *)
Definition before (a b : nat * nat) : Prop := (fst a < fst b)%nat \/ (fst a = fst b /\ (snd a < snd b)%nat).
(** the rows are those of the pairs of an object and a visit for which [P] holds, each once *)
Definition rows_for (P : nat -> nat -> Prop) (right : nat -> nat -> row_ -> Prop) (rows : list row_) : Prop :=
  exists ps, StronglySorted before ps /\ Forall2 (fun p r => right (fst p) (snd p) r) ps rows /\ (forall i k, In (i, k) ps <-> P i k).

(** a distance: symmetric, and with the triangle inequality *)
Definition metric (sep : R -> R -> R -> R -> R) : Prop :=
  (forall a b c d, sep a b c d = sep c d a b) /\
  (forall a b c d e f, sep a b e f <= sep a b c d + sep c d e f).
(** the angle between two directions, in degrees *)
Definition great_circle (ra1 dec1 ra2 dec2 : R) : R :=
  let r x := x * PI / 180 in
  acos (sin (r dec1) * sin (r dec2) + cos (r dec1) * cos (r dec2) * cos (r ra1 - r ra2)) * 180 / PI.
(** how far an object moves from one pre-computed position to the next, and the larger of the moves before and after *)
Definition step (sep : R -> R -> R -> R -> R) (l : list (R * R)) (j : nat) : R :=
  match nth_error l j, nth_error l (S j) with Some p, Some q => sep (fst p) (snd p) (fst q) (snd q) | _, _ => 0 end.
Definition swing (sep : R -> R -> R -> R -> R) (l : list (R * R)) (j : nat) : R :=
  Rmax (step sep l j) (match j with O => 0 | S i => step sep l i end).
(** entry [j] is as near to [t] as any *)
Definition is_nearest (mjds : list R) (t : R) (j : nat) : Prop :=
  exists m, nth_error mjds j = Some m /\ forall m', In m' mjds -> Rabs (t - m) <= Rabs (t - m').
(** where an object is at the time of a visit *)
Definition exact_place (ephem : nat -> string -> R -> eph) (m : string) (i : nat) (v : visit) : R * R :=
  (e_ra (ephem i m (v_time v)), e_dec (ephem i m (v_time v))).
(** the pre-computed times reach from before the first visit to after the last *)
Definition spans (obs : list visit) (mjds : list R) : Prop :=
  forall v, In v obs -> (exists a, In a mjds /\ a <= v_time v) /\ (exists b, In b mjds /\ v_time v <= b).
