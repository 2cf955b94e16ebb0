(** Model of the star counts of a model of the Galaxy: rubin_sim/maf/maf_contrib/star_count_metric.py, star_count_mass_metric.py and
    rubin_sim/maf/maf_contrib/star_counts/{starcount,stellardensity,coords,starcount_bymass}.py.
    Numbers are real numbers (exact).  Distances are in parsec and not negative.  The galactic coordinates of a position, the
    absolute magnitude of a mass (spec_type.py, abs_mag.py) and scipy's solver are arguments. *)
From Coq Require Import String.
From Verif Require Import Base.
From Verif Require Astrom_Model.
From Coq Require Import Reals.
Open Scope R_scope.

(** * starcount.py *)
(** [x ** (1.0 / 3)] of numbers that are not negative *)
Definition cbrt (x : R) : R := if Rle_dec x 0 then 0 else Rpower x (1/3).
(** star_vols, lines 17-21: 51 edges (line 14), the volume of each shell and the distance in it *)
Definition edge (d1 d2 : R) (i : nat) : R := cbrt (d1 ^ 3 + INR i * ((d2 ^ 3 - d1 ^ 3) / 50)).
Definition shell (d1 d2 area : R) (i : nat) : R * R :=
  let a := edge d1 d2 i ^ 3 in
  let b := edge d1 d2 (S i) ^ 3 in
  (area / 41253 * (4 * PI / 3) * (b - a), cbrt ((b + a) / 2)).
Definition star_vols (d1 d2 area : R) : list (R * R) := map (shell d1 d2 area) (seq 0 50).

(** * coords.gal_cyn, coords.py:89-99: radius, angle and height.  Simplified: [x] is not 0 (numpy divides by zero). *)
Definition radians (x : R) : R := x * (PI / 180).
Definition gal_cyn (b_deg l_deg dist : R) : R * R * R :=
  let Z := sin (radians b_deg) * dist in
  let xy := cos (radians b_deg) * dist in
  let x := cos (radians l_deg) * xy in
  let y := sin (radians l_deg) * xy in
  let x_new := 8000 - x in
  (sqrt (x_new * x_new + y * y), atan (y / x), Z).
(** coords.eq_gal3, coords.py:78-86: astropy has no unit radians (and numpy no function rad) *)
Definition eq_gal3 (ra dec : R) : result (R * R) := Err AttributeError.

(** * stellardensity.py *)
(** lines 17-22 *)
Definition diskprofile (r z l h : R) : R := 364/10000 * exp (- r / l - Rabs (z + 25) / h) * exp (8000 / l).
Definition thindisk (r z : R) : R := diskprofile r z 2150 245.
Definition thickdisk (r z : R) : R := diskprofile r z 3261 743.
(** lines 33-37 *)
Definition bulge (r z : R) : R :=
  2 * (diskprofile 0 0 2150 245 + diskprofile 0 0 3261 743) * exp (- sqrt (r * r + z * z) / 800).
(** lines 40-48.  Simplified: not at the center (numpy divides by zero). *)
Definition halo (r z : R) : R := 364/10000 * (1/1000) * Rpower (8000 / sqrt (r * r + (z / (64/100)) * (z / (64/100)))) (277/100).
(** lines 51-55 *)
Definition stellardensity (r z : R) : R := thindisk r z / (11/10) + 1/10 / (11/10) * thickdisk r z + halo r z + bulge r z.

(** starcount, starcount.py:24-30; [eq_gal] gives latitude and longitude *)
Definition starcount_with (eq_gal : R -> R -> result (R * R)) (ra dec d1 d2 : R) : result R :=
  do g <- eq_gal ra dec;
  Ok (Astrom_Model.rsum (map (fun s => let '(r, _, z) := gal_cyn (fst g) (snd g) (snd s) in fst s * stellardensity r z)
                             (star_vols d1 d2 (962/100)))).
Definition starcount : R -> R -> R -> R -> result R := starcount_with eq_gal3.

(** * starcount_bymass.py *)
(** lines 22-27 *)
Definition imf (lower upper : R) : R := 1 / (135/100) * (Rpower lower (- (135/100)) - Rpower upper (- (135/100))).
(** lines 30-33 *)
Definition get_distance (apparent absolute : R) : R := 10 * Rpower 10 ((apparent - absolute) / 5).
(** the tables of lines 45-46 and 57-58 *)
Definition gamma_of (b : string) : result R :=
  if String.eqb b "u" then Ok (37/1000) else if String.eqb b "g" then Ok (38/1000) else if String.eqb b "r" then Ok (39/1000)
  else if String.eqb b "i" then Ok (39/1000) else if String.eqb b "z" then Ok (40/1000) else if String.eqb b "y" then Ok (40/1000)
  else Err KeyError.
Definition m5_of (b : string) : result R :=
  if String.eqb b "u" then Ok (239/10) else if String.eqb b "g" then Ok 25 else if String.eqb b "r" then Ok (247/10)
  else if String.eqb b "i" then Ok 24 else if String.eqb b "z" then Ok (233/10) else if String.eqb b "y" then Ok (221/10)
  else Err KeyError.
(** mag_error, lines 44-53 *)
Definition mag_error (m : R) (band : string) (calcm5 : R) : result R :=
  do m5 <- (if Req_EM_T calcm5 0 then m5_of band else Ok calcm5);
  let X := Rpower 10 (4/10 * (m - m5)) in
  do g <- gamma_of band;
  let random_2 := sqrt ((4/100 - g) * X + g * X * X) in
  Ok (sqrt (random_2 * random_2 + 5/1000 * (5/1000))).
(** [fun] of noise_calc, lines 62-66: four statements and no return, so that the value is None *)
Definition noise_fun (band : string) (x : R) : result (option R) :=
  do _ <- gamma_of band; do _ <- m5_of band; Ok None.
(** scipy's [newton]: values that are no numbers raise TypeError; [solve] is the iteration *)
Definition newton (solve : (R -> result (option R)) -> R -> result R) (f : R -> result (option R)) (x0 : R) : result R :=
  do q <- f x0; match q with None => Err TypeError | Some _ => solve f x0 end.
Definition noise_calc (solve : (R -> result (option R)) -> R -> result R) (band : string) : result R := newton solve (noise_fun band) 25.
(** dist_calc, lines 71-81; [absmag] gives the magnitude in a band, ValueError for other bands (line 76) *)
Definition dist_calc (solve : (R -> result (option R)) -> R -> result R) (absmag : R -> string -> R) (mass : R) (band : string) : result (R * R) :=
  if existsb (String.eqb band) ["z"; "y"; "i"; "r"; "g"; "u"]%string then
    do apparent <- noise_calc solve band;
    Ok (get_distance 16 (absmag mass band), get_distance apparent (absmag mass band))
  else Err ValueError.
(** the comprehensions of lines 91-92: the first exception is raised *)
Fixpoint each {A B} (f : A -> result B) (l : list A) : result (list B) :=
  match l with [] => Ok [] | x :: t => do y <- f x; do ys <- each f t; Ok (y :: ys) end.
(** starcount_bymass, lines 85-93 *)
Definition mass_at (m1 m2 : R) (i : nat) : R := m1 + INR i * ((m2 - m1) / 19).
Definition mass_fractions (m1 m2 : R) : list R :=
  map (fun i => imf (mass_at m1 m2 i) (mass_at m1 m2 (S i)) / imf (2/10) (104/100)) (seq 0 19).
Definition starcount_bymass (solve : (R -> result (option R)) -> R -> result R) (absmag : R -> string -> R) (ra dec m1 m2 : R) (band : string) : result R :=
  do ds <- each (fun i => dist_calc solve absmag (mass_at m1 m2 i) band) (seq 0 19);
  do cs <- each (fun p => do n <- starcount ra dec (fst (fst p)) (snd (fst p)); Ok (snd p * n)) (combine ds (mass_fractions m1 m2));
  Ok (Astrom_Model.rsum cs).

(** * The metrics.  A row of the data is the list of its values. *)
(** the name [starcount] of star_count_metric.py:7 is the module starcount.py, as star_counts/__init__.py imports nothing; a module
    cannot be called (line 56) *)
Inductive imported := Module | Function (f : R -> R -> R -> R -> result R).
Definition call (x : imported) (a b c d : R) : result R := match x with Module => Err TypeError | Function f => f a b c d end.
Definition position (rows : list (list R)) : result (R * R) :=
  do row <- arr_get rows 0; do dec <- arr_get row 3; do ra <- arr_get row 2; Ok (ra * (180 / PI), dec * (180 / PI)).
(** StarCountMetric.run, star_count_metric.py:53-56 *)
Definition count_run (d1 d2 : R) (rows : list (list R)) : result R :=
  do p <- position rows; call Module (fst p) (snd p) d1 d2.
(** StarCountMassMetric.run, star_count_mass_metric.py:61-64 *)
Definition mass_run (solve : (R -> result (option R)) -> R -> result R) (absmag : R -> string -> R) (m1 m2 : R) (band : string) (rows : list (list R)) : result R :=
  do p <- position rows; starcount_bymass solve absmag (fst p) (snd p) m1 m2 band.
