(** Model of rubin_sim/satellite_constellations: sat_utils.py, model_observatory.py and basis_function.py.
    Texts are lists of characters.  Quantities with units are reals in degrees, km and days.  The rounding of "{:8.4f}".format is an
    argument, and so are the random numbers, positions and illumination of satellites (skyfield), the almanac, distances and pixels. *)
From Coq Require Import Reals Ascii.
From Verif Require Import Base.
Open Scope Z_scope.

Definition text := list ascii.
Definition lit (s : string) : text := list_ascii_of_string s.
(** a decimal digit; str(n) of n >= 0 *)
Definition digit (n : Z) : ascii := ascii_of_nat (48 + Z.to_nat (n mod 10)).
Fixpoint decimal_ (fuel : nat) (n : Z) : text :=
  match fuel with O => [] | S f => if n <? 10 then [digit n] else decimal_ f (n / 10) ++ [digit n] end.
Definition decimal (n : Z) : text := decimal_ (S (Z.to_nat (Z.log2 n))) n.
Definition pad (c : ascii) (w : nat) (t : text) : text := repeat c (w - length t) ++ t.
(** "{:05d}".format and "{:w.df}".format of a number >= 0; the latter of a number that is rounded to d places, in units of the last *)
Definition fmt_d (w : nat) (n : Z) : text := pad "0" w (decimal n).
Definition fmt_f (w d : nat) (n : Z) : text :=
  let p := 10 ^ Z.of_nat d in pad " " w (decimal (n / p) ++ ["."%char] ++ pad "0" d (decimal (n mod p))).

(** c.isdigit() and int(c), of an ASCII character *)
Definition isdigit (c : ascii) : bool := (48 <=? Z.of_nat (nat_of_ascii c)) && (Z.of_nat (nat_of_ascii c) <=? 57).
Definition int_of (c : ascii) : Z := Z.of_nat (nat_of_ascii c) - 48.
(** checksum, sat_utils.py lines 93-100 *)
Definition checksum (line : text) : text :=
  let body := removelast line in
  let s := fold_left (fun s c => let s := if isdigit c then s + int_of c else s in if Ascii.eqb c "-" then s + 1 else s) body 0 in
  body ++ decimal (s mod 10).
(** lines 103-105 *)
Definition tle1 (sat_nr epoch : Z) : text :=
  checksum (lit "1 " ++ fmt_d 5 sat_nr ++ lit "U 20001A   " ++ fmt_f 14 8 epoch ++ lit "  .00000000  00000-0  50000-4 0    0X").
(** lines 106-115 *)
Definition tle2 (sat_nr inclination raan mean_anomaly mean_motion : Z) : text :=
  checksum (lit "2 " ++ fmt_d 5 sat_nr ++ lit " " ++ fmt_f 8 4 inclination ++ lit " " ++ fmt_f 8 4 raan ++ lit " 0001000   0.0000 " ++
            fmt_f 8 4 mean_anomaly ++ lit " " ++ fmt_f 11 8 mean_motion ++ lit "    0X").
Definition newline : ascii := ascii_of_nat 10.
(** tle_from_orbital_parameters, lines 58-117: of numbers that are already rounded *)
Definition tle_from_orbital_parameters (sat_name : text) (sat_nr epoch inclination raan mean_anomaly mean_motion : Z) : text :=
  sat_name ++ [newline] ++ tle1 sat_nr epoch ++ [newline] ++ tle2 sat_nr inclination raan mean_anomaly mean_motion.
(** satellite_mean_motion, lines 39-55: altitude in km, revolutions a day; astropy's GM_earth and R_earth *)
Definition mean_motion (altitude : R) : R := (1 / (sqrt (4 * PI ^ 2 * (altitude + 6378.1) ^ 3 / 398600.4) / 86400))%R.
(** str.split("\n"), line 258 *)
Fixpoint split_lines (t : text) : list text :=
  match t with
  | [] => [[]]
  | c :: r => let l := split_lines r in if Ascii.eqb c newline then [] :: l else match l with [] => [[c]] | h :: q => (c :: h) :: q end
  end.

Section Create.
  (** "{:w.df}".format rounds to d places, to units of the last; the random numbers of [0, 1) one after the other *)
  Context (rounded : nat -> R -> Z) (random : nat -> R).
  (** np.linspace(0, 360, s, endpoint=False); rng.uniform(0, 360, n), the k-th and following numbers *)
  Definition circle (s : nat) : list R := map (fun i => (INR i * 360 / INR s)%R) (seq 0 s).
  Definition uniform (k n : nat) : list R := map (fun i => (360 * random (k + i)%nat)%R) (seq 0 n).
  (** lines 159-168: the anomalies and nodes of a shell, and the random numbers that were used so far *)
  Definition shell (k n s : nat) : list (R * R) * nat :=
    if Nat.eqb s 1 then (combine (uniform k n) (uniform (k + n) n), (k + n + n)%nat)
    else let mas := map (fun m => (m + 360 * random k)%R) (circle s) in
         (flat_map (fun raan => map (fun ma => (ma, raan)) mas) (circle n), S k).
  (** lines 170-175 *)
  Definition name_of (name : text) (sat_nr : Z) : text := name ++ lit " " ++ decimal sat_nr.
  Definition one_tle (name : text) (epoch inc mm : R) (sat_nr : Z) (q : R * R) : text :=
    tle_from_orbital_parameters (name_of name sat_nr) sat_nr (rounded 8%nat epoch) (rounded 4%nat inc) (rounded 4%nat (snd q)) (rounded 4%nat (fst q)) (rounded 8%nat mm).
  Fixpoint number (name : text) (epoch inc mm : R) (sat_nr : Z) (l : list (R * R)) : list text :=
    match l with [] => [] | q :: t => one_tle name epoch inc mm sat_nr q :: number name epoch inc mm (sat_nr + 1) t end.
  Fixpoint shells (name : text) (epoch : R) (sat_nr : Z) (k : nat) (l : list (R * R * nat * nat)) : list text :=
    match l with
    | [] => []
    | (alt, inc, n, s) :: t =>
        let '(sh, k') := shell k n s in
        number name epoch inc (mean_motion alt) sat_nr sh ++ shells name epoch (sat_nr + Z.of_nat (length sh)) k' t
    end.
  (** create_constellation, lines 120-177 *)
  Definition create_constellation (altitudes inclinations : list R) (nplanes sats_per_plane : list nat) (epoch : R) (name : text) : list text :=
    shells name epoch 8000 0 (combine (combine (combine altitudes inclinations) nplanes) sats_per_plane).
  (** lines 180-231 *)
  Definition starlink_tles_v1 : list text :=
    create_constellation [550; 540; 570; 560; 560]%R [53; 53.2; 70; 97.6; 97.6]%R [72; 72; 36; 6; 4]%nat [22; 22; 20; 58; 43]%nat 23274 (lit "starV1").
  Definition starlink_tles_v2 : list text :=
    create_constellation [340; 345; 350; 360; 525; 530; 535; 604; 614]%R [53; 46; 38; 96.9; 53; 43; 33; 148; 115.7]%R
      [48; 48; 48; 30; 28; 28; 28; 12; 18]%nat [110; 110; 110; 120; 120; 120; 120; 12; 18]%nat 23274 (lit "starV2").
  Definition oneweb_tles : list text :=
    create_constellation [1200; 1200; 1200]%R [87.9; 40; 55]%R [49; 72; 72]%nat [36; 32; 32]%nat 23274 (lit "oneWe").
End Create.

Section Watch.
  Open Scope R_scope.
  (** satellites, and what skyfield says of one at a time (MJD): illuminated; ra, dec and altitude in radians *)
  Context {sat : Type} (sunlit : sat -> R -> bool) (radec : sat -> R -> R * R) (altitude : sat -> R -> R).
  (** EarthSatellite(line1, line2, name): raises on lines that it cannot read *)
  Context (earth_satellite : text -> text -> text -> result sat).
  Definition radians (x : R) : R := x * PI / 180.
  Definition degrees (x : R) : R := x * 180 / PI.
  (** Constellation.__init__, lines 248-261; the attribute fov_radius_rad is not used by any method *)
  Record constellation := { sat_list : list sat; alt_limit_rad : R; fov_radius_rad : R }.
  Fixpoint load_sats (l : list text) : result (list sat) :=
    match l with
    | [] => Ok []
    | tle :: t => match split_lines tle with
                  | [name; line1; line2] => do s <- earth_satellite line1 line2 name; do r <- load_sats t; Ok (s :: r)
                  | _ => Err ValueError
                  end
    end.
  Definition new_constellation (tles : list text) (alt_limit fov : R) : result constellation :=
    do l <- load_sats tles; Ok {| sat_list := l; alt_limit_rad := radians alt_limit; fov_radius_rad := radians (fov / 2) |}.
  (** update_mjd, lines 268-301: the indices in [visible] *)
  Definition visible (c : constellation) (mjd : R) : list nat :=
    map fst (filter (fun q => (let '(_, (alt, ill)) := q in
                     match alt with None => false | Some a => if Rle_dec (alt_limit_rad c) a then true else false end && ill)%bool)
      (combine (seq 0 (length (sat_list c))) (map (fun s => let ill := sunlit s mjd in ((if ill then Some (altitude s mjd) else None), ill)) (sat_list c)))).
  (** paths_array, lines 303-341: of a satellite at a time; np.vstack of nothing raises ValueError *)
  Definition path (s : sat) (mjd : R) : (R * R) * R * bool := (radec s mjd, altitude s mjd, sunlit s mjd).
  Definition paths_array (c : constellation) (mjds : list R) : result (list (list ((R * R) * R * bool))) :=
    match sat_list c with [] => Err ValueError | l => Ok (map (fun s => map (path s) mjds) l) end.

  (** gnomonic_project_toxy; point_to_line_distance(ra1, dec1, ra2, dec2, ra, dec); the length of a line of points within a circle around 0 *)
  Context (proj : R -> R -> R -> R -> R * R) (line_distance : R * R -> R * R -> R * R -> R) (within : list (R * R) -> R -> R).
  (** _streak_length, lines 461-488: a LineString of a single point raises ValueError; that of none is empty *)
  Definition streak_length (pts : list (R * R)) (ra dec radius : R) : result R :=
    match map (fun p => proj (fst p) (snd p) ra dec) pts with [_] => Err ValueError | [] => Ok 0 | xy => Ok (within xy radius) end.
  (** np.round; np.linspace(a, b, num) *)
  Definition round_even (x : R) : Z :=
    let f := Int_part x in
    if Rlt_dec (x - IZR f) (1/2) then f else if Rlt_dec (1/2) (x - IZR f) then (f + 1)%Z else if Z.even f then f else (f + 1)%Z.
  Definition linspace (a b : R) (num : nat) : list R :=
    match num with S O => [a] | _ => map (fun i => a + INR i * ((b - a) / (INR num - 1))) (seq 0 num) end.
  (** a pointing: ra, dec (degrees), start (MJD), duration (seconds) *)
  Record pointing := { p_ra : R; p_dec : R; p_mjd : R; p_time : R }.
  Definition day (x : R) : R := x / 3600 / 24.
  (** lines 408-427: up and illuminated, and close, of one satellite and one pointing *)
  Definition candidate (c : constellation) (test_radius : R) (s : sat) (p : pointing) : bool :=
    let '(rd1, alt1, ill1) := path s (p_mjd p) in let '(rd2, alt2, ill2) := path s (p_mjd p + day (p_time p)) in
    ((if Rlt_dec (alt_limit_rad c) alt1 then true else if Rlt_dec (alt_limit_rad c) alt2 then true else false) && (ill1 || ill2) &&
     (if Rlt_dec (line_distance rd1 rd2 (radians (p_ra p), radians (p_dec p))) (radians test_radius) then true else false))%bool.
  (** lines 446-454: the length of one satellite in one pointing *)
  Definition one_length (fov_radius dt : R) (s : sat) (p : pointing) : result R :=
    let vt := day (p_time p) in
    let num := round_even (vt / day dt) in
    if (num <? 0)%Z then Err ValueError
    else streak_length (map (radec s) (linspace (p_mjd p) (p_mjd p + vt) (Z.to_nat num))) (radians (p_ra p)) (radians (p_dec p)) (radians fov_radius).
  (** lines 438-457: the loop over satellites and pointings *)
  Fixpoint loop (fov_radius dt : R) (l : list (nat * sat * pointing)) (lengths : list R) (n_streaks : list Z) : result (list R * list Z) :=
    match l with
    | [] => Ok (lengths, n_streaks)
    | (i, s, p) :: t =>
        do len <- one_length fov_radius dt s p;
        if Rlt_dec 0 len then loop fov_radius dt t (set_nth lengths i (nth i lengths 0 + len)) (set_nth n_streaks i (nth i n_streaks 0 + 1)%Z)
        else loop fov_radius dt t lengths n_streaks
    end.
  (** check_pointings, lines 343-458; np.where goes through satellites, and for each through the pointings *)
  Definition check_pointings (c : constellation) (ps : list pointing) (fov_radius test_radius dt : R) : result (list R * list Z) :=
    do _ <- paths_array c (map p_mjd ps);
    let pairs := flat_map (fun s => map (fun q => (fst q, s, snd q)) (combine (seq 0 (length ps)) ps)) (sat_list c) in
    do r <- loop fov_radius dt (filter (fun q => let '(_, s, p) := q in candidate c test_radius s p) pairs) (repeat 0 (length ps)) (repeat 0%Z (length ps));
    Ok (map degrees (fst r), snd r).

  (** * model_observatory.py *)
  (** np.arange(a, b, dt) *)
  Definition arange (a b dt : R) : list R := map (fun i => a + INR i * dt) (seq 0 (Z.to_nat (- Int_part (- ((b - a) / dt))))).  (* the ceiling of (b - a) / dt *)
  (** the pixel of a position; _healbin with np.sum and fill_val 0 *)
  Context (pixel : R * R -> nat) (npix : nat).
  Definition healbin (l : list (nat * Z)) : list Z := map (fun p => fold_right Z.add 0%Z (map snd (filter (fun q => Nat.eqb (fst q) p) l))) (seq 0 npix).
  (** _update_satellite_maps, lines 123-157: times and maps *)
  Definition spot_map (alt_limit : R) (column : list ((R * R) * R * bool)) : list Z :=
    healbin (map (fun q => let '(rd, alt, ill) := q in
                   (pixel rd, if Rlt_dec alt alt_limit then 0%Z else if (ill : bool) then 1%Z else 0%Z))
              (filter (fun q => snd q) column)).
  Definition satellite_maps (c : constellation) (alt_limit sunset sunrise dt : R) : result (list R * list (list Z)) :=
    let mjds := arange sunset sunrise dt in
    do _ <- paths_array c mjds;
    match mjds with
    | [] => Err ValueError
    | _ => Ok (mjds, map (fun t => spot_map alt_limit (map (fun s => path s t) (sat_list c))) mjds)
    end.
  (** the almanac: the index of a time; night, sunset and sunrise of an index *)
  Record evening := { e_night : Z; e_set : R; e_rise : R }.
  Context (mjd_indx : R -> nat) (sunsets : nat -> evening).
  (** ModelObservatory: what concerns satellites *)
  Record observatory := { o_constellation : option constellation; o_alt_limit : R; o_dt : R; o_nside : option Z; o_mjd : R; o_indx : nat; o_night : Z;
                          o_maps : option (list R * list (list Z)) }.
  (** the setter of mjd, lines 113-121 *)
  Definition set_mjd (o : observatory) (mjd : R) : result observatory :=
    let indx := mjd_indx mjd in
    if (e_night (sunsets indx) =? o_night o)%Z
    then Ok {| o_constellation := o_constellation o; o_alt_limit := o_alt_limit o; o_dt := o_dt o; o_nside := o_nside o; o_mjd := mjd; o_indx := indx; o_night := o_night o; o_maps := o_maps o |}
    else match o_constellation o with
         | None => Err AttributeError
         | Some c => do m <- satellite_maps c (o_alt_limit o) (e_set (sunsets indx)) (e_rise (sunsets indx)) (o_dt o);
                     Ok {| o_constellation := o_constellation o; o_alt_limit := o_alt_limit o; o_dt := o_dt o; o_nside := o_nside o; o_mjd := mjd; o_indx := indx;
                           o_night := e_night (sunsets indx); o_maps := Some m |}
         end.
  (** __init__, lines 48-90: the parent is given nside=None, and sets mjd *)
  Definition new_observatory (nside : option Z) (mjd_start satellite_dt alt_limit : R) (c : option constellation) : result observatory :=
    set_mjd {| o_constellation := c; o_alt_limit := radians alt_limit; o_dt := day satellite_dt; o_nside := None; o_mjd := mjd_start; o_indx := 0; o_night := -1; o_maps := None |} mjd_start.
  (** return_conditions, lines 92-107: satellite_mjds and satellite_maps *)
  Definition return_conditions (o : observatory) : result (list R * list (list Z)) := match o_maps o with None => Err AttributeError | Some m => Ok m end.
  (** setting mjd several times *)
  Fixpoint set_mjds (o : observatory) (l : list R) : result observatory := match l with [] => Ok o | t :: r => do o' <- set_mjd o t; set_mjds o' r end.

  (** * basis_function.py *)
  (** hp.smoothing and hp.ud_grade *)
  Context (smoothing : list R -> list R) (ud_grade : list R -> list R).
  (** np.searchsorted, side left *)
  Definition searchsorted (l : list R) (x : R) : nat := length (filter (fun y => if Rlt_dec y x then true else false) l).
  Definition add_maps (a b : list Z) : list Z := map (fun q => (fst q + snd q)%Z) (combine a b).
  Inductive value := Scalar (x : R) | Map (l : list R).
  (** SatelliteAvoidBasisFunction._calc_value, lines 25-40; forecast_time in minutes *)
  Definition calc_value (forecast_time : R) (mjds : list R) (maps : list (list Z)) (mjd : R) : value :=
    let lo := searchsorted mjds mjd in
    let hi := searchsorted mjds (mjd + forecast_time / 60 / 24) in
    if Nat.ltb lo hi then
      match firstn (hi - lo) (skipn lo maps) with
      | [] => Scalar 0
      | m :: r => Map (map (fun x => x * -1) (map (fun x => if Rlt_dec x 0 then 0 else x) (ud_grade (smoothing (map IZR (fold_left add_maps r m))))))
      end
    else Scalar 0.
End Watch.
