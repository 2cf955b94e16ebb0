(** Model of coordinate conversion and further stackers, of photometric parameters, dust values, predicted zero points and
    magnitudes of stars: rubin_sim/maf/stackers/{coord_stackers,sdss_stackers,label_stackers,neo_dist_stacker,
    m5_optimal_stacker}.py, phot_utils/{photometric_parameters,predicted_zeropoints}.py and maf/utils/stellar_mags.py.
    Numbers are reals: rounding and overflow are not modelled. *)
From Coq Require Import String Ascii Reals ZArith List Bool.
From Verif Require Import Base Depth_Model Template_Model.
From Verif Require Sky_Model.
Import ListNotations.
Open Scope R_scope.

Definition rad (x : R) : R := x * PI / 180.
Definition deg (x : R) : R := x * 180 / PI.

(** * ra_dec2_alt_az, coord_stackers.py:31-78, for one position; [lmst] in hours (calc_lmst of rubin_scheduler) *)
(** lines 66-67 and 73-74 *)
Definition clip (x : R) : R := if rltb 1 (if rltb x (-1) then -1 else x) then 1 else (if rltb x (-1) then -1 else x).
Definition alt_az (altonly : bool) (lmst ra dec lat : R) : R * option R :=
  let ha := lmst / 12 * PI - ra in
  let alt := asin (clip (sin dec * sin lat + cos dec * cos lat * cos ha)) in
  (alt,
   if altonly then None
   else
     let az := acos (clip ((sin dec - sin alt * sin lat) / (cos alt * cos lat))) in
     Some (if rltb 0 (sin ha) then 2 * PI - az else az)).

(** * GalacticStacker and EclipticStacker, coord_stackers.py:81-189 *)
(** the label of the unit, lines 99-102 and 154-157 *)
Definition unit_label (degrees : bool) : string := if degrees then "degrees"%string else "radians"%string.
(** GalacticStacker._run, lines 104-120: [galactic ra dec] is astropy's conversion, radians to radians.  The visits are (RA, Dec);
    the new columns are pairs. *)
Definition galactic_run (galactic : R -> R -> R * R) (degrees present : bool) (visits old : list (R * R)) : list (R * R) :=
  if present then old
  else if degrees then map (fun v => galactic (rad (fst v)) (rad (snd v))) visits else map (fun v => galactic (fst v) (snd v)) visits.
(** EclipticStacker._run, lines 162-189; a visit is ((RA, Dec), MJD); the results (longitude, latitude).  [times] is
    astropy's [Time] of the column without a format, [sun] the longitude of the sun *)
Definition ecliptic_pass (ecliptic : R -> R -> R * R) (sun : R -> R) (times : list R -> result (list R)) (degrees subtract : bool)
    (visits : list ((R * R) * R)) : result (list (R * R)) :=
  let at_ (v : (R * R) * R) := if degrees then ecliptic (rad (fst (fst v))) (rad (snd (fst v))) else ecliptic (fst (fst v)) (snd (fst v)) in
  if subtract
  then do ts <- times (map snd visits); Ok (map (fun p => (Sky_Model.wrap_ra (fst (at_ (fst p)) - sun (snd p)), snd (at_ (fst p)))) (combine visits ts))
  else Ok (map at_ visits).
(** the loop of line 167 makes the same columns once for each visit *)
Fixpoint ecliptic_loop ecliptic sun times (degrees subtract : bool) (visits : list ((R * R) * R)) (n : nat) (cols : list (R * R)) : result (list (R * R)) :=
  match n with
  | O => Ok cols
  | S k => do c <- ecliptic_pass ecliptic sun times degrees subtract visits; ecliptic_loop ecliptic sun times degrees subtract visits k c
  end.
Definition ecliptic_run ecliptic sun times (degrees subtract present : bool) (visits : list ((R * R) * R)) (old : list (R * R)) : result (list (R * R)) :=
  if present then Ok old
  else do c <- ecliptic_loop ecliptic sun times degrees subtract visits (length visits) old;
       Ok (if degrees then map (fun p => (deg (fst p), deg (snd p))) c else c).

(** * SdssRADecStacker, sdss_stackers.py:13-30.  The data are named columns. *)
Definition sdss_added : list string := ["RA1"; "Dec1"; "RA2"; "Dec2"; "RA3"; "Dec3"; "RA4"; "Dec4"]%string.
Fixpoint sdss_cols (pairs : list (string * string)) (data : list (string * list R)) : result (list (string * list R)) :=
  match pairs with
  | [] => Ok data
  | (p, n) :: t =>
      match dget String.eqb data p with
      | None => Err ValueError   (* numpy: no field of that name *)
      | Some c =>
          let new := if String.eqb (substring 0 2 n) "RA" then map (fun x => Sky_Model.wrap_ra (rad x)) c else map rad c in
          sdss_cols t (dset String.eqb data n new)
      end
  end.
Definition sdss_run (pcols : list string) (data : list (string * list R)) : result (list (string * list R)) :=
  sdss_cols (combine pcols sdss_added) data.

(** * WFDlabelStacker, label_stackers.py *)
(** [s.replace("u,", "")] *)
Fixpoint drop_u (s : string) : string :=
  match s with
  | EmptyString => EmptyString
  | String a t =>
      match t with
      | String b t' => if Ascii.eqb a "u" && Ascii.eqb b "," then drop_u t' else String a (drop_u t)
      | EmptyString => s
      end
  end.
(** [s.split(",")[0]] *)
Fixpoint to_comma (s : string) : string :=
  match s with EmptyString => EmptyString | String a t => if Ascii.eqb a "," then EmptyString else String a (to_comma t) end.
(** define_ddname, lines 78-81 (the second replace has nothing left to replace) *)
Definition ddname (note : string) : string := to_comma (drop_u note).
(** a column of type (str, 15), line 66 *)
Definition stored (s : string) : string := substring 0 15 s.
(** the fraction of line 105; [None] is NaN, for a disc without pixels *)
Definition fraction (footprint : list R) (disc : list nat) : option R :=
  match disc with [] => None | _ => Some (rsum (map (fun i => nth i footprint 0) disc) / INR (length disc)) end.
(** the label of a visit, lines 95-112; [disc] are the pixels within 1.75 degrees (healpy) *)
Definition wfd_label (footprint : list R) (threshold : R) (name : string) (exclude_dd : bool) (disc : list nat) (note : string) : string :=
  stored (if String.prefix "DD" note && exclude_dd then ddname note
          else match fraction footprint disc with
               | Some f => if rleb threshold f then name else "NULL"%string
               | None => "NULL"%string
               end).
Definition wfd_run footprint threshold name exclude_dd (visits : list (list nat * string)) : list string :=
  map (fun v => wfd_label footprint threshold name exclude_dd (fst v) (snd v)) visits.

(** * NEODistStacker, neo_dist_stacker.py *)
Definition limiting_adjust : list (string * R) := [("u", -2.1); ("g", -0.5); ("r", 0.2); ("i", 0.4); ("z", 0.6); ("y", 0.6)]%string.
(** lines 76-79 *)
Definition v5_of (m5 : R) (band : string) : R := m5 + match dget String.eqb limiting_adjust band with Some a => a | None => 0 end.
(** lines 83-91, for one distance *)
Definition helio (elong delta : R) : R := sqrt (1 + delta * delta - 2 * delta * cos elong).
Definition phase (elong delta : R) : R :=
  let r := helio elong delta in acos ((1 - r * r - delta * delta) / (-2 * delta * r)).
Definition appmag (H elong delta : R) : R :=
  let r := helio elong delta in
  let ta2 := tan (phase elong delta / 2) in
  let phi1 := exp (- 3.33 * Rpower ta2 0.63) in
  let phi2 := exp (- 1.87 * Rpower ta2 1.22) in
  H + 5 * log10 (r * delta) - 25/10 * log10 ((1 - 0.15) * phi1 + 0.15 * phi2).
(** lines 95-101; [mag] is the magnitude at a distance *)
Definition geo_dist (mag : R -> R) (v5 : R) (deltas : list R) : R :=
  match filter (fun d => rltb v5 (mag d)) deltas with [] => 0 | d :: t => fold_left Rmin t d end.
(** lines 104-112 *)
Definition neo_xy (dist elong : R) : R * R :=
  if rleb elong (PI / 2) then (dist * sin elong, - dist * cos elong + 1) else (dist * sin (PI - elong), dist * cos (PI - elong) + 1).
(** lines 115-124 *)
Definition halfval (min_az : R) : R := if rltb min_az (- PI / 2) then 180 else PI.
Definition flip (half sun_az az : R) (x : R) : R :=
  if (rltb half sun_az && rltb half az) || (rltb sun_az half && rltb half az) then x * -1 else x.
Definition min_of (l : list R) : R := match l with [] => 0 | x :: t => fold_left Rmin t x end.
Record neo_visit := { n_elong : R; n_band : string; n_sun_az : R; n_az : R; n_m5 : R }.
(** (MaxGeoDist, NEOHelioX, NEOHelioY) for each visit; at least one visit *)
Definition neo_run (H : R) (deltas : list R) (visits : list neo_visit) : list (R * R * R) :=
  let half := halfval (min_of (map n_az visits)) in
  map (fun v =>
         let e := rad (n_elong v) in
         let d := geo_dist (appmag H e) (v5_of (n_m5 v) (n_band v)) deltas in
         let p := neo_xy d e in
         (d, flip half (n_sun_az v) (n_az v) (fst p), snd p)) visits.

(** * M5OptimalStacker, m5_optimal_stacker.py *)
(** lines 83-91, as a set *)
Definition m5_cols_req (airmass dec sky seeing filter_ moon sun : string) : list string := [airmass; dec; sky; seeing; filter_; moon; sun].
Definition k_atm : list (string * R) := [("u", 0.50); ("g", 0.21); ("r", 0.13); ("i", 0.10); ("z", 0.07); ("y", 0.18)]%string.
Definition sky_slopes : list (string * R) :=
  [("g", -0.52611780327408397); ("i", -0.67898669252082422); ("r", -0.61378749766766827); ("u", -0.27840980367303503);
   ("y", -0.69635091524779691); ("z", -0.69652846002009128)]%string.
Record m5_visit := { o_airmass : R; o_dec : R; o_band : string; o_m5 : R; o_moon : R; o_sun : R }.
(** lines 108-109 *)
Definition min_airmass (lat dec : R) : R := 1 / cos (Rabs (rad dec - lat)).
(** lines 111-125 for one visit *)
Definition m5_optimal (lat : R) (v : m5_visit) : result R :=
  match dget String.eqb sky_slopes (o_band v), dget String.eqb k_atm (o_band v) with
  | Some s, Some k =>
      let x := min_airmass lat (o_dec v) in
      let sky := if rltb 0 (o_moon v) || rltb (rad (-18)) (o_sun v) then 0 else s * (o_airmass v - x) in
      Ok (o_m5 v - 0.5 * sky - 0.15 * log10 (x / o_airmass v) - k * (x - o_airmass v))
  | _, _ => Err KeyError
  end.

(** * PhotometricParameters, photometric_parameters.py:62-308 *)
(** the parameters by name: lines 93-138 *)
Definition par_names : list string :=
  ["exptime"; "nexp"; "effarea"; "gain"; "platescale"; "sigma_sys"; "readnoise"; "darkcurrent"; "othernoise"]%string.
Definition band_names : list string := ["u"; "g"; "r"; "i"; "z"; "y"; "any"]%string.
Definition sigma_sys : list (string * R) := [("u", 0.0075); ("g", 0.005); ("r", 0.005); ("i", 0.005); ("z", 0.0075); ("y", 0.0075); ("any", 0.005)]%string.
Definition default_of (par band : string) : option R :=
  if existsb (String.eqb band) band_names
  then dget String.eqb
         [("exptime", 15); ("nexp", 2); ("effarea", PI * ((6.423 / 2 * 100) * (6.423 / 2 * 100))); ("gain", 2.3);
          ("platescale", 0.2); ("sigma_sys", match dget String.eqb sigma_sys band with Some s => s | None => 0 end);
          ("readnoise", 8.8); ("darkcurrent", 0.2); ("othernoise", 0)]%string par
  else None.
(** lines 219-308: [given] are the arguments that are not None; the result the nine parameters *)
Definition phot_params (given : list (string * R)) (bandpass : option string) : result (list (string * R)) :=
  let key := match bandpass with None => "any"%string | Some b => b end in
  let value p := match dget String.eqb given p with Some v => Some v | None => default_of p key end in
  if forallb (fun p => match value p with Some _ => true | None => false end) par_names
  then Ok (map (fun p => (p, match value p with Some v => v | None => 0 end)) par_names) else Err RuntimeError.
(** the setters (lines 310-449) always raise and are not modelled *)

(** * DustValues, photometric_parameters.py:34-59.  A band is a list of (throughput, extinction at E(B-V) = 1) at the
    wavelengths of the grid; Sed.add_dust dims each wavelength by its extinction times E(B-V); the magnitude is that of the sum
    over the grid (Sed.calc_mag, zero point [zp]). *)
Definition band_mag (zp : R) (band : list (R * R)) (ebv : R) : R :=
  zp - 25/10 * log10 (rsum (map (fun p => fst p * Rpower 10 (- (4/10) * (snd p * ebv))) band)).
Definition dust_r_x (zp : R) (band : list (R * R)) (ref_ebv : R) : R := band_mag zp band ref_ebv - band_mag zp band 0.

(** * predicted_zeropoints.py *)
Inductive detector := Both | Itl | E2v.
(** the tables of the three functions: lines 39-57, 118-133 and 194-209 *)
Definition zp_table (d : detector) : list (string * (R * R)) :=
  match d with
  | Both => [("u", (26.52229760811932, -0.45815823969467745)); ("g", (28.50754554409417, -0.20789273881603035));
             ("r", (28.360365503331952, -0.12233514157672552)); ("i", (28.170373076693625, -0.07387773563152214));
             ("z", (27.781368851776005, -0.0573260392897174)); ("y", (26.813708013594344, -0.09549137502152871))]
  | Itl => [("u", (26.52231025834397, -0.45815223255080606)); ("g", (28.507547620761827, -0.20789245761381037));
            ("r", (28.360365812523426, -0.12233512060667238)); ("i", (28.170380673108845, -0.07387767800064417));
            ("z", (27.796728189989665, -0.05739100372986528)); ("y", (26.870922441512732, -0.09474605376660676))]
  | E2v => [("u", (26.58989678516041, -0.4600735940453953)); ("g", (28.567959743207357, -0.20651340321330425));
            ("r", (28.44712188941494, -0.12276192263131014)); ("i", (28.19470048013101, -0.07398443681400534));
            ("z", (27.7817595301949, -0.057334002964289726)); ("y", (26.813791858927964, -0.095496483868828))]
  end%string.
(** lines 84-91, 160-167 and 236-243 *)
Definition hw_table (d : detector) : list (string * R) :=
  match d with
  | Both => [("u", 26.99435242519598); ("g", 28.72132437054738); ("r", 28.487206668180864); ("i", 28.267160381353793);
             ("z", 27.850681356053688); ("y", 26.988827459758397)]
  | Itl => [("u", 26.994361876151476); ("g", 28.721326283280213); ("r", 28.487206961551088); ("i", 28.26716792192087);
            ("z", 27.86618994188104); ("y", 27.04446387553851)]
  | E2v => [("u", 27.063967445283826); ("g", 28.78030646345493); ("r", 28.574328242939043); ("i", 28.291563456601306);
            ("z", 27.85108207854988); ("y", 26.988912028019346)]
  end%string.
(** predicted_zeropoint, lines 59, 135, 211 *)
Definition zeropoint (d : detector) (band : string) (airmass exptime : R) : result R :=
  match dget String.eqb (zp_table d) band with
  | None => Err KeyError
  | Some (z, k) => Ok (z + k * (airmass - 1) + 25/10 * log10 exptime)
  end.
(** predicted_zeropoint_hardware, lines 92, 168, 245 *)
Definition zeropoint_hardware (d : detector) (band : string) (exptime : R) : result R :=
  match dget String.eqb (hw_table d) band with None => Err KeyError | Some z => Ok (z + 25/10 * log10 exptime) end.

(** * stellar_mags.py:57-197 *)
(** u-g, g-r, r-i, i-z, z-y, lines 86-175 *)
Definition star_table : list (string * (R * R * R * R * R)) :=
  [("O", (-0.4835688497, -0.5201721327, -0.3991733698, -0.3106800468, -0.2072290744));
   ("B", (-0.3457202828, -0.4834762052, -0.3812792176, -0.2906072887, -0.1927230035));
   ("A", (0.8823182684, -0.237288029, -0.2280783991, -0.1587960264, -0.03043824335));
   ("F", (0.9140316091, 0.1254277486, -0.03419150003, -0.0802010739, -0.03802756413));
   ("G", (1.198219095, 0.3915608688, 0.09129426676, 0.002604263747, -0.004659443668));
   ("K", (1.716635024, 0.6081567546, 0.1796910856, 0.06492278686, 0.0425155827));
   ("M", (2.747842719, 1.287599638, 0.5375622482, 0.4313486709, 0.219308065));
   ("HeWD_25200_80", (-0.218959, -0.388374, -0.326946, -0.253573, -0.239460));
   ("WD_11000_85", (0.286146, -0.109115, -0.178500, -0.185833, -0.186913));
   ("WD_3000_85", (3.170620, 1.400062, 0.167195, 0.127024, -0.378069))]%string.
Definition stellar_mags (stellar_type : string) (rmag : R) : result (list (string * R)) :=
  match dget String.eqb star_table stellar_type with
  | None => Err ValueError
  | Some (ug, gr, ri, iz, zy) =>
      let i := rmag - ri in
      let z := i - iz in
      let y := z - zy in
      let g := gr + rmag in
      let u := ug + g in
      Ok [("r", rmag); ("i", i); ("z", z); ("y", y); ("g", g); ("u", u)]%string
  end.
