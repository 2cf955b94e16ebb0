(** Model of rubin_sim/moving_objects/base_obs.py (trailing losses, footprints, settings) and of direct_obs.py: DirectObs.run.
    Numbers are reals (binary rounding is not modelled).  The angular separation and the camera footprint of rubin_scheduler, the
    ephemerides of pyoorb and the colours of the spectra are arguments. *)
From Coq Require Import Reals Ascii.
From Verif Require Import Base Orbits_Model OrbitsIO_Model.
Open Scope R_scope.

(** * base_obs.py: calc_trailing_losses, lines 213-254 *)
(** np.log10 of a positive number *)
Definition log10 (x : R) : R := ln x / ln 10.
(** line 251 *)
Definition trail_x (velocity seeing texp : R) : R := velocity * texp / seeing / 24.
(** lines 252, 253 *)
Definition dmag_trail (velocity seeing texp : R) : R :=
  let x := trail_x velocity seeing texp in 1.25 * log10 (1 + 0.761 * x ^ 2 / (1 + 1.162 * x)).
Definition dmag_detect (velocity seeing texp : R) : R :=
  let x := trail_x velocity seeing texp in 1.25 * log10 (1 + 0.420 * x ^ 2 / (1 + 0.003 * x)).

(** * Visits, ephemerides and settings *)
(** a row of obs_data; only the columns that are used *)
Record visit := { v_id : Z; v_time : R; v_ra : R; v_dec : R; v_rot : R; v_seeing : R; v_exp : R; v_m5 : R; v_night : Z; v_band : string }.
(** a row of the ephemerides (basic type) *)
Record eph := { e_time : R; e_ra : R; e_dec : R; e_dradt : R; e_ddecdt : R; e_phase : R; e_elong : R; e_helio : R; e_geo : R;
                e_magv : R; e_anomaly : R; e_velocity : R }.
(** a position of the pre-computed grid: ra and dec in degrees *)
Definition place := (R * R)%type.
(** __init__ of both classes, base_obs.py lines 85-134, direct_obs.py lines 102-162: the settings that are used here *)
Record settings := { s_footprint : string; s_r_fov : R; s_x_tol : R; s_y_tol : R; s_mode : string; s_prelim : string; s_type : string;
                     s_degrees : bool; s_tstep : R; s_rough_tol : R; s_pre_tol : R }.
(** base_obs.py lines 121-134 and direct_obs.py lines 160-162: names of footprints are put in lower case; the modes are checked, the
    preliminary one without regard to case *)
Definition new_obs (s : settings) : result settings :=
  if negb (String.eqb (lower (s_mode s)) "2body" || String.eqb (lower (s_mode s)) "nbody") then Err ValueError
  else if negb (String.eqb (s_prelim s) "2body" || String.eqb (s_prelim s) "nbody") then Err ValueError
  else Ok {| s_footprint := lower (s_footprint s); s_r_fov := s_r_fov s; s_x_tol := s_x_tol s; s_y_tol := s_y_tol s;
             s_mode := s_mode s; s_prelim := s_prelim s; s_type := s_type s; s_degrees := s_degrees s; s_tstep := s_tstep s;
             s_rough_tol := s_rough_tol s; s_pre_tol := s_pre_tol s |}.
(** _setup_info, lines 136-155: the names and values of self.info that speak of the footprint *)
Inductive info_value := InfoText (s : string) | InfoNumber (x : R).
Definition info (s : settings) : list (string * info_value) :=
  [("footprint", InfoText (s_footprint s)); ("eph_mode", InfoText (s_mode s)); ("eph_type", InfoText (s_type s))]%string ++
  (if String.eqb (s_footprint s) "circle" then [("r_fov", InfoNumber (s_r_fov s))]%string else []) ++
  (if String.eqb (s_footprint s) "rectangle" then [("xtol", InfoNumber (s_x_tol s)); ("ytol", InfoNumber (s_y_tol s))]%string else []).

(** * Footprints, base_obs.py lines 339-468 *)
Definition leb (x y : R) : bool := if Rle_dec x y then true else false.
Definition ltb (x y : R) : bool := if Rlt_dec x y then true else false.
(** np.degrees, np.radians *)
Definition to_degrees (x : R) : R := x * 180 / PI.
Definition to_radians (x : R) : R := x * PI / 180.
(** np.where(test)[0] over the pairs of a position and a visit: the two arrays have the same length *)
Definition where_ {A} (test : A -> bool) (l : list A) : list nat :=
  map fst (filter (fun p => test (snd p)) (combine (seq 0 (length l)) l)).
Section Footprints.
  (** rubin_scheduler.utils.angular_separation(ra1, dec1, ra2, dec2), degrees *)
  Context (sep : R -> R -> R -> R -> R).
  (** whether LsstCameraFootprint has a position on its detectors: ra, dec, ra, dec and rotation of the visit, degrees *)
  Context (camera : R -> R -> R -> R -> R -> bool).
  (** lines 359-375; the tolerance may differ from visit to visit *)
  Definition in_circle (s : settings) (p : place) (v : visit) (r : R) : bool :=
    if negb (s_degrees s) then leb (sep (fst p) (snd p) (to_degrees (v_ra v)) (to_degrees (v_dec v))) r
    else leb (sep (fst p) (snd p) (v_ra v) (v_dec v)) r.
  (** lines 397-401 *)
  Definition in_rectangle (s : settings) (p : place) (v : visit) : bool :=
    let delta_dec := Rabs (snd p - v_dec v) in
    let delta_ra := Rabs ((fst p - v_ra v) * cos (to_radians (v_dec v))) in
    leb delta_dec (s_y_tol s) && leb delta_ra (s_x_tol s).
  (** lines 403-440 *)
  Definition in_camera (s : settings) (p : place) (v : visit) : bool :=
    if negb (s_degrees s) then camera (fst p) (snd p) (to_degrees (v_ra v)) (to_degrees (v_dec v)) (to_degrees (v_rot v))
    else camera (fst p) (snd p) (v_ra v) (v_dec v) (v_rot v).
  (** sso_in_fov, lines 442-468: the indices and the settings afterwards *)
  Definition set_circle (s : settings) : settings :=
    {| s_footprint := "circle"; s_r_fov := s_r_fov s; s_x_tol := s_x_tol s; s_y_tol := s_y_tol s;
       s_mode := s_mode s; s_prelim := s_prelim s; s_type := s_type s; s_degrees := s_degrees s; s_tstep := s_tstep s;
       s_rough_tol := s_rough_tol s; s_pre_tol := s_pre_tol s |}.
  Definition sso_in_fov (s : settings) (l : list (place * visit)) : list nat * settings :=
    if String.eqb (s_footprint s) "camera" then (where_ (fun q => in_camera s (fst q) (snd q)) l, s)
    else if String.eqb (s_footprint s) "rectangle" then (where_ (fun q => in_rectangle s (fst q) (snd q)) l, s)
    else if String.eqb (s_footprint s) "circle" then (where_ (fun q => in_circle s (fst q) (snd q) (s_r_fov s)) l, s)
    else let s' := set_circle s in (where_ (fun q => in_circle s' (fst q) (snd q) (s_r_fov s')) l, s').

  (** * direct_obs.py: run *)
  (** pyoorb's ephemeris of an object (numbered as in the orbits), in a mode, at a time: times are taken one by one *)
  Context (ephem : nat -> string -> R -> eph).
  (** np.floor, np.ceil *)
  Definition floor (x : R) : R := IZR (Int_part x).
  Definition ceil (x : R) : Z := (- Int_part (- x))%Z.
  (** min and max of a column that is not empty *)
  Definition minimum (l : list R) : R := match l with [] => 0 | x :: t => fold_left Rmin t x end.
  Definition maximum (l : list R) : R := match l with [] => 0 | x :: t => fold_left Rmax t x end.
  (** np.arange *)
  Definition arange (start stop step : R) : result (list R) :=
    if Req_EM_T step 0 then Err ZeroDivisionError
    else Ok (map (fun i => start + INR i * step) (seq 0 (Z.to_nat (ceil ((stop - start) / step))))).
  (** lines 255-258 *)
  Definition rough_times (s : settings) (obs : list visit) : result (list R) :=
    let time_start := floor (minimum (map v_time obs) + 0.16 - 0.5) - s_tstep s in
    let time_end := IZR (ceil (maximum (map v_time obs) + 0.16 + 0.5)) + s_tstep s in
    arange time_start (time_end + s_tstep s / 2) (s_tstep s).
  (** np.searchsorted(l, t), side left, of a sorted l: the number of entries before the first that is not below t *)
  Fixpoint searchsorted (l : list R) (t : R) : nat :=
    match l with [] => 0%nat | x :: r => if Rlt_dec x t then S (searchsorted r t) else 0%nat end.
  Definition place_of (e : eph) : place := (e_ra e, e_dec e).
  (** generate_ephemerides(...)[0], base_obs.py lines 169-211: the modes and types are those of
      ooephemerides.py lines 593-617 *)
  Definition ephemerides (i : nat) (mode type : string) (times : list R) : result (list eph) :=
    match times with
    | [] => Err ValueError
    | _ => do m <- dynamics mode;
           if String.eqb (lower type) "basic" || String.eqb (lower type) "full" then Ok (map (ephem i m) times) else Err ValueError
    end.
  (** lines 279-296 *)
  Definition rough_direct (s : settings) (obs : list visit) (i : nat) : result (list nat) :=
    do times <- rough_times s obs; do ephs <- ephemerides i (s_prelim s) (s_type s) times;
    do at_ <- all_ok (map (fun v => arr_get ephs (searchsorted (map e_time ephs) (v_time v))) obs);
    Ok (where_ (fun q => in_circle s (place_of (fst q)) (snd q) (s_rough_tol s)) (combine at_ obs)).
  (** lines 197-212: the tolerances of one object; differences between neighbours in time *)
  Fixpoint moves (l : list place) : list R :=
    match l with
    | p :: ((q :: _) as r) => sep (fst p) (snd p) (fst q) (snd q) :: moves r
    | _ => []
    end.
  Definition object_tol (s : settings) (l : list place) : list R :=
    map (fun p => Rmax (fst p) (snd p) + s_pre_tol s) (combine (moves l ++ [0]) (0 :: moves l)).
  (** lines 300-306: the index of the pre-computed time that is nearest; the index -1 is the last one *)
  Definition nearest (mjds : list R) (t : R) : result nat :=
    let pos := searchsorted mjds t in
    let left := match pos with O => (length mjds - 1)%nat | S k => k end in
    do m <- arr_get mjds pos; do m' <- arr_get mjds left;
    Ok (if Rlt_dec (Rabs (t - m')) (Rabs (t - m)) then left else pos).
  (** lines 298-312 *)
  Definition rough_precomputed (s : settings) (obs : list visit) (mjds : list R) (positions : list (list place)) (i : nat) : result (list nat) :=
    do l <- arr_get positions i; do idx <- all_ok (map (fun v => nearest mjds (v_time v)) obs);
    do at_ <- all_ok (map (arr_get l) idx); do tol <- all_ok (map (arr_get (object_tol s l)) idx);
    Ok (where_ (fun q => in_circle s (fst (fst q)) (snd q) (s_r_fov s + snd (fst q))) (combine (combine at_ tol) obs)).
  (** lines 188-196: whether the pre-computed times are used *)
  Definition covered (obs : list visit) (mjds : list R) : bool :=
    negb (ltb (minimum (map v_time obs)) (minimum mjds) || ltb (maximum mjds) (maximum (map v_time obs))).
  (** a row of the result *)
  Record row_ := { r_obj : Z; r_id : Z; r_sed : string; r_eph : eph; r_color : R; r_trail : R; r_detect : R; r_exp : R; r_m5 : R;
                   r_seeing : R; r_time : R; r_night : Z; r_band : string }.
  (** the assignment of an identifier to an array of integers; [int_of] is int() of text *)
  Context (int_of : string -> option Z).
  Definition to_int (c : cell) : result Z :=
    match c with
    | Num x => Ok (if Rle_dec 0 x then Int_part x else (- Int_part (- x))%Z)
    | Nan => Err ValueError
    | Txt t => match int_of t with Some z => Ok z | None => Err ValueError end
    end.
  (** the assignment of text to an array of at most forty characters *)
  Fixpoint first_chars (n : nat) (t : string) : string :=
    match n, t with S k, String a r => String a (first_chars k r) | _, _ => EmptyString end.
  Definition to_u40 (t : string) : string := first_chars 40 t.
  (** the body of the loop after the rough selection, lines 313-349: the rows of object i before lines 354-374, each with the number of
      its visit, and the settings afterwards.  Ephemerides of the full type have columns that the result has not: ValueError *)
  Definition precise (s : settings) (obs : list visit) (i : nat) (obj : cell * string) (rough : list nat) : result (list (Z * string * eph * nat) * settings) :=
    match rough with
    | [] => Ok ([], s)
    | _ =>
        do visits <- all_ok (map (arr_get obs) rough);
        do ephs <- ephemerides i (s_mode s) (s_type s) (map v_time visits);
        let '(idx, s') := sso_in_fov s (combine (map place_of ephs) visits) in
        do id <- to_int (fst obj);
        if String.eqb (lower (s_type s)) "full" then Err ValueError
        else
          do es <- all_ok (map (arr_get ephs) idx); do ks <- all_ok (map (arr_get rough) idx);
          Ok (map (fun q => (id, to_u40 (snd obj), fst q, snd q)) (combine es ks), s')
    end.
  (** the loop, lines 267-349 *)
  Fixpoint loop (rough : nat -> result (list nat)) (s : settings) (obs : list visit) (i : nat) (objs : list (cell * string)) : result (list (Z * string * eph * nat) * settings) :=
    match objs with
    | [] => Ok ([], s)
    | o :: r =>
        do k <- rough i; do p <- precise s obs i o k; do q <- loop rough (snd p) obs (S i) r;
        Ok (fst p ++ fst q, snd q)
    end.
  (** self.calc_colors(sname)[f], lines 306-337: reading and computing the colours of a spectrum may raise, and so may the band *)
  Context (color : string -> string -> result R).
  (** lines 354-374, for the row of one visit: the columns that are added.  The values are looked up spectrum by spectrum and band by band
      in the code; which error is raised first is not modelled *)
  Definition add_info (obs : list visit) (q : Z * string * eph * nat) : result row_ :=
    let '(id, sed, e, k) := q in
    do v <- arr_get obs k; do c <- color sed (v_band v);
    Ok {| r_obj := id; r_id := v_id v; r_sed := sed; r_eph := e; r_color := c;
          r_trail := dmag_trail (e_velocity e) (v_seeing v) (v_exp v); r_detect := dmag_detect (e_velocity e) (v_seeing v) (v_exp v);
          r_exp := v_exp v; r_m5 := v_m5 v; r_seeing := v_seeing v; r_time := v_time v; r_night := v_night v; r_band := to_u40 (v_band v) |}.
  (** run, lines 164-376; [pre] holds object_mjds and object_positions, None if object_mjds is None.  The minimum of no visits raises
      ValueError (line 189 or 256).  The settings afterwards are returned too *)
  Definition run (s : settings) (obs : list visit) (objs : list (cell * string)) (pre : option (list R * list (list place))) : result (list row_ * settings) :=
    match obs with
    | [] => Err ValueError
    | _ =>
        let rough := match pre with
                     | Some (mjds, positions) =>
                         if covered obs mjds then rough_precomputed s obs mjds positions else rough_direct s obs
                     | None => rough_direct s obs
                     end in
        do p <- loop rough s obs 0 objs; do rows <- all_ok (map (add_info obs) (fst p)); Ok (rows, snd p)
    end.
End Footprints.

(** * make_lsst_obs.py: where the result is written *)
(** os.path.join of two parts *)
Definition is_abs (p : string) : bool := match p with String a _ => Ascii.eqb a "/" | EmptyString => false end.
Fixpoint ends_slash (p : string) : bool :=
  match p with EmptyString => false | String a EmptyString => Ascii.eqb a "/" | String _ r => ends_slash r end.
Definition path_join (a b : string) : string :=
  if is_abs b then b else if String.eqb a "" || ends_slash a then a ++ b else a ++ "/" ++ b.
(** setup_args line 184 with an --output_file, then make_lsst_obs line 277 *)
Definition output_path (out_dir output_file : string) : string :=
  let args_output_file := path_join out_dir output_file in path_join out_dir args_output_file.
