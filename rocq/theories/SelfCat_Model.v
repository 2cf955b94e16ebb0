(** Model of rubin_sim/selfcal/generate_catalog.py, star_tools.py and offsets.py (NoOffset, OffsetSys, OffsetSNR).  Numbers are reals.
    The projection of rubin_scheduler is an argument, and so are random numbers.  The k-d tree is a test of the distance; the order of the
    stars that it finds is that of the stars.  Progress output is not modelled. *)
From Coq Require Import Reals.
From Verif Require Import Base Astrom_Model Orbits_Model.
Open Scope R_scope.

(** rows of stars_array and of visits: the columns that are used; every band has its column of magnitudes *)
Record star := { s_id : Z; s_ra : R; s_dec : R; s_mag : string -> R }.
Record visit := { v_id : Z; v_ra : R; v_dec : R; v_rot : R; v_m5 : R }.
(** a star in a visit: the columns x, y, sub_patch and patch_id (generate_catalog.py lines 108-117) *)
Record found := { f_star : star; f_x : R; f_y : R; f_sub : Z; f_patch : Z }.

(** np.radians *)
Definition radians (x : R) : R := x * PI / 180.
(** treexyz, lines 27-33 *)
Definition treexyz (ra dec : R) : R * R * R := (cos dec * cos ra, cos dec * sin ra, sin dec).
Definition chord (p q : R * R * R) : R :=
  let '(x, y, z) := p in let '(x', y', z') := q in sqrt ((x' - x) ^ 2 + (y' - y) ^ 2 + (z' - z) ^ 2).
(** lines 103-106 *)
Definition tree_radius (radius_fov : R) : R := chord (1, 0, 0) (treexyz (radians radius_fov) 0).
(** build_tree, lines 36-57: the checks *)
Definition build_tree (stars : list star) : result unit :=
  if existsb (fun s => if Rlt_dec (PI * 2) (Rabs (radians (s_ra s))) then true else if Rlt_dec (PI * 2) (Rabs (radians (s_dec s))) then true else false) stars
  then Err ValueError else match stars with [] => Err ValueError | _ => Ok tt end.
(** query_ball_point, line 149: closed balls *)
Definition in_ball (radius_fov : R) (v : visit) (s : star) : bool :=
  if Rle_dec (chord (treexyz (radians (s_ra s)) (radians (s_dec s))) (treexyz (radians (v_ra v)) (radians (v_dec v)))) (tree_radius radius_fov) then true else false.

(** np.floor; the assignment of a real number to a column of integers *)
Definition floor (x : R) : Z := Int_part x.
Definition trunc (x : R) : Z := if Rle_dec 0 x then Int_part x else (- Int_part (- x))%Z.

(** * offsets.py *)
(** what an offset returns: an array of numbers, or one with named columns *)
Inductive darray := Plain (l : list R) | Structured (n : nat).
Record offset := { newkey : string; call : list found -> visit -> list (string * darray) -> result darray }.
(** a + d of arrays: of different lengths raises ValueError (a single number is not modelled), with named columns TypeError *)
Fixpoint add2 (a b : list R) : list R := match a, b with x :: a', y :: b' => (x + y) :: add2 a' b' | _, _ => [] end.
Definition add_array (a : list R) (d : darray) : result (list R) :=
  match d with
  | Plain l => if Nat.eqb (length a) (length l) then Ok (add2 a l) else Err ValueError
  | Structured _ => Err TypeError
  end.
Fixpoint add_all (a : list R) (l : list (string * darray)) : result (list R) :=
  match l with [] => Ok a | (_, d) :: t => do a' <- add_array a d; add_all a' t end.
(** np.log10; OffsetSNR.calc_mag_errors, lines 98-107, the error *)
Definition log10 (x : R) : R := ln x / ln 10.
Definition mag_error (m m5 : R) : R := 2.5 * log10 (1 + 1 / m52snr (Some (1/25)) m m5).
(** NoOffset, lines 21-28 *)
Definition no_offset : offset := {| newkey := "dmag_zero"; call := fun stars _ _ => Ok (Structured (length stars)) |}.
(** OffsetSys, lines 31-40; [randn] gives that many random numbers *)
Definition offset_sys (error_sys : R) (randn : nat -> list R) : offset :=
  {| newkey := "dmag_sys"; call := fun stars _ _ => Ok (Plain (map (fun z => z * error_sys) (randn (length stars)))) |}.
(** OffsetSNR, lines 86-119 *)
Definition mul2 (a b : list R) : list R := map (fun q => fst q * snd q) (combine a b).
Definition offset_snr (lsst_filter : string) (randn : nat -> list R) : offset :=
  {| newkey := "dmag_snr";
     call := fun stars v dmags => do temp <- add_all (map (fun f => s_mag (f_star f) lsst_filter) stars) dmags;
                                  Ok (Plain (mul2 (randn (length temp)) (map (fun m => mag_error m (v_m5 v)) temp))) |}.

(** * The catalogue *)
(** the columns of the result, lines 121-130 *)
Record row := { r_id : Z; r_patch : Z; r_obs : R; r_unc : R; r_mag : R; r_ra : R; r_dec : R }.
Section Catalog.
  (** gnomonic_project_toxy(ra, dec, ra of the centre, dec of the centre), radians *)
  Context (proj : R -> R -> R -> R -> R * R).
  (** stars_project, star_tools.py lines 7-25 *)
  Definition project (v : visit) (s : star) : R * R :=
    let '(xt, yt) := proj (radians (s_ra s)) (radians (s_dec s)) (radians (v_ra v)) (radians (v_dec v)) in
    let sn := sin (radians (v_rot v)) in let cs := cos (radians (v_rot v)) in
    (cs * xt + sn * yt, - 1 * sn * xt + cs * yt).
  (** assign_patches, star_tools.py lines 28-42, for one star; the patch is computed from the column of integers *)
  Definition assign_patch (v : visit) (n_patches : Z) (radius_fov : R) (s : star) : found :=
    let '(x, y) := project v s in
    let maxy := snd (proj 0 (radians radius_fov) 0 0) in
    let nsides := sqrt (IZR n_patches) in
    let px := floor ((x + maxy) / (2 * maxy) * nsides) in
    let py := floor ((y + maxy) / (2 * maxy) * nsides) in
    let sub := trunc (IZR px + IZR py * nsides) in
    {| f_star := s; f_x := x; f_y := y; f_sub := sub; f_patch := sub + v_id v * n_patches |}.
  (** lines 157-158: the offsets are called one after the other, each with what the others gave *)
  Fixpoint call_offsets (offs : list offset) (stars : list found) (v : visit) (dmags : list (string * darray)) : result (list (string * darray)) :=
    match offs with
    | [] => Ok dmags
    | o :: t => do d <- call o stars v dmags; call_offsets t stars v (dset String.eqb dmags (newkey o) d)
    end.
  (** the body of the loop, lines 144-180: assign_patches is called with its default radius of 1.8 degrees (line 154) *)
  Definition observe (stars : list star) (offs : list offset) (lsst_filter : string) (n_patches : Z) (radius_fov uncert_floor : R) (v : visit) : result (list row) :=
    let stars_in := map (assign_patch v n_patches 1.8) (filter (in_ball radius_fov v) stars) in
    do dmags <- call_offsets offs stars_in v [];
    do obs_mag <- add_all (map (fun f => s_mag (f_star f) lsst_filter) stars_in) dmags;
    Ok (map (fun q => let '(f, m) := q in
          {| r_id := s_id (f_star f); r_patch := f_patch f; r_obs := m; r_unc := sqrt ((mag_error m (v_m5 v)) ^ 2 + uncert_floor ^ 2);
             r_mag := s_mag (f_star f) lsst_filter; r_ra := s_ra (f_star f); r_dec := s_dec (f_star f) |}) (combine stars_in obs_mag)).
  (** generate_catalog, lines 60-188: None without offsets; np.concatenate of nothing raises ValueError *)
  Definition generate_catalog (visits : list visit) (stars : list star) (offsets : option (list offset)) (lsst_filter : string) (n_patches : Z)
    (radius_fov uncert_floor : R) : result (option (list row)) :=
    match offsets with
    | None => Ok None
    | Some offs =>
        do _ <- build_tree stars;
        do l <- all_ok (map (observe stars offs lsst_filter n_patches radius_fov uncert_floor) visits);
        match l with [] => Err ValueError | _ => Ok (Some (concat l)) end
    end.
End Catalog.
