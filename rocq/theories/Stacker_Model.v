(** Model of the stackers: the column bookkeeping of maf/stackers/get_col_info.py and
    MetricBundle._find_req_cols, and the calculations of SaturationStacker, HourAngleStacker, OverheadStacker,
    Dcr2Stacker, NFollowStacker, NoteRootStacker and CoaddStacker. *)
From Verif Require Import Base.
From Coq Require Import QArith Reals Ascii.
Open Scope Z_scope.

(** * Where columns come from *)
(** Stacker classes are numbers.  [w_reg] is the registry at the moment MetricBundle.col_info is built
    (base_stacker.py:9-37, metric_bundle.py:108), [w_added] the class attribute cols_added, [w_units] how many units
    and [w_req] which required columns the default instance has. *)
Record world := {
  w_reg : list nat;
  w_added : nat -> list string;
  w_units : nat -> nat;
  w_req : nat -> list string }.
(** ColInfo.__init__, get_col_info.py:48-53: [for col, units in zip(cols_added, units): source_dict[col] = class] *)
Definition register_class (w : world) (d : list (string * nat)) (c : nat) : list (string * nat) :=
  fold_left (fun d col => dset String.eqb d col c) (firstn (w_units w c) (w_added w c)) d.
Definition source_dict (w : world) : list (string * nat) := fold_left (register_class w) (w_reg w) [].
(** ColInfo.get_data_source, get_col_info.py:81-103; None is the database *)
Definition data_source (w : world) (col : string) : option nat := dget String.eqb (source_dict w) col.

(** A stacker of the bundle's list: its class and its own cols_req *)
Record sinst := { i_class : nat; i_req : list string }.
(** [db_cols.add(col)] for the columns whose source is the database, metric_bundle.py:295-297 and 316-318 *)
Definition from_db (w : world) (cols : list string) : list string :=
  filter (fun c => match data_source w c with None => true | Some _ => false end) cols.
(** the set of stacker classes that are the source of some column, metric_bundle.py:298-301 and 319-320 *)
Definition source_classes (w : world) (cols : list string) : list nat :=
  nodup Nat.eq_dec (flat_map (fun c => match data_source w c with Some k => [k] | None => [] end) cols).
(** "Remove already-specified stackers from default list", metric_bundle.py:302-305 and 321-323 *)
Definition not_listed (stackers : list sinst) (classes : list nat) : list nat :=
  filter (fun k => negb (existsb (fun s => Nat.eqb (i_class s) k) stackers)) classes.
(** the while loop, metric_bundle.py:307-323; [order] is the iteration order of the set of classes; None = the loop
    is still running after [fuel] rounds *)
Fixpoint default_loop (fuel : nat) (w : world) (order : list nat -> list nat) (stackers : list sinst)
    (db : list string) (new : list nat) : option (list sinst * list string) :=
  match new with
  | [] => Some (stackers, db)
  | _ =>
      match fuel with
      | O => None
      | S f =>
          let insts := map (fun k => {| i_class := k; i_req := w_req w k |}) (order new) in
          let stackers' := stackers ++ insts in
          let cols := nodup string_dec (flat_map i_req insts) in
          default_loop f w order stackers' (db ++ from_db w cols) (not_listed stackers' (source_classes w cols))
      end
  end.
(** MetricBundle._find_req_cols, metric_bundle.py:280-330: the final list of stackers and the columns asked of the
    database.  The number of rounds is bounded by the size of the registry (proved to be enough). *)
Definition find_req_cols (w : world) (order : list nat -> list nat) (slicer_cols metric_cols : list string)
    (stackers : list sinst) : option (list sinst * list string) :=
  let known := nodup string_dec (slicer_cols ++ metric_cols ++ flat_map i_req stackers) in
  match default_loop (S (length (w_reg w))) w order stackers (from_db w known)
          (not_listed stackers (source_classes w known)) with
  | None => None
  | Some (final, db) =>
      Some (final, filter (fun c => negb (String.eqb c "metricdata" || String.eqb c "None")) db)
  end.

(** * SaturationStacker._run, general_stackers.py:83-119 *)
(** a visit: its filter, the counts left below saturation once the sky is in (remaining_counts_peak), and the
    magnitude the formula gives when those counts are positive.  The magnitude of a visit with negative counts is the
    logarithm of a negative number, NaN (None). *)
Record satvisit := { sv_filter : string; sv_remaining : Z; sv_mag : Z }.
Definition sat_formula (v : satvisit) : option Z := if sv_remaining v <? 0 then None else Some (sv_mag v).
(** np.where(sim_data[filter_col] == filtername)[0] *)
Fixpoint where_filter (f : string) (vs : list satvisit) (i : nat) : list (nat * satvisit) :=
  match vs with
  | [] => []
  | v :: t => if String.eqb (sv_filter v) f then (i, v) :: where_filter f t (S i) else where_filter f t (S i)
  end.
(** positions, within the visits of the filter, of those with remaining_counts_peak < 0 *)
Fixpoint where_saturated (vs : list satvisit) (i : nat) : list nat :=
  match vs with
  | [] => []
  | v :: t => if sv_remaining v <? 0 then i :: where_saturated t (S i) else where_saturated t (S i)
  end.
(** one round of the loop: the values of the filter's visits are filled in (110-114), then the positions found within
    the filter's visits are used on the whole column (116-117) *)
Definition sat_round (vs : list satvisit) (col : list (option Z)) (f : string) : list (option Z) :=
  let inf := where_filter f vs 0 in
  let col1 := fold_left (fun c p => set_nth c (fst p) (sat_formula (snd p))) inf col in
  fold_left (fun c k => set_nth c k None) (where_saturated (map snd inf) 0) col1.
(** the column starts with whatever np.empty contains; [filters] is np.unique of the filter column *)
Definition sat_run (filters : list string) (vs : list satvisit) (garbage : list (option Z)) : list (option Z) :=
  fold_left (sat_round vs) filters garbage.
(** zeropoints and km, general_stackers.py:84-88: k_atm is only bound when the zeropoints were looked up *)
Definition sat_km {A} (zeropoints km : option A) (loaded_zp loaded_k : A) : result (A * A) :=
  let zp := match zeropoints with None => loaded_zp | Some z => z end in
  let k_atm := match zeropoints with None => Some loaded_k | Some _ => None end in
  match km with
  | Some k => Ok (zp, k)
  | None => match k_atm with Some k => Ok (zp, k) | None => Err UnboundLocalError end
  end.

(** * HourAngleStacker._run, general_stackers.py:673-699: angles are multiples of pi (np.radians divides degrees by
    180), the warnings have no effect on the values *)
Definition hour_angle (degrees : bool) (lst ra : Q) : Q :=
  let to_pi x := (if degrees then x / 180 else x)%Q in
  let ha := (to_pi lst - to_pi ra)%Q in
  let ha := if Qlt_le_dec ha (-1) then (ha + 2)%Q else ha in
  let ha := if Qlt_le_dec 1 ha then (ha - 2)%Q else ha in
  (ha * 12)%Q.

(** * OverheadStacker._run, general_stackers.py:813-849: times in ticks (the same unit for MJD, visit time, exposure
    time and max_gap * 60); max_gap None is infinity; [ov_day] is the day_obs_mjd of the visit *)
Record ovisit := { ov_start : Z; ov_visit : Z; ov_exp : Z; ov_day : Z }.
Definition ov_end (v : ovisit) : Z := ov_start v + ov_visit v.
(** np.diff with prepend=nan: one value per visit, the first is NaN *)
Definition overhead_of (max_gap : option Z) (prev : option ovisit) (v : ovisit) : option Z :=
  match prev with
  | None => None
  | Some p =>
      let o := ov_end v - ov_end p - ov_exp v in
      if match max_gap with Some g => g <? o | None => false end then None
      else if ov_day v =? ov_day p then Some o else None
  end.
Fixpoint overheads (max_gap : option Z) (prev : option ovisit) (vs : list ovisit) : list (option Z) :=
  match vs with
  | [] => []
  | v :: t => overhead_of max_gap prev v :: overheads max_gap (Some v) t
  end.
Definition overhead_run (max_gap : option Z) (vs : list ovisit) : list (option Z) := overheads max_gap None vs.

(** * Dcr2Stacker, general_stackers.py:565-648 *)
(** the four columns of one visit: dcr_var, ra_dcr_var, dec_dcr_var, ra_dec_dcr_cov, from the tangent of the zenith
    distance, the parallactic angle and the magnitude of the visit's band *)
Definition dcr2_columns (ztan pa mag : R) : R * R * R * R :=
  let dcr_var := (ztan ^ 2)%R in
  let rara := (dcr_var * (sin pa) ^ 2)%R in
  let decdec := (dcr_var * (cos pa) ^ 2)%R in
  let radec := (dcr_var * sin pa * cos pa)%R in
  ((mag * dcr_var)%R, (mag * rara)%R, (mag * decdec)%R, (mag * radec)%R).
(** the attributes set by __init__ (603-620): a given zstacker is stored under another name ("ztacker") *)
Record dcr2 {S} := { d_zstacker : option S; d_ztacker : option S; d_pastacker : S }.
Arguments dcr2 S : clear implicits.
Definition dcr2_init {S} (default_z default_pa : S) (zstacker pastacker : option S) : dcr2 S :=
  {| d_zstacker := match zstacker with None => Some default_z | Some _ => None end;
     d_ztacker := zstacker;
     d_pastacker := match pastacker with None => default_pa | Some p => p end |}.
(** the two inner stackers that _run calls, 631-632 *)
Definition dcr2_inner {S} (d : dcr2 S) : result (S * S) :=
  match d_zstacker d with Some z => Ok (z, d_pastacker d) | None => Err AttributeError end.

(** * NFollowStacker._run, n_follow_stacker.py:156-187: [alt scope step v] is the altitude of visit v's target at the
    telescope after the time step; an observatory counts once if its airmass is between 1 and the limit at any step *)
Definition obs_got_it {T V S : Type} (airmass : T -> S -> V -> Q) (limit : Q) (steps : list S) (scope : T) (v : V) : Z :=
  fold_left (fun got s => if (Qle_bool (airmass scope s v) limit && Qle_bool 1 (airmass scope s v))%bool then 1 else got)
    steps 0.
Definition n_observatories {T V S : Type} (airmass : T -> S -> V -> Q) (limit : Q) (steps : list S) (scopes : list T)
    (v : V) : Z :=
  fold_left (fun n scope => n + obs_got_it airmass limit steps scope v) scopes 0.

(** * NoteRootStacker._run, general_stackers.py:132-138: [note.split(",")[0]] *)
Fixpoint note_root (s : string) : string :=
  match s with
  | EmptyString => EmptyString
  | String a t => if Ascii.eqb a "," then EmptyString else String a (note_root t)
  end.
(** stored in a "<U50" column: cut after 50 characters *)
Definition note_root_column (s : string) : string := substring 0 50 (note_root s).

(** * CoaddStacker._run, sn_stacker.py:72-101: positions in ticks, [tol] the 1e-5 tolerance in ticks *)
Record cvisit := { cv_ra : Z; cv_dec : Z; cv_band : Z; cv_night : Z; cv_time : Z; cv_nexp : Z }.
(** lexicographic order of np.unique on a record array; distinct keys in increasing order *)
Definition key := (Z * Z * Z)%type.
Definition key_of (v : cvisit) : key := (cv_ra v, cv_dec v, cv_band v).
Definition key_ltb (a b : key) : bool :=
  let '(x, y, z) := a in let '(x', y', z') := b in
  (x <? x') || ((x =? x') && ((y <? y') || ((y =? y') && (z <? z')))).
Fixpoint insert_uniq {A} (ltb : A -> A -> bool) (x : A) (l : list A) : list A :=
  match l with
  | [] => [x]
  | y :: t => if ltb x y then x :: l else if ltb y x then y :: insert_uniq ltb x t else l
  end.
Definition np_unique {A} (ltb : A -> A -> bool) (l : list A) : list A := fold_right (insert_uniq ltb) [] l.
(** visits within the tolerance of the position and in the band, 79-83 *)
Definition near (tol : Z) (k : key) (v : cvisit) : bool :=
  let '(ra, dec, band) := k in
  (Z.abs (cv_ra v - ra) <? tol) && (Z.abs (cv_dec v - dec) <? tol) && (cv_band v =? band).
(** fill: one row per night; the exposure time and number of exposures are summed (the other columns are not needed
    here), 103-144 *)
Definition coadd_row (k : key) (night : Z) (vs : list cvisit) : cvisit :=
  let '(ra, dec, band) := k in
  {| cv_ra := ra; cv_dec := dec; cv_band := band; cv_night := night;
     cv_time := fold_right Z.add 0 (map cv_time vs); cv_nexp := fold_right Z.add 0 (map cv_nexp vs) |}.
Definition coadd_run (tol : Z) (vs : list cvisit) : list cvisit :=
  flat_map (fun k =>
    let sel := filter (near tol k) vs in
    map (fun n => coadd_row k n (filter (fun v => cv_night v =? n) sel)) (np_unique Z.ltb (map cv_night sel)))
    (np_unique key_ltb (map key_of vs)).
