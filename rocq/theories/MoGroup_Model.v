(** Model of maf/metric_bundles/mo_metric_bundle.py and maf/slicers/mo_slicer.py: how moving object metrics are grouped and
    run.  Column values, H values and metric values are integers; metrics and stackers are arbitrary functions.  The random
    numbers of the visibility stacker, output files and plots are not modelled. *)
From Verif Require Import Base.
Open Scope Z_scope.

(** * Tables of observations and stackers *)
(** a record array: the number of rows and the columns *)
Record mdata := { d_rows : nat; d_col : string -> list Z }.
(** a stacker: class name, attributes, the columns it sets, and their values from the table, href and hval *)
Record mo_stk := { ms_name : string; ms_conf : Z; ms_cols : list string; ms_fun : mdata -> Z -> Z -> string -> list Z }.
Definition in_names (c : string) (l : list string) : bool := existsb (String.eqb c) l.
(** BaseMoStacker.run, mo_stackers.py lines 32-45 *)
Definition stk_run (s : mo_stk) (href hval : Z) (d : mdata) : mdata :=
  if Nat.eqb (d_rows d) 0 then d
  else {| d_rows := d_rows d; d_col := fun c => if in_names c (ms_cols s) then ms_fun s d href hval c else d_col d c |}.
(** BaseStacker.__eq__, base_stacker.py lines 83-111: the class and the attributes *)
Definition stk_eq (a b : mo_stk) : bool := String.eqb (ms_name a) (ms_name b) && (ms_conf a =? ms_conf b).

(** * The slicer, mo_slicer.py *)
(** one observation: its object, a value the constraints can test, and its other columns *)
Record mo_obs := { o_id : Z; o_attr : Z }.
Record mo_slicer := { sl_orbit_file : string; sl_obs_file : option string; sl_hrange : option (list Z);
                      sl_ids : list Z; sl_h : list Z; sl_all_obs : option (list mo_obs); sl_obs : option (option (list mo_obs)) }.
(** __init__, setup_slicer, lines 27-64: [sl_obs] is None while the attribute does not exist, and Some None when it is set
    to None *)
Definition setup_slicer (hrange : option (list Z)) (orbit_file : string) (ids hs : list Z) (obs_file : option (string * list mo_obs)) : mo_slicer :=
  {| sl_orbit_file := orbit_file; sl_obs_file := option_map fst obs_file; sl_hrange := hrange; sl_ids := ids; sl_h := hs;
     sl_all_obs := option_map snd obs_file; sl_obs := match obs_file with Some _ => None | None => Some None end |}.
(** slice_points["H"] and shape, read_orbits lines 66-85 *)
Definition sl_H (s : mo_slicer) : list Z := match sl_hrange s with Some h => h | None => sl_h s end.
Definition sl_shape (s : mo_slicer) : nat * nat := (length (sl_ids s), match sl_hrange s with Some h => length h | None => 1%nat end).
(** subset_obs, lines 107-114: a constraint is a test of the observations *)
Definition subset_obs (c : option (mo_obs -> bool)) (s : mo_slicer) : result mo_slicer :=
  let set o := {| sl_orbit_file := sl_orbit_file s; sl_obs_file := sl_obs_file s; sl_hrange := sl_hrange s; sl_ids := sl_ids s; sl_h := sl_h s;
                  sl_all_obs := sl_all_obs s; sl_obs := Some o |} in
  match c with
  | None => Ok (set (sl_all_obs s))
  | Some p => match sl_all_obs s with Some l => Ok (set (Some (filter p l))) | None => Err AttributeError end
  end.
(** _slice_obs, lines 116-143: the observations of the object and the H values *)
Definition slice_obs (s : mo_slicer) (idx : nat) : result (list mo_obs * list Z) :=
  match nth_error (sl_ids s) idx with
  | None => Err IndexError
  | Some id =>
      match sl_obs s with
      | None => Err AttributeError
      | Some None => Err TypeError
      | Some (Some l) =>
          Ok (filter (fun o => o_id o =? id) l, match sl_hrange s with Some h => h | None => [nth idx (sl_h s) 0] end)
      end
  end.
(** __eq__, lines 163-171 *)
Fixpoint zlist_eqb (a b : list Z) : bool := match a, b with [], [] => true | x :: a', y :: b' => (x =? y) && zlist_eqb a' b' | _, _ => false end.
Definition ostr_eqb (a b : option string) : bool := match a, b with Some x, Some y => String.eqb x y | None, None => true | _, _ => false end.
Definition slicer_eq (a b : mo_slicer) : bool :=
  String.eqb (sl_orbit_file b) (sl_orbit_file a) && ostr_eqb (sl_obs_file b) (sl_obs_file a) && zlist_eqb (sl_H b) (sl_H a).

(** * Bundles, mo_metric_bundle.py lines 111-316 *)
Record child := { ch_name : string; ch_bad : Z; ch_run : mdata -> Z -> Z -> Z }.
Record mo_metric := { mm_name : string; mm_bad : Z; mm_run : mdata -> Z -> Z; mm_children : list child }.
Record mo_bundle := { mb_metric : mo_metric; mb_constraint : option string; mb_stackers : list mo_stk; mb_info : string;
                      mb_summary : list string; mb_children : list (string * child * list string) }.
(** __init__ lines 176-244, _build_metadata lines 265-278 and set_child_bundles lines 284-316.  The default stacker is an argument; the label is made from
    the attribute obsfile of the slicer, without its suffixes, which no moving object slicer has *)
Definition obsfile (s : mo_slicer) : option string := None.
Definition build_info (strip : string -> string) (s : mo_slicer) (constraint : option string) (info : option string) : string :=
  match info with
  | Some i => i
  | None => (match obsfile s with Some f => strip f | None => "noObs" end ++ match constraint with Some c => " " ++ c | None => "" end)%string
  end.
Definition make_bundle (strip : string -> string) (mag : mo_stk) (m : mo_metric) (sl : mo_slicer) (constraint : option string) (stackers : list mo_stk) (info : option string) (summary : list string) : mo_bundle :=
  let constraint := match constraint with Some c => if String.eqb c "" then None else Some c | None => None end in
  {| mb_metric := m; mb_constraint := constraint;
     mb_stackers := if existsb (fun s => String.eqb (ms_name s) "MoMagStacker") stackers then stackers else stackers ++ [mag];
     mb_info := build_info strip sl constraint info;
     mb_summary := match mm_children m with [] => summary | _ => [] end;
     mb_children := map (fun c => (ch_name c, c, summary)) (mm_children m) |}.

(** * Groups, lines 353-606 *)
Definition key := string.
(** __init__ lines 378-393: the slicers of the bundles must be equal; the list of constraints is in no particular order *)
Definition group_init (slicers : list mo_slicer) : result mo_slicer :=
  match slicers with [] => Err IndexError | s :: _ => if forallb (fun b => slicer_eq b s) slicers then Ok s else Err ValueError end.
(** _check_compatible lines 395-425, for bundles of one group: maps_list.sort() is None *)
Definition mo_compatible (a b : mo_bundle) : bool :=
  ostr_eqb (mb_constraint a) (mb_constraint b) &&
  negb (existsb (fun s => existsb (fun s' => String.eqb (ms_name s) (ms_name s') && negb (stk_eq s s')) (mb_stackers b)) (mb_stackers a)).
(** _find_compatible lines 427-480.  The loop over the lists overwrites found_compatible, and compatible_list is the last
    one after it, so only the last list counts *)
Definition last_accepts (d : list (key * mo_bundle)) (lists : list (list key)) (b : mo_bundle) : bool :=
  fold_left (fun _ l => forallb (fun k => match dget String.eqb d k with Some c => mo_compatible c b | None => true end) l) lists false.
Fixpoint append_last {A} (l : list (list A)) (x : A) : list (list A) :=
  match l with [] => [] | [y] => [y ++ [x]] | y :: t => y :: append_last t x end.
Definition place_key (d : list (key * mo_bundle)) (lists : list (list key)) (k : key) : list (list key) :=
  match dget String.eqb d k with
  | None => lists
  | Some b => if last_accepts d lists b then append_last lists k else lists ++ [[k]]
  end.
Definition find_compatible (d : list (key * mo_bundle)) (keys : list key) : list (list key) := fold_left (place_key d) keys [].

(** _run_compatible lines 511-599 *)
(** the stackers of all bundles of the group, without repetitions, lines 526-541 *)
Definition uniq_stk (l : list mo_stk) : list mo_stk := fold_left (fun u s => if existsb (fun t => stk_eq s t) u then u else u ++ [s]) l [].
Definition group_stackers (d : list (key * mo_bundle)) : list mo_stk := uniq_stk (flat_map (fun kb => mb_stackers (snd kb)) d).
Definition run_stackers (l : list mo_stk) (href hval : Z) (t : mdata) : mdata := fold_left (fun t s => stk_run s href hval t) l t.
(** one value of a bundle and its children; None is masked; lines 561-589 *)
Definition unmask (v bad : Z) : option Z := if v =? bad then None else Some v.
Definition eval_bundle (b : mo_bundle) (t : mdata) (hval : Z) : option Z * list (option Z) :=
  let masked := (None, map (fun _ => None) (mb_children b)) in
  if Nat.eqb (d_rows t) 0 then masked
  else match unmask (mm_run (mb_metric b) t hval) (mm_bad (mb_metric b)) with
       | None => masked
       | Some v => (Some v, map (fun c => unmask (ch_run (snd (fst c)) t hval v) (ch_bad (snd (fst c)))) (mb_children b))
       end.
(** the loop over the H values of an object: the table is passed on from one H value to the next *)
Fixpoint run_object (sts : list mo_stk) (bs : list mo_bundle) (href : Z) (hvals : list Z) (t : mdata) : list (list (option Z * list (option Z))) :=
  match hvals with
  | [] => []
  | h :: rest => let t' := run_stackers sts href h t in map (fun b => eval_bundle b t' h) bs :: run_object sts bs href rest t'
  end.
(** the values of one list of compatible bundles, for every object (its reference H and its table) *)
Definition lookup_all (d : list (key * mo_bundle)) (ks : list key) : list mo_bundle :=
  flat_map (fun k => match dget String.eqb d k with Some b => [b] | None => [] end) ks.
Definition run_compatible (d : list (key * mo_bundle)) (ks : list key) (objects : list (Z * list Z * mdata)) : list (list (list (option Z * list (option Z)))) :=
  map (fun o => run_object (group_stackers d) (lookup_all d ks) (fst (fst o)) (snd (fst o)) (snd o)) objects.
(** run_constraint lines 482-509 and run_all lines 601-606: the keys that are computed, in order *)
Definition matching (d : list (key * mo_bundle)) (c : option string) : list key :=
  map fst (filter (fun kb => ostr_eqb (mb_constraint (snd kb)) c) d).
Definition run_all (d : list (key * mo_bundle)) (constraints : list (option string)) : list (option string * list (list key)) :=
  flat_map (fun c => match matching d c with [] => [] | ks => [(c, find_compatible d ks)] end) constraints.
