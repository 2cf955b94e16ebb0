(** Model of rubin_sim/maf/metric_bundles/metric_bundle_group.py (grouping of
    bundles, the per-slice loop with its cache, masking) *)
From Verif Require Import Base.

(** * Bundles and compatibility *)

(** A stacker as far as the grouping is concerned: its class name and its
    attributes (metric_bundle_group.py:170-175, base_stacker.py:84-120).
    Simplification: all public attributes are one comparable value [st_attrs]. *)
Record stacker := { st_class : string; st_attrs : Z }.

(** base_stacker.py:84-111 [BaseStacker.__eq__]: class names, then attributes. *)
Definition stacker_eqb (s1 s2 : stacker) : bool :=
  if negb (String.eqb (st_class s1) (st_class s2)) then false
  else Z.eqb (st_attrs s1) (st_attrs s2).

(** base_stacker.py:113-120 [BaseStacker.__ne__]. *)
Definition stacker_neb (s1 s2 : stacker) : bool := if stacker_eqb s1 s2 then false else true.

(** The fields of a MetricBundle used for grouping (metric_bundle.py:110-204).
    [b_slicer] identifies a slicer up to the slicer's own [==]
    (simplification: slicer equality is an equivalence here; see C13 for NDSlicer). *)
Record bundle := {
  b_constraint : string;
  b_slicer     : nat;
  b_maps       : list string;
  b_stackers   : list stacker
}.

(** Python [list.sort()] sorts in place and returns [None]; the value compared at
    metric_bundle_group.py:168 is that [None]. *)
Definition py_list_sort_value (l : list string) : option (list string) := None.

Definition option_neb (a b : option (list string)) : bool :=
  match a, b with
  | None, None => false
  | Some x, Some y => if list_eq_dec String.string_dec x y then false else true
  | _, _ => true
  end.

(** metric_bundle_group.py:144-177 [_check_compatible]. *)
Definition check_compatible (b1 b2 : bundle) : bool :=
  if negb (String.eqb (b_constraint b1) (b_constraint b2)) then false
  else if negb (Nat.eqb (b_slicer b1) (b_slicer b2)) then false
  else if option_neb (py_list_sort_value (b_maps b1)) (py_list_sort_value (b_maps b2)) then false
  else if existsb (fun s1 => existsb (fun s2 =>
             String.eqb (st_class s1) (st_class s2) && stacker_neb s1 s2) (b_stackers b2))
           (b_stackers b1)
       then false
  else true.

(** * Grouping *)

Section Grouping.
  (** keys and bundles are arbitrary; [check] is the compatibility test *)
  Context {K B : Type}.
  Variable check : B -> B -> bool.

  (** metric_bundle_group.py:196-202: compare with the rest of the list, stop at the
      first incompatible one; the result is the final value of [compatible]. *)
  Fixpoint scan_rest (l : list (K * B)) (b : B) (compatible : bool) : bool :=
    match l with
    | [] => compatible
    | (_, c) :: t => if check c b then scan_rest t b true else false (* break *)
    end.

  (** metric_bundle_group.py:187-206: one iteration of the loop over the existing
      lists.  Returns the (possibly extended) list and whether line 205 was reached.
      The entries are (key, bundle_dict[key]); an existing list is never empty. *)
  Definition try_list (cl : list (K * B)) (kb : K * B) : list (K * B) * bool :=
    match cl with
    | [] => (cl, false)
    | h :: t =>
        let compatible := check (snd h) (snd kb) in
        if compatible then
          let compatible := scan_rest t (snd kb) compatible in
          (* lines 205-206 run whatever [compatible] is now *)
          (cl ++ [kb], true)
        else (cl, false)
    end.

  (** metric_bundle_group.py:185-213: one iteration of the loop over bundles. *)
  Definition add_bundle (lists : list (list (K * B))) (kb : K * B) : list (list (K * B)) :=
    let tried := map (fun cl => try_list cl kb) lists in
    let lists' := map fst tried in
    if existsb snd tried then lists' else lists' ++ [[kb]].

  (** metric_bundle_group.py:179-214 [_find_compatible_lists]. *)
  Definition find_compatible_lists (current : list (K * B)) : list (list (K * B)) :=
    fold_left add_bundle current [].
End Grouping.

(** metric_bundle_group.py:240-262 [set_current] (the constraint is never None here:
    MetricBundle.__init__ metric_bundle.py:135-137 replaces None by ""). *)
Definition set_current {K} (constraint : string) (d : list (K * bundle)) : list (K * bundle) :=
  filter (fun kb => String.eqb (b_constraint (snd kb)) constraint) d.

(** metric_bundle_group.py:125: [list(set([b.constraint ...]))]; the order of a Python set is
    unspecified, so the model takes the list of constraints as an argument constrained by this. *)
Definition is_constraint_list {K} (d : list (K * bundle)) (cs : list string) : Prop :=
  NoDup cs /\ forall c, In c cs <-> In c (map (fun kb => b_constraint (snd kb)) d).

(** metric_bundle_group.py:230-238 and 336-347: the groups calculated by [run_all], in order.
    Simplification: every constraint has data (otherwise all its bundles are skipped with a
    warning, lines 314-334) and bundles created by reduce functions are left to C56. *)
Definition run_all_groups {K} (d : list (K * bundle)) (cs : list string) : list (list (K * bundle)) :=
  flat_map (fun c => find_compatible_lists check_compatible (set_current c d)) cs.

(** metric_bundle_group.py:20-37 [make_bundles_dict_from_list]; [froot] is [b.file_root]. *)
Section MakeDict.
  Context {B : Type} (froot : B -> string).
  Fixpoint make_bundles_dict_loop (l : list B) (d : list (string * B)) : result (list (string * B)) :=
    match l with
    | [] => Ok d
    | b :: t => if dmem String.eqb d (froot b) then Err NameError
                else make_bundles_dict_loop t (dset String.eqb d (froot b) b)
    end.
  Definition make_bundles_dict_from_list (l : list B) := make_bundles_dict_loop l [].
End MakeDict.

(** * The slice loop, with and without the cache (metric_bundle_group.py:454-533)

    Simplifications: the inner loops over [b_dict.values()] act on each bundle
    separately and the cache decision does not depend on the bundle, so the model is
    for one bundle; visits are identified by their index in [sim_data]; a metric is an
    arbitrary function of the ordered list of indices and of the slice point id that
    returns a value or raises. *)
Section SliceLoop.
  Context {V : Type}.
  Variable metric : list nat -> nat -> result V.   (* b.metric.run(sim_data[idxs], slice_point) *)
  Variable is_bad : V -> bool.                     (* data == badval *)

  Record slice := { sid : nat; idxs : list nat }.

  (** masked array: data and mask *)
  Record marray := { m_data : list V; m_mask : list bool }.

  Definition memb (x : nat) (l : list nat) : bool := existsb (Nat.eqb x) l.
  Definition subsetb (l1 l2 : list nat) : bool := forallb (fun x => memb x l2) l1.
  (** equality of [frozenset(idxs)] (line 488) *)
  Definition fs_eqb (l1 l2 : list nat) : bool := subsetb l1 l2 && subsetb l2 l1.

  (** OrderedDict from frozenset of indices to slice id, oldest first (line 462) *)
  Definition cache := list (list nat * nat).

  (** lines 479-505 / 511-517, without cache *)
  Definition step_nocache (a : marray) (s : slice) : result marray :=
    match idxs s with
    | [] => do m <- arr_set (m_mask a) (sid s) true; Ok {| m_data := m_data a; m_mask := m |}
    | _ => do v <- metric (idxs s) (sid s);
           do d <- arr_set (m_data a) (sid s) v; Ok {| m_data := d; m_mask := m_mask a |}
    end.

  (** lines 479-509, with the cache; returns the array and the cache *)
  Definition step_cache (cache_size : nat) (st : marray * cache) (s : slice) : result (marray * cache) :=
    let (a, c) := st in
    match idxs s with
    | [] => do m <- arr_set (m_mask a) (sid s) true; Ok ({| m_data := m_data a; m_mask := m |}, c)
    | _ =>
        match dget fs_eqb c (idxs s) with
        | Some cache_val =>
            (* lines 490-495: move to the end; 500-501: copy the cached value *)
            let c1 := ddel fs_eqb c (idxs s) ++ [(idxs s, cache_val)] in
            do v <- arr_get (m_data a) cache_val;
            do d <- arr_set (m_data a) (sid s) v;
            let c2 := if Nat.ltb cache_size (length c1) then tl c1 else c1 in
            Ok ({| m_data := d; m_mask := m_mask a |}, c2)
        | None =>
            (* lines 496-505 *)
            let c1 := c ++ [(idxs s, sid s)] in
            do v <- metric (idxs s) (sid s);
            do d <- arr_set (m_data a) (sid s) v;
            (* lines 506-509: drop the oldest when above the cache size *)
            let c2 := if Nat.ltb cache_size (length c1) then tl c1 else c1 in
            Ok ({| m_data := d; m_mask := m_mask a |}, c2)
        end
    end.

  Fixpoint loop_nocache (sl : list slice) (a : marray) : result marray :=
    match sl with [] => Ok a | s :: t => do a' <- step_nocache a s; loop_nocache t a' end.

  Fixpoint loop_cache (n : nat) (sl : list slice) (st : marray * cache) : result (marray * cache) :=
    match sl with [] => Ok st | s :: t => do st' <- step_cache n st s; loop_cache n t st' end.

  (** lines 522-533: mask where the data equal the bad value *)
  Definition mask_bad (a : marray) : marray :=
    {| m_data := m_data a;
       m_mask := map (fun dm => if is_bad (fst dm) then true else snd dm)
                     (combine (m_data a) (m_mask a)) |}.

  (** metric_bundle_group.py:454-533: [cache_size > 0] chooses the cached loop (line 461). [a0] is the
      freshly set up array (metric_bundle.py:224-240: uninitialised data, mask false or the slicer's). *)
  Definition run_slices (cache_size : nat) (sl : list slice) (a0 : marray) : result marray :=
    if Nat.ltb 0 cache_size then
      do st <- loop_cache cache_size sl (a0, []); Ok (mask_bad (fst st))
    else
      do a <- loop_nocache sl a0; Ok (mask_bad a).
End SliceLoop.
Arguments marray V : clear implicits.
