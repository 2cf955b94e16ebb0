(** Model of rubin_sim/maf/slicers/time_interval_slicers.py.  Times are [Z] ticks (exact arithmetic):
    [day] ticks per day, [intv] ticks per interval. *)
From Verif Require Import Base Slicer_Model.
Open Scope Z_scope.

(** * TimeIntervalSlicer *)

(** [np.arange(lo, hi, step)] for step > 0: ceil((hi - lo)/step) elements (none if negative). *)
Definition arange (lo hi step : Z) : list Z :=
  map (fun k => lo + Z.of_nat k * step) (seq 0 (Z.to_nat ((hi - lo + step - 1) / step))).

(** [np.digitize(x, edges)] for increasing edges: the number of edges <= x. *)
Definition digitize (edges : list Z) (x : Z) : nat := length (filter (fun e => e <=? x) edges).

(** [DataFrame.groupby("sid").agg(list).to_dict()["visit_idx"]] (lines 73-80): for each distinct sid the
    visit indices with that sid, in order. *)
Definition group_by (sids : list nat) : list (nat * list nat) :=
  map (fun k => (k, map snd (filter (fun p => Nat.eqb (fst p) k) (combine sids (seq 0 (length sids))))))
      (nodup Nat.eq_dec sids).

(** [dict.update] *)
Definition dupdate (d : list (nat * list nat)) (new : list (nat * list nat)) : list (nat * list nat) :=
  fold_left (fun acc kv => dset Nat.eqb acc (fst kv) (snd kv)) new d.

(** what a set up slicer knows: sim_idxs (a defaultdict(list)), start times and interval *)
Record ti_state := { ti_sim_idxs : list (nat * list nat); ti_mjd : list Z; ti_duration : Z }.

(** lines 64-87 [setup_slicer]; [old] is [self.sim_idxs] before the call (line 62: empty for a new
    slicer; line 72 updates it in place) *)
Definition ti_setup (day intv : Z) (old : list (nat * list nat)) (visit_mjds : list Z) : ti_state :=
  let start_mjd := day * (zmin visit_mjds / day) in
  let end_mjd := day * ((zmax visit_mjds + day - 1) / day) in
  let mjd_bin_edges := arange start_mjd (end_mjd + intv) intv in
  {| ti_sim_idxs := dupdate old (group_by (map (digitize mjd_bin_edges) visit_mjds));
     ti_mjd := arange start_mjd end_mjd intv;
     ti_duration := intv |}.

Definition ti_nslice (s : ti_state) : nat := length (ti_mjd s).

(** the "idxs" handed to the metric: a list of visits, or the list containing one empty list *)
Inductive idxs_value := Visits (l : list nat) | NestedEmpty.

(** lines 91-107 [_slice_sim_data]: for an empty list [idxs[0]] raises IndexError and line 98 wraps it.
    Simplification: reading a missing key of the defaultdict also inserts it (no observable effect). *)
Definition ti_idxs (s : ti_state) (islice : nat) : idxs_value :=
  match dget Nat.eqb (ti_sim_idxs s) islice with
  | Some [] | None => NestedEmpty
  | Some l => Visits l
  end.

(** [len(sim_data[idxs])] as tested at metric_bundle_group.py:479-480: indexing with [[[]]] gives an array
    of shape (1, 0), of length 1. *)
Definition len_slicedata (v : idxs_value) : nat :=
  match v with Visits l => length l | NestedEmpty => 1 end.

(** * BlockIntervalSlicer *)
Record visit := { v_mjd : Z; v_dur : Z; v_note : string }.

(** [Series.shift(-1)] of a non-empty series; [None] is the missing last value (comparisons with it are
    False) *)
Definition shift_up {A} (l : list A) : list (option A) := map Some (tl l) ++ [None].

Fixpoint cumsum (acc : nat) (l : list bool) : list nat :=
  match l with [] => [] | b :: t => let a := (acc + if b then 1 else 0)%nat in a :: cumsum a t end.

(** line 182-184: [np.logical_not(np.logical_and(same_note, adjacent_times))] *)
Definition block_break (tol : Z) (a : visit) (next : option visit) : bool :=
  match next with
  | None => true
  | Some b => negb (String.eqb (v_note a) (v_note b) && (v_mjd a + v_dur a + tol >? v_mjd b))
  end.

(** lines 182-186: sid of the time-sorted visits: cumsum, shifted down, first one 0 *)
Definition block_sids (tol : Z) (vs : list visit) : list nat :=
  match vs with
  | [] => []
  | _ => 0%nat :: removelast (cumsum 0 (map (fun p => block_break tol (fst p) (snd p)) (combine vs (shift_up vs))))
  end.

(** lines 166-213; [perm] is the order chosen by [sort_values("mjd")] (any sorting order);
    returns the visits of slice i *)
Definition block_slice (tol : Z) (vs : list visit) (perm : list nat) (i : nat) : list nat :=
  let sorted := map (fun k => nth k vs {| v_mjd := 0; v_dur := 0; v_note := "" |}) perm in
  map snd (filter (fun p => Nat.eqb (fst p) i) (combine (block_sids tol sorted) perm)).

(** line 194: number of groups *)
Definition block_nslice (tol : Z) (vs : list visit) (perm : list nat) : nat :=
  let sorted := map (fun k => nth k vs {| v_mjd := 0; v_dur := 0; v_note := "" |}) perm in
  length (nodup Nat.eq_dec (block_sids tol sorted)).

(** lines 188-192: announced start and duration of block i (min of starts, max of ends minus it) *)
Definition block_start (tol : Z) (vs : list visit) (perm : list nat) (i : nat) : Z :=
  zmin (map (fun k => v_mjd (nth k vs {| v_mjd := 0; v_dur := 0; v_note := "" |})) (block_slice tol vs perm i)).
Definition block_duration (tol : Z) (vs : list visit) (perm : list nat) (i : nat) : Z :=
  zmax (map (fun k => let v := nth k vs {| v_mjd := 0; v_dur := 0; v_note := "" |} in v_mjd v + v_dur v)
            (block_slice tol vs perm i)) - block_start tol vs perm i.

(** * VisitIntervalSlicer *)

(** lines 255-279: slice number [islice] holds visit [perm[islice]] ([perm] = argsort of the times); the slice
    point announces sid = [that visit], mjd[islice], duration[islice] *)
Record vi_slice_point := { vi_visit : nat; vi_sid : nat; vi_mjd : Z; vi_duration : Z }.
Definition vi_slice (mjds durs : list Z) (perm : list nat) (islice : nat) : result vi_slice_point :=
  do v <- arr_get perm islice;
  do m <- arr_get mjds islice;
  do d <- arr_get durs islice;
  Ok {| vi_visit := v; vi_sid := v; vi_mjd := m; vi_duration := d |}.

(** metric_bundle_group.py:479-520 with this slicer: the value of each slice is stored at [slice_point["sid"]] *)
Fixpoint vi_run {V} (metric : nat -> V) (mjds durs : list Z) (perm : list nat) (slices : list nat) (data : list V) : result (list V) :=
  match slices with
  | [] => Ok data
  | i :: t => do sp <- vi_slice mjds durs perm i;
              do d <- arr_set data (vi_sid sp) (metric (vi_visit sp));
              vi_run metric mjds durs perm t d
  end.
