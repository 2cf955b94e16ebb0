(** Model of how a MetricBundleGroup runs stackers over a shared table and collects reduced bundles
    (maf/metric_bundles/metric_bundle_group.py), and of small utilities of maf/utils. *)
From Verif Require Import Base.
From Coq Require Import QArith Qround.
Open Scope Z_scope.

(** * Tables and stackers *)
(** a table: its columns by name (numeric values as integers), all of length [t_rows] *)
Record table := { t_rows : nat; t_cols : list (string * list Z) }.
Definition column (t : table) (c : string) : option (list Z) := dget String.eqb (t_cols t) c.
(** a stacker: the columns it adds and its _run, which is told whether its columns are already there *)
Record stack := { k_added : list string; k_run : bool -> table -> table }.
(** every added column is already there (the columns are numeric, so no first value is None),
    base_stacker.py:122-155 *)
Definition cols_present (s : stack) (t : table) : bool := forallb (fun c => dmem String.eqb (t_cols t) c) (k_added s).
(** BaseStacker.run, base_stacker.py:157-191 *)
Definition stack_run (override : bool) (s : stack) (t : table) : table :=
  if Nat.eqb (t_rows t) 0 then t else k_run s (if override then false else cols_present s t) t.
(** the loop over uniq_stackers in _run_compatible, metric_bundle_group.py:436-438 *)
Definition run_stackers (l : list stack) (t : table) : table := fold_left (fun t s => stack_run true s t) l t.
(** run_current, metric_bundle_group.py:330-350: the compatible lists share self.sim_data, so each list sees the table
    left by the previous ones; the result is the table that the metrics of each list see *)
Fixpoint run_lists (groups : list (list stack)) (t : table) : list table :=
  match groups with
  | [] => []
  | g :: rest => let t' := run_stackers g t in t' :: run_lists rest t'
  end.

(** setting a column *)
Definition set_col (t : table) (c : string) (v : list Z) : table :=
  {| t_rows := t_rows t; t_cols := dset String.eqb (t_cols t) c v |}.
Definition get_col (t : table) (c : string) : list Z := match column t c with Some v => v | None => [] end.
(** HourAngleStacker reduced to its data flow: HA is computed from the column [ra]; general_stackers.py:673-699 *)
Definition ha_stack (ra : string) : stack :=
  {| k_added := ["HA"%string];
     k_run := fun present t => if present then t else set_col t "HA" (map (fun x => x - 1) (get_col t ra)) |}.
(** ParallacticAngleStacker: runs its own hour angle stacker without override, then uses HA;
    general_stackers.py:725-769 *)
Definition pa_stack (ra : string) : stack :=
  {| k_added := ["PA"%string];
     k_run := fun present t => if present then t else
       let t' := stack_run false (ha_stack ra) t in set_col t' "PA" (map (fun x => 2 * x) (get_col t' "HA")) |}.
(** CoaddStacker reduced to its effect on the rows: the visits of one night become one row; sn_stacker.py:72-101 *)
Definition coadd_stack : stack :=
  {| k_added := ["coadd"%string];
     k_run := fun present t => if present then t else
       {| t_rows := 1; t_cols := ("coadd"%string, [1]) :: map (fun p => (fst p, firstn 1 (snd p))) (t_cols t) |} |}.

(** * Reduced bundles: reduce_current, metric_bundle_group.py:562-601 *)
(** what matters of a bundle: the name of its metric, its reduce functions, and the file root a bundle for a metric of
    the given name would get from _build_file_root (it has the same run name, label and slicer) *)
Record rbundle := { rb_metric : string; rb_reduce : list string; rb_root : string -> string }.
(** a value of the dictionary: an original bundle, or the one made by a reduce function *)
Inductive entry := Original (key : string) | Reduced (key : string) (reduce : string).
(** reduce_metric, metric_bundle.py:703-708 *)
Definition reduced_name (b : rbundle) (r : string) : string := (rb_metric b ++ "_" ++ r)%string.
Definition reduce_key (bundle_dict : list (string * entry)) (b : rbundle) (r : string) : string :=
  if dmem String.eqb bundle_dict (reduced_name b r) then rb_root b (reduced_name b r) else reduced_name b r.
Definition reduce_bundle (bundle_dict : list (string * entry)) (d : list (string * entry)) (kb : string * rbundle) :=
  fold_left (fun d r => dset String.eqb d (reduce_key bundle_dict (snd kb) r) (Reduced (fst kb) r)) (rb_reduce (snd kb)) d.
Definition dict_update (d new : list (string * entry)) : list (string * entry) :=
  fold_left (fun d p => dset String.eqb d (fst p) (snd p)) new d.
(** [bundle_dict] the dictionary of the group, [current] the bundles of the current constraint *)
Definition reduce_current (bundle_dict : list (string * entry)) (current : list (string * rbundle)) : list (string * entry) :=
  dict_update bundle_dict (fold_left (reduce_bundle bundle_dict) current []).

(** * optimal_bins, maf_utils.py:94-165 *)
(** a float that arises in the calculation *)
Inductive fl := Fin (q : Q) | PInf | NInf | NaN.
(** data and bounds: numbers or NaN *)
Definition num := option Q.
Definition qleb (a b : Q) : bool := Qle_bool a b.
Definition qltb (a b : Q) : bool := negb (Qle_bool b a).
Fixpoint qinsert (x : Q) (l : list Q) : list Q :=
  match l with [] => [x] | y :: t => if qleb x y then x :: l else y :: qinsert x t end.
Definition qsort (l : list Q) : list Q := fold_right qinsert [] l.
(** np.percentile, linear interpolation, of a non-empty list *)
Definition percentile (l : list Q) (p : Q) : Q :=
  let s := qsort l in
  let h := (p / 100 * inject_Z (Z.of_nat (length s) - 1))%Q in
  let lo := Z.to_nat (Qfloor h) in
  let a := nth lo s 0%Q in
  let b := nth (Nat.min (S lo) (length s - 1)) s 0%Q in
  (a + (h - inject_Z (Qfloor h)) * (b - a))%Q.
Definition somes (l : list num) : list Q := flat_map (fun x => match x with Some q => [q] | None => [] end) l.
Definition qmin_list (l : list Q) : num := match qsort l with [] => None | x :: _ => Some x end.
Definition qmax_list (l : list Q) : num := match rev (qsort l) with [] => None | x :: _ => Some x end.
(** numpy float division *)
Definition fl_div (a b : Q) : fl :=
  if Qeq_bool b 0 then (if Qeq_bool a 0 then NaN else if qltb 0 a then PInf else NInf) else Fin (a / b).
Definition fl_gtb (x : fl) (n : Z) : bool := match x with Fin q => qltb (inject_Z n) q | PInf => true | _ => false end.
Definition fl_ltb (x : fl) (n : Z) : bool := match x with Fin q => qltb q (inject_Z n) | NInf => true | _ => false end.
(** Python's int(): truncation towards zero (only reached with a finite value) *)
Definition trunc (q : Q) : Z := if qleb 0 q then Qfloor q else Qceiling q.
Definition fl_int (x : fl) (nbin_max : Z) : result Z :=
  match x with Fin q => Ok (trunc q) | NaN => Ok nbin_max | _ => Err ValueError end.
(** [data] after removing masked values; [inv_cbrt n] is n ** (-1/3); binmin and binmax None are the defaults *)
Definition optimal_bins (inv_cbrt : nat -> Q) (data : list num) (binmin binmax : option Q) (nbin_max nbin_min : Z) : result Z :=
  match data with
  | [] => Ok nbin_max
  | _ =>
      let lo := match binmin with Some b => Some b | None => qmin_list (somes data) end in
      let hi := match binmax with Some b => Some b | None => qmax_list (somes data) end in
      match lo, hi with
      | Some lo, Some hi =>
          match filter (fun x => qleb lo x && qleb x hi) (somes data) with
          | [] => Ok nbin_max
          | good =>
              let iqr := (percentile good 75 - percentile good 25)%Q in
              let binwidth := (2 * iqr * inv_cbrt (length good))%Q in
              let nbins := fl_div (hi - lo)%Q binwidth in
              let nbins := if fl_gtb nbins nbin_max then Fin (inject_Z nbin_max) else nbins in
              let nbins := if fl_ltb nbins nbin_min then Fin (inject_Z nbin_min) else nbins in
              fl_int nbins nbin_max
          end
      | _, _ => Ok nbin_max          (* a NaN bound compares false with everything *)
      end
  end.
(** percentile_clipping, maf_utils.py:168-190 *)
Definition percentile_clipping (data : list Q) (p : Q) : Q * Q :=
  let lower := ((100 - p) / 2)%Q in
  let upper := (100 - lower)%Q in
  (percentile data lower, percentile data upper).

(** * scale_benchmarks, opsim_utils.py:121-233 *)
Inductive band := U | G | R | I | Z' | Y.
Inductive benchmark := Design | Stretch.
Definition nominal_visits (k : benchmark) (f : band) : Z :=
  match k, f with
  | Design, U => 56 | Design, G => 80 | Design, R => 184 | Design, I => 184 | Design, Z' => 160 | Design, Y => 160
  | Stretch, U => 70 | Stretch, G => 100 | Stretch, R => 230 | Stretch, I => 230 | Stretch, Z' => 200 | Stretch, Y => 200
  end.
Definition nominal_total (k : benchmark) : Z := match k with Design => 825 | Stretch => 1000 end.
(** the products are exact here, rounded floats in the code *)
Definition scaled_visits (run_length : Q) (k : benchmark) (f : band) : Z :=
  if Qeq_bool run_length 10 then nominal_visits k f
  else Qfloor (inject_Z (nominal_visits k f) * (run_length / 10)).
Definition scaled_total (run_length : Q) (k : benchmark) : Z := nominal_total k.

(** * collapse_night, maf_utils.py:47-91 *)
Record nvisit := { nv_night : Z; nv_filter : string; nv_m5 : Q; nv_mjd : Q }.
(** np.unique of the nights / filters: distinct values; the order of the filters is that of the names *)
Fixpoint zinsert_uniq (x : Z) (l : list Z) : list Z :=
  match l with
  | [] => [x]
  | y :: t => if x <? y then x :: l else if y <? x then y :: zinsert_uniq x t else l
  end.
Definition zunique (l : list Z) : list Z := fold_right zinsert_uniq [] l.
(** [filtername * n] taken apart into characters by zip: the i-th character, stored in a U1 column *)
Fixpoint repeat_str (s : string) (n : nat) : string := match n with O => EmptyString | S k => (s ++ repeat_str s k)%string end.
Definition char_at (s : string) (i : nat) : string := match String.get i s with Some c => String c EmptyString | None => EmptyString end.
Fixpoint number_from {A} (i : nat) (l : list A) : list (nat * A) :=
  match l with [] => [] | x :: t => (i, x) :: number_from (S i) t end.
(** the rows of one filter; [coadd] and [median] are the statistics *)
Definition collapse_filter (coadd median : list Q -> Q) (vs : list nvisit) (f : string) : list nvisit :=
  let inf := filter (fun v => String.eqb (nv_filter v) f) vs in
  let nights := zunique (map nv_night inf) in
  map (fun p => let '(i, n) := p in
    let g := filter (fun v => nv_night v =? n) inf in
    {| nv_night := n; nv_filter := char_at (repeat_str f (length nights)) i; nv_m5 := coadd (map nv_m5 g); nv_mjd := median (map nv_mjd g) |})
    (number_from 0 nights).
(** rows sorted by MJD; [order="observationStartMJD"] is a ValueError when the column has another name *)
Fixpoint minsert (v : nvisit) (l : list nvisit) : list nvisit :=
  match l with [] => [v] | x :: t => if qleb (nv_mjd v) (nv_mjd x) then v :: l else x :: minsert v t end.
Definition collapse_night (coadd median : list Q -> Q) (mjd_col : string) (filters : list string) (vs : list nvisit) : result (list nvisit) :=
  if String.eqb mjd_col "observationStartMJD"
  then Ok (fold_right minsert [] (flat_map (collapse_filter coadd median vs) filters))
  else Err ValueError.
