(** Model of maf/metrics/visit_groups_metric.py (PairMetric is in Technical_Model) and of the order of reduce functions:
    maf/metrics/base_metric.py:168-176, maf/metric_bundles/metric_bundle.py:707-747.  Times and nights are integers; the
    1e-10 slack on delta_tmin is dropped.  Numbers of visits are in half visits, as the code counts halves. *)
From Verif Require Import Base Technical_Model.
From Coq Require Import QArith.
Open Scope Z_scope.

(** a gap between successive visits of a night: lines 193-198 *)
Inductive gap_kind := Good | Close | Far.
Definition kind (tmin tmax d : Z) : gap_kind :=
  if (d <=? tmax) && (tmin <=? d) then Good else if d <? tmin then Close else Far.
Definition is_good (k : gap_kind) : bool := match k with Good => true | _ => false end.
Definition is_close (k : gap_kind) : bool := match k with Close => true | _ => false end.
Definition b2z (b : bool) : Z := if b then 1 else 0.
(** the loop over successive pairs of gaps, lines 199-211: added to nvisits and ntooclose *)
Fixpoint pair_loop (ks : list gap_kind) : Z * Z :=
  match ks with
  | k1 :: ((k2 :: _) as t) =>
      let '(nv, ntc) := pair_loop t in
      (nv + (if is_good k1 then 1 + b2z (negb (is_good k2)) else 0),
       ntc + (if is_close k1 then 1 + b2z (negb (is_good k2) && negb (is_close k2)) else 0))
  | _ => (0, 0)
  end.
(** lines 199-220; the last two gaps are treated separately, and a single gap counts whatever it is ([timegood.size]) *)
Definition night_counts (ks : list gap_kind) : Z * Z :=
  match rev ks with
  | [] => (0, 0)
  | [_] => (2, 0)
  | last :: prev :: _ =>
      let '(nv, ntc) := pair_loop ks in
      (nv + (if is_good last then 2 else 0),
       ntc + (if is_close last then 1 + b2z (negb (is_good prev) && negb (is_close prev)) else 0))
  end.
(** lines 185-226: half visits of a night; None when the night is not recorded *)
Definition night_value (tmin tmax : Z) (times : list Z) : option Z :=
  let '(nv, ntc) := night_counts (map (kind tmin tmax) (diff_z (sort_z times))) in
  if 0 <? nv then Some (2 * nv + ntc) else None.
(** run, lines 181-233: the recorded nights with their half visits, in order of night; None is badval *)
Definition visit_groups (tmin tmax : Z) (visits : list (Z * Z)) : option (list (Z * Z)) :=
  let l := flat_map (fun n => match night_value tmin tmax (map fst (filter (fun v => snd v =? n) visits)) with
                              | Some h => [(n, h)] | None => [] end) (unique_z (map snd visits)) in
  match l with [] => None | _ => Some l end.

(** * Reduce functions; a metric value is a list of (night, half visits) *)
(** reduce_n_nights_with_n_visits, lines 239-243 *)
Definition n_nights_with (min_visits : Z) (mv : list (Z * Z)) : Z :=
  Z.of_nat (length (filter (fun p => 2 * min_visits <=? snd p) mv)).
(** _in_window, lines 245-248 *)
Definition in_window (night window min_visits : Z) (mv : list (Z * Z)) : list (Z * Z) :=
  filter (fun p => 2 * min_visits <=? snd p) (filter (fun p => (night <=? fst p) && (fst p <? night + window)) mv).
(** reduce_n_visits_in_window, lines 250-263 *)
Definition n_visits_in_window (window min_visits : Z) (mv : list (Z * Z)) : Z :=
  fold_left (fun m n => Z.max (zsum (map snd (in_window n window min_visits mv))) m) (map fst mv) 0.
(** reduce_n_nights_in_window, lines 265-278 *)
Definition n_nights_in_window (window min_visits : Z) (mv : list (Z * Z)) : Z :=
  fold_left (fun m n => Z.max (Z.of_nat (length (in_window n window min_visits mv))) m) (map fst mv) 0.
(** _in_lunation, lines 280-282 *)
Definition in_lunation (start len : Z) (mv : list (Z * Z)) : list (Z * Z) :=
  filter (fun p => (start <=? fst p) && (fst p <? start + len)) mv.
Definition lunation_length : Z := 30.
(** np.arange(nights[0], nights[-1] + 30/2, 30), lines 290-294 and 313-317: its length is the ceiling of the quotient *)
Definition lunations (mv : list (Z * Z)) : list Z :=
  match mv with
  | [] => []
  | p :: _ =>
      let n0 := fst p in let n1 := fst (last mv p) in
      map (fun i => n0 + lunation_length * Z.of_nat i)
          (seq 0 (Z.to_nat ((n1 + lunation_length / 2 - n0 + lunation_length - 1) / lunation_length)))
  end.
Definition starts_group (window min_visits min_nights : Z) (vl : list (Z * Z)) (n : Z) : bool :=
  min_nights <=? Z.of_nat (length (in_window n window min_visits vl)).
(** reduce_n_lunations, lines 284-305 *)
Definition n_lunations (window min_visits min_nights : Z) (mv : list (Z * Z)) : Z :=
  Z.of_nat (length (filter (fun s => let vl := in_lunation s lunation_length mv in
                                     existsb (starts_group window min_visits min_nights vl) (map fst vl)) (lunations mv))).
(** reduce_max_seq_lunations, lines 307-342: the state is (max_sequence, cur_sequence) *)
Fixpoint seq_nights (grp : Z -> bool) (ns : list Z) (st : Z * Z) : Z * Z :=
  match ns with
  | [] => st
  | n :: t => if grp n then (fst st, snd st + 1) else seq_nights grp t (Z.max (fst st) (snd st), 0)
  end.
Definition seq_step (window min_visits min_nights : Z) (mv : list (Z * Z)) (st : Z * Z) (s : Z) : Z * Z :=
  let vl := in_lunation s lunation_length mv in
  let st' := match vl with [] => (Z.max (fst st) (snd st), 0) | _ => st end in
  seq_nights (starts_group window min_visits min_nights vl) (map fst vl) st'.
Definition max_seq_lunations (window min_visits min_nights : Z) (mv : list (Z * Z)) : Z :=
  let st := fold_left (seq_step window min_visits min_nights mv) (lunations mv) (0, 0) in Z.max (fst st) (snd st).

(** * The order of the reduce functions *)
(** the part of a name after "reduce_"; base_metric.py:171-176, where names beginning with "reduce" are taken *)
Fixpoint replace_first (pat s : string) : string :=
  if String.prefix pat s then String.substring (String.length pat) (String.length s - String.length pat) s
  else match s with EmptyString => EmptyString | String a t => String a (replace_first pat t) end.
(** the dictionaries made by BaseMetric.__init__ from the members of the metric, in order of name *)
Definition base_reduce (members : list string) : list (string * nat) :=
  fold_left (fun d p => if String.prefix "reduce" (snd p) then dset String.eqb d (replace_first "reduce_" (snd p)) (fst p) else d)
            (combine (seq 0 (length members)) members) [].
(** replace("reduce_", "") without a count *)
Fixpoint replace_all_fuel (fuel : nat) (pat s : string) : string :=
  match fuel with
  | O => s
  | S f =>
      if String.prefix pat s then replace_all_fuel f pat (String.substring (String.length pat) (String.length s - String.length pat) s)
      else match s with EmptyString => EmptyString | String a t => String a (replace_all_fuel f pat t) end
  end.
Definition replace_all (pat s : string) : string := replace_all_fuel (S (String.length s)) pat s.
(** MetricBundle.reduce_metric, metric_bundle.py:707-747: the display order of a reduced bundle *)
Definition reduce_display_order (reduce_order : list (string * nat)) (reduce_func_name : string) : result nat :=
  match dget String.eqb reduce_order (replace_all "reduce_" reduce_func_name) with Some n => Ok n | None => Err KeyError end.
(** MetricBundleGroup.reduce_all goes through the names in reduce_funcs (metric_bundle_group.py:582-583) *)
Definition reduce_all_orders (members : list string) (own_order : option (list (string * nat))) : result (list nat) :=
  let funcs := base_reduce members in
  let order := match own_order with Some o => o | None => funcs end in
  fold_right (fun n acc => do a <- acc ; do x <- reduce_display_order order n ; Ok (x :: a)) (Ok []) (map fst funcs).
(** VisitGroupsMetric: its reduce methods and reduce_order, visit_groups_metric.py:124-131 *)
Definition visit_groups_members : list string :=
  ["__init__"; "_in_lunation"; "_in_window"; "reduce_max_seq_lunations"; "reduce_median"; "reduce_n_lunations"; "reduce_n_nights_in_window";
   "reduce_n_nights_with_n_visits"; "reduce_n_visits_in_window"; "run"]%string.
Definition visit_groups_order : list (string * nat) :=
  [("Median", 0); ("NNightsWithNVisits", 1); ("NVisitsInWindow", 2); ("NNightsInWindow", 3); ("NLunations", 4); ("MaxSeqLunations", 5)]%string%nat.
(** TripletBandMetric, maf_contrib/triplet_metric.py:78-85 and 137-157 *)
Definition triplet_members : list string :=
  ["__init__"; "reduce_bandall"; "reduce_bandg"; "reduce_bandi"; "reduce_bandr"; "reduce_bandu"; "reduce_bandy"; "reduce_bandz"; "run"]%string.
Definition triplet_order : list (string * nat) := [("Bandu", 0); ("Bandg", 1); ("Bandr", 2); ("Bandi", 3); ("Bandz", 4); ("Bandy", 5)]%string%nat.
(** GRBTransientMetric, maf_contrib/grb_transient_metric.py:115-124 and 225-250 *)
Definition grb_members : list string :=
  ["__init__"; "light_curve"; "reduce_band1_filt_avg"; "reduce_bandany_nfilters"; "reduce_bandg"; "reduce_bandi"; "reduce_bandr"; "reduce_bandu";
   "reduce_bandy"; "reduce_bandz"; "run"]%string.
Definition grb_order : list (string * nat) :=
  [("Bandu", 0); ("Bandg", 1); ("Bandr", 2); ("Bandi", 3); ("Bandz", 4); ("Bandy", 5); ("Band1FiltAvg", 6); ("BandanyNfilters", 7)]%string%nat.
