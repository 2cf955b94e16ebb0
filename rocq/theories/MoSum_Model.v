(** Model of maf/metrics/mo_summary_metrics.py: the summary metrics of moving objects.  Values are rationals.  Powers of
    ten are an argument [pow10]; keyword arguments are association lists.  Division by zero, nan or inf in numpy, is 0 as
    in Q: the theorems exclude it. *)
From Verif Require Import Base.
From Coq Require Import QArith Qabs.
Open Scope Q_scope.

(** np.cumsum, a * b for arrays of the same length, np.diff *)
Fixpoint cumsum_from (acc : Q) (l : list Q) : list Q := match l with [] => [] | x :: t => (acc + x) :: cumsum_from (acc + x) t end.
Definition cumsum_q (l : list Q) : list Q := cumsum_from 0 l.
Definition zip_with (f : Q -> Q -> Q) (a b : list Q) : list Q := map (fun p => f (fst p) (snd p)) (combine a b).
Fixpoint diff_q (l : list Q) : list Q := match l with x :: ((y :: _) as t) => (y - x) :: diff_q t | _ => [] end.
Definition qmin_list (l : list Q) : option Q := match l with [] => None | x :: t => Some (fold_left (fun a b => if Qle_bool a b then a else b) t x) end.
Definition qmax_list (l : list Q) : option Q := match l with [] => None | x :: t => Some (fold_left (fun a b => if Qle_bool a b then b else a) t x) end.

(** * Size distributions, lines 23-83 *)
Definition kwargs := list (string * Q).
Fixpoint kw_get (k : string) (kw : kwargs) : option Q :=
  match kw with [] => None | (k', v) :: t => if String.eqb k k' then Some v else kw_get k t end.
(** np.diff(hvalues, append=hvalues[-1] + np.diff(hvalues)[-1]) / 0.1: with fewer than two values there is no last
    difference *)
Definition binratio (h : list Q) : result (list Q) :=
  match rev (diff_q h) with [] => Err IndexError | d :: _ => Ok (map (fun x => x / (1 # 10)) (diff_q h ++ [d])) end.
Section Dndh.
  Variable pow10 : Q -> Q.
  (** power_law_dndh, lines 23-51 *)
  Definition power_law_dndh (kw : kwargs) (h : list Q) : result (list Q) :=
    let hindex := match kw_get "hindex" kw with Some x => x | None => 33 # 100 end in
    do anchor <- match kw_get "no" kw, kw_get "ho" kw with
                 | Some no, Some ho => Ok (no, ho)
                 | _, _ => match qmin_list h with Some ho => Ok (10, ho) | None => Err ValueError end
                 end;
    do br <- binratio h;
    Ok (zip_with Qmult (map (fun x => fst anchor * (1 # 10) * pow10 (hindex * (x - snd anchor))) h) br).
  (** neo_dndh_granvik, neo_dndh_grav, pha_dndh_granvik, lines 54-76 *)
  Definition two_powers (a b : Q) (kw : kwargs) (h : list Q) : result (list Q) :=
    do br <- binratio h;
    Ok (zip_with Qmult (map (fun x => 0 + a * pow10 ((3 # 10) * (x - (185 # 10))) + b * pow10 ((92 # 100) * (x - (232 # 10)))) h) br).
  Definition neo_dndh_granvik := two_powers 150 2500.
  Definition pha_dndh_granvik := two_powers 20 500.
  Definition neo_dndh_grav (kw : kwargs) (h : list Q) : result (list Q) :=
    do br <- binratio h; Ok (zip_with Qmult (map (fun x => 110 * pow10 ((35 # 100) * (x - (185 # 10)))) h) br).
  (** pha_dndh_grav, lines 79-83: hvalues[-1] and then np.diff[hvalues], a subscript of a function *)
  Definition pha_dndh_grav (kw : kwargs) (h : list Q) : result (list Q) :=
    match h with [] => Err IndexError | _ => Err TypeError end.
End Dndh.

(** * integrate_over_h and sum_over_h, lines 86-144 *)
Definition dndh_func := kwargs -> list Q -> result (list Q).
Definition weighted (vals w : list Q) : result (list Q) := if Nat.eqb (length vals) (length w) then Ok (zip_with Qmult vals w) else Err ValueError.
Definition integrate_over_h (f : dndh_func) (kw : kwargs) (vals h : list Q) : result (list Q) :=
  do w <- f kw h; do vw <- weighted vals w; Ok (zip_with Qdiv (cumsum_q vw) (cumsum_q w)).
Definition sum_over_h (f : dndh_func) (kw : kwargs) (vals h : list Q) : result (list Q) :=
  do w <- f kw h; do vw <- weighted vals w; Ok (cumsum_q vw).

(** np.interp for increasing positions: constant outside, linear between neighbours *)
Fixpoint interp_from (x x0 y0 : Q) (pts : list (Q * Q)) : Q :=
  match pts with
  | [] => y0
  | (x1, y1) :: t => if Qle_bool x1 x then interp_from x x1 y1 t else y0 + (y1 - y0) / (x1 - x0) * (x - x0)
  end.
Definition interp (x : Q) (xp fp : list Q) : Q :=
  match combine xp fp with [] => 0 | (x0, y0) :: t => if Qle_bool x x0 then y0 else interp_from x x0 y0 t end.

(** * TotalNumberSSO, lines 147-178 *)
(** the keyword arguments of BaseMoMetric.__init__, which takes no others (mo_metrics.py lines 101-121) *)
Definition base_params : list string :=
  ["cols"; "metric_name"; "units"; "badval"; "comment"; "child_metrics"; "app_mag_col"; "app_mag_v_col"; "m5_col"; "night_col";
   "mjd_col"; "snr_col"; "vis_col"; "ra_col"; "dec_col"; "seeing_col"; "exp_time_col"; "filter_col"]%string.
(** super().__init__(metric_name=metric_name, **kwargs): an unknown or a repeated name is a TypeError *)
Definition total_init (names : list string) : result unit :=
  if existsb (String.eqb "metric_name") names then Err TypeError
  else if forallb (fun k => existsb (String.eqb k) base_params) names then Ok tt else Err TypeError.
Definition total_run (f : dndh_func) (kw : kwargs) (h_mark : Q) (vals h : list Q) : result Q :=
  do totals <- sum_over_h f kw vals h; Ok (interp h_mark h totals).

(** * ValueAtHMetric and MeanValueAtHMetric, lines 181-245; None is the returned None.  Rows are objects, columns H *)
Definition in_range (h_mark : Q) (h : list Q) : bool :=
  match qmin_list h, qmax_list h with Some a, Some b => Qle_bool a h_mark && Qle_bool h_mark b | _, _ => false end.
Definition value_at_h (h_mark : Q) (rows : list (list Q)) (h : list Q) : option Q :=
  if in_range h_mark h then match rows with [r] => Some (interp h_mark h r) | _ => None end else None.
(** reduce_func is np.mean; masked values are not modelled *)
Definition qsum (l : list Q) : Q := fold_right Qplus 0 l.
Definition mean_q (l : list Q) : Q := qsum l / inject_Z (Z.of_nat (length l)).
Definition column (rows : list (list Q)) (i : nat) : list Q := map (fun r => nth i r 0) rows.
Definition mean_value_at_h (h_mark : Q) (rows : list (list Q)) (h : list Q) : option Q :=
  if in_range h_mark h then Some (interp h_mark h (map (fun i => mean_q (column rows i)) (seq 0 (length h)))) else None.

(** * MoCompletenessMetric, lines 248-365 *)
(** rows of a masked array with [ncol] columns; None is a masked value *)
Definition filled0 (v : option Q) : Q := match v with Some x => x | None => 0 end.
Definition count_q {A} (p : A -> bool) (l : list A) : Q := inject_Z (Z.of_nat (length (filter p l))).
(** a histogram bin: half open, the last one closed *)
Definition in_bin_q (edges : list Q) (k : nat) (x : Q) : bool :=
  Qle_bool (nth k edges 0) x &&
  (negb (Qle_bool (nth (S k) edges 0) x) || (Nat.eqb (S (S k)) (length edges) && Qeq_bool x (nth (S k) edges 0))).
Definition histogram (edges : list Q) (l : list Q) : list Q := map (fun k => count_q (in_bin_q edges k) l) (seq 0 (length edges - 1)).
(** the differential completeness, lines 332-337 *)
Definition completeness_cloned (threshold : Q) (rows : list (list (option Q))) (n_h : nat) : list Q :=
  map (fun i => count_q (fun r => Qle_bool threshold (filled0 (nth i r None))) rows / inject_Z (Z.of_nat (length rows))) (seq 0 n_h).
(** lines 338-353: the edges of the bins in H, and the histograms of the first column, the metric values, which are taken
    to be unmasked.  np.arange gives nbins + 1 edges in exact arithmetic *)
Definition h_edges (nbins : nat) (min_hrange : Q) (h : list Q) : result (list Q) :=
  match qmin_list h, qmax_list h with
  | Some a, Some b =>
      let hrange := b - a in
      let wide := if Qle_bool min_hrange hrange then (a, hrange) else (a - min_hrange / 2, min_hrange) in
      Ok (map (fun k => fst wide + inject_Z (Z.of_nat k) * (snd wide / inject_Z (Z.of_nat nbins))) (seq 0 (S nbins)))
  | _, _ => Err ValueError
  end.
Definition completeness_binned (threshold : Q) (edges col0 : list Q) : list Q :=
  let n_all := histogram edges col0 in
  let n_found := histogram edges (filter (fun v => Qle_bool threshold v) col0) in
  map (fun p => if Qeq_bool (snd p) 0 then 0 else fst p / snd p) (combine n_found n_all).
Record completeness_params := { c_threshold : Q; c_nbins : nat; c_min_hrange : Q; c_cumulative : bool; c_hindex : Q }.
Definition differential (p : completeness_params) (rows : list (list (option Q))) (ncol : nat) (h : list Q) : result (list Q * list Q) :=
  if Nat.eqb (length h) ncol then Ok (completeness_cloned (c_threshold p) rows (length h), h)
  else do edges <- h_edges (c_nbins p) (c_min_hrange p) h;
       Ok (completeness_binned (c_threshold p) edges (map (fun r => filled0 (nth 0 r None)) rows), removelast edges).
(** the values of the summary and the H values that name them, lines 354-365; the index is passed as Hindex *)
Definition mo_completeness (pow10 : Q -> Q) (p : completeness_params) (rows : list (list (option Q))) (ncol : nat) (h : list Q) : result (list Q * list Q) :=
  do d <- differential p rows ncol h;
  if c_cumulative p
  then do c <- integrate_over_h (power_law_dndh pow10) [("Hindex"%string, c_hindex p)] (fst d) (snd d); Ok (c, snd d)
  else Ok d.

(** * MoCompletenessAtTimeMetric, lines 368-464 *)
(** __init__ lines 394-424, the given name being already in lower case: without a name one is made with "%.2f" % hval; the second component is cumulative *)
Definition at_time_init (hval : option Q) (cumulative : option bool) (metric_name : option string) : result bool :=
  let name_cum := match metric_name with Some n => negb (String.prefix "differential" n) | None => true end in
  match metric_name, hval with
  | None, None => Err TypeError
  | _, _ => Ok (match cumulative with Some c => c | None => name_cum end)
  end.
(** completeness_h[i] lines 442-445, before division: 0 and the cumulative histogram of the unmasked times *)
Definition found_by (times : list Q) (col : list (option Q)) : list Q :=
  0 :: cumsum_q (histogram times (flat_map (fun v => match v with Some x => [x] | None => [] end) col)).
Definition argmin (l : list Q) : nat :=
  match qmin_list l with
  | Some m => hd 0%nat (filter (fun i => Qeq_bool (nth i l 0) m) (seq 0 (length l)))
  | None => 0%nat
  end.
Fixpoint map_result {A B} (f : A -> result B) (l : list A) : result (list B) :=
  match l with [] => Ok [] | x :: t => do y <- f x; do ys <- map_result f t; Ok (y :: ys) end.
(** run, lines 435-464: the values for the chosen H and the new self.hval, or None with a warning *)
Definition at_time_run (pow10 : Q -> Q) (cumulative : bool) (hval : option Q) (times : list Q) (rows : list (list (option Q))) (ncol : nat) (h : list Q) : result (option (list Q * option Q)) :=
  if negb (Nat.eqb (length h) ncol) then Ok None
  else
    let comp_h := map (fun i => map (fun c => c / inject_Z (Z.of_nat (length rows))) (found_by times (map (fun r => nth i r None) rows))) (seq 0 (length h)) in
    let comp := map (fun k => map (fun row => nth k row 0) comp_h) (seq 0 (length times)) in
    do comp' <- (if cumulative then map_result (fun r => integrate_over_h (power_law_dndh pow10) [] r h) comp else Ok comp);
    let hidx := match hval with
                | None => Nat.div2 (length h)
                | Some x => argmin (map (fun y => Qabs (y - x)) h)
                end in
    Ok (Some (map (fun row => nth hidx row 0) comp', Some (nth hidx h 0))).
