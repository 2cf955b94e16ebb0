(** Model of the pages about a MAF run and of the lists of runs, rubin_sim/maf/web/{maf_run_results,maf_tracking}.py, and of the helpers of
    rubin_sim/maf/batches/common.py.  Texts are lists of ASCII characters, ordered by their codes as numpy and Python do.  display_order and
    the values of statistics are integers standing for floats, which are only compared or passed on.  What numpy cuts off at the width of a
    column is not modelled. *)
From Coq Require Import String Ascii ZArith List Bool.
From Verif Require Import Base.
From Verif Require Maps_Model.
Import ListNotations.
Open Scope Z_scope.

(** * Rows, results_db.py:1031-1062, 893-906 and 801-821 *)
Record metric := { m_id : Z; m_name : string; m_base : string; m_slicer : string; m_label : string; m_file : string;
                   m_group : string; m_sub : string; m_order : Z; m_caption : string }.
Record stat := { s_id : Z; s_name : string; s_value : Z }.
Record plot := { p_id : Z; p_type : string; p_file : string; p_thumb : string }.

(** np.unique of texts: in order, without repetitions *)
Fixpoint put (x : string) (l : list string) : list string :=
  match l with
  | [] => [x]
  | y :: t => match String.compare x y with Lt => x :: l | Eq => l | Gt => y :: put x t end
  end.
Definition unique (l : list string) : list string := fold_right put [] l.
(** np.isin and [in] *)
Definition has (l : list string) (x : string) : bool := existsb (String.eqb x) l.
Definition has_id (l : list Z) (x : Z) : bool := existsb (Z.eqb x) l.

(** * Sorting, np.sort(metrics, order=...) of sort_metrics, maf_run_results.py:191-212 *)
Inductive key := KText (s : string) | KNumber (z : Z).
Definition key_compare (a b : key) : comparison :=
  match a, b with
  | KText x, KText y => String.compare x y
  | KNumber x, KNumber y => Z.compare x y
  | KText _, KNumber _ => Lt
  | KNumber _, KText _ => Gt
  end.
Inductive column := CId | CGroup | CSub | CBase | CSlicer | COrder | CLabel.
Definition cell (c : column) (m : metric) : key :=
  match c with
  | CId => KNumber (m_id m) | CGroup => KText (m_group m) | CSub => KText (m_sub m) | CBase => KText (m_base m)
  | CSlicer => KText (m_slicer m) | COrder => KNumber (m_order m) | CLabel => KText (m_label m)
  end.
(** ties are decided by the columns that are not named, of which the first is metric_id, which does not repeat *)
Fixpoint metric_compare (cs : list column) (a b : metric) : comparison :=
  match cs with [] => Z.compare (m_id a) (m_id b)
  | c :: t => match key_compare (cell c a) (cell c b) with Eq => metric_compare t a b | r => r end end.
Fixpoint insert_metric (cs : list column) (x : metric) (l : list metric) : list metric :=
  match l with [] => [x] | y :: t => match metric_compare cs x y with Gt => y :: insert_metric cs x t | _ => x :: l end end.
Definition sort_metrics (cs : list column) (l : list metric) : list metric := fold_right (insert_metric cs) [] l.
Definition by_name : list column := [CGroup; CSub; CBase; CSlicer; COrder; CLabel].
(** lines 304-313 and 324-334 *)
Definition by_order : list column := [CGroup; CSub; CSlicer; COrder; CLabel; CBase].

(** * Selections *)
(** metrics_in_group, lines 214-224 *)
Definition in_group (g : string) (sorted : bool) (ms : list metric) : list metric :=
  let l := filter (fun m => String.eqb (m_group m) g) ms in if sorted then sort_metrics by_name l else l.
(** metrics_in_subgroup, lines 226-237 *)
Definition in_subgroup (g s : string) (ms : list metric) : list metric := sort_metrics by_name (filter (fun m => String.eqb (m_sub m) s) (in_group g false ms)).
(** metrics_to_subgroups, lines 239-249, and __init__, lines 49-54 *)
Definition groups_of (ms : list metric) : list (string * list string) :=
  map (fun g => (g, unique (map m_sub (in_group g false ms)))) (unique (map m_group ms)).
(** metric_ids_to_metrics, lines 174-181 *)
Definition with_ids (ids : list Z) (ms : list metric) : list metric := filter (fun m => has_id ids (m_id m)) ms.
(** convert_select_to_metrics, lines 94-124; [ms] are the sorted metrics of the run *)
Fixpoint plus_to_blank (s : string) : string :=
  match s with EmptyString => EmptyString | String c t => String (if Ascii.eqb c "+" then " "%char else c) (plus_to_blank t) end.
Definition chosen_subgroup (text : string) : string * string :=
  let parts := Maps_Model.split "_" text in (hd EmptyString parts, plus_to_blank (last parts EmptyString)).
Definition convert_select (choices : list string) (ids : list Z) (ms : list metric) : list metric :=
  sort_metrics by_name (with_ids (flat_map (fun t => map m_id (in_subgroup (fst (chosen_subgroup t)) (snd (chosen_subgroup t)) ms)) choices ++ ids) ms).
(** metrics_with_plot_type, lines 251-274: the names accepted for a type of plots *)
Definition lower1 (c : ascii) : ascii := let n := nat_of_ascii c in if (Nat.leb 65 n && Nat.leb n 90)%bool then ascii_of_nat (n + 32) else c.
Fixpoint lower (s : string) : string := match s with EmptyString => EmptyString | String c t => String (lower1 c) (lower t) end.
Definition ends_with (suffix s : string) : bool :=
  Nat.leb (String.length suffix) (String.length s) && String.eqb (substring (String.length s - String.length suffix) (String.length suffix) s) suffix.
Definition type_names (t : string) : list string := [t; if ends_with "lot" t then substring 0 (String.length t - 4) t else (lower t ++ "Plot")%string].
Definition with_plot_type (types : list string) (plots : list plot) (ms : list metric) : list metric :=
  with_ids (map p_id (filter (fun p => has (flat_map type_names types) (p_type p)) plots)) ms.
(** metrics_with_summary_stat and metrics_with_stats, lines 290-335 *)
Definition with_stat (names : list string) (stats : list stat) (ms : list metric) : list metric :=
  sort_metrics by_order (with_ids (map s_id (filter (fun s => has names (s_name s)) stats)) ms).
Definition with_stats (stats : list stat) (ms : list metric) : list metric := sort_metrics by_order (with_ids (map s_id stats) ms).
(** metrics_with_slicer, metrics_with_info_label, metrics_with_metric_name, lines 345-353 and 377-398 *)
Definition with_text (f : metric -> string) (x : string) (ms : list metric) : list metric := filter (fun m => String.eqb (f m) x) ms.
(** unique_metric_names, unique_slicer_names, unique_metric_info_label, lines 276-288, 337-343 and 369-375 *)
Definition unique_texts (f : metric -> string) (ms : list metric) : list string := unique (map f ms).
(** unique_metric_name_and_info_label, lines 355-367 *)
Fixpoint first_times (seen l : list string) : list string :=
  match l with [] => [] | x :: t => if has seen x then first_times seen t else x :: first_times (seen ++ [x]) t end.
Definition names_and_labels (ms : list metric) : list string := first_times [] (map (fun m => m_name m ++ " " ++ m_label m)%string ms).

(** * Files *)
(** os.path.join of a directory that is not empty and does not end with a slash, which os.path.relpath gives *)
Definition join (dir file : string) : string := match file with String "/" _ => file | _ => (dir ++ "/" ++ file)%string end.
Definition upper1 (c : ascii) : ascii := let n := nat_of_ascii c in if (Nat.leb 97 n && Nat.leb n 122)%bool then ascii_of_nat (n - 32) else c.
Fixpoint upper (s : string) : string := match s with EmptyString => EmptyString | String c t => String (upper1 c) (upper t) end.
(** get_npz, lines 145-157 *)
Definition get_npz (dir : string) (ms : list metric) : result (option string) :=
  match ms with
  | _ :: _ :: _ => Ok None
  | [] => Err IndexError
  | [m] => Ok (if String.eqb (upper (m_file m)) "NULL" then None else Some (join dir (m_file m)))
  end.
(** a call with named arguments that are not among those of the function is a TypeError *)
Definition call {A} (accepted given : list string) (f : result A) : result A := if forallb (has accepted) given then f else Err TypeError.
(** MetricBundle.output_json, metric_bundle.py:540-556, and BaseSlicer.output_json, base_slicer.py:243-250; [json] is what the slicer writes *)
Definition output_json (json : option string) : result (option string) :=
  call ["metric_values"; "metric_name"; "sim_data_name"; "info_label"; "plot_dict"]%string ["metric_name"; "simDataName"; "info_label"; "plot_dict"]%string (Ok json).
(** get_json, lines 126-143: a StringIO has no get_value *)
Definition get_json (dir : string) (read : string -> result (option string)) (ms : list metric) : result (option string) :=
  match ms with
  | _ :: _ :: _ => Ok None
  | [] => Err IndexError
  | [m] => if String.eqb (upper (m_file m)) "NULL" then Ok None
           else do json <- read (join dir (m_file m)); do io <- output_json json; match io with None => Ok None | Some _ => Err AttributeError end
  end.
(** metric_info, lines 400-426 *)
Definition metric_info (dir : string) (m : option metric) (data slicer : bool) : list (string * list (option string)) :=
  match m with
  | None => [("Metric Name"%string, [Some ""%string])] ++ (if slicer then [("Slicer"%string, [Some ""%string])] else [])
            ++ [("Info Label"%string, [Some ""%string])] ++ (if data then [("Data"%string, [None; None])] else [])
  | Some m => [("Metric Name"%string, [Some (m_name m)])] ++ (if slicer then [("Slicer"%string, [Some (m_slicer m)])] else [])
              ++ [("InfoL abel"%string, [Some (m_label m)])] ++ (if data then [("Data"%string, [Some (m_file m); Some (join dir (m_file m))])] else [])
  end.
(** caption_for_metric, lines 428-436 *)
Definition caption (m : metric) : string := if String.eqb (m_caption m) "NULL" then EmptyString else m_caption m.

(** * Plots *)
(** the files of the plots of a type: plot and thumbnail; [None] is the empty text of a blank *)
Definition entry := (string * option (list (string * string)))%type.
Definition plot_order : list string := ["SkyMap"; "Histogram"; "PowerSpectrum"; "Combo"]%string.
Definition blank : list entry := map (fun t => (t, None)) plot_order.
Definition files_of (dir t : string) (plots : list plot) : entry :=
  (t, Some (map (fun p => (join dir (p_file p), join dir (p_thumb p))) (filter (fun p => String.eqb (p_type p) t) plots))).
(** plot_dict, lines 446-500 *)
Definition plot_dict (dir : string) (plots : list plot) : list entry :=
  let types := unique (map p_type plots) in
  map (fun t => files_of dir t plots) (filter (has types) plot_order ++ filter (fun t => negb (has plot_order t)) types).
(** re.search of the plain text "_u_" *)
Fixpoint contains (word s : string) : bool := String.prefix word s || match s with EmptyString => false | String _ t => contains word t end.
Definition mark (f : string) : string := ("_" ++ f ++ "_")%string.
Definition band_order : list string := ["u"; "g"; "r"; "i"; "z"; "y"]%string.
Definition of_band (f : string) (plots : list plot) : list plot := filter (fun p => contains (mark f) (p_file p)) plots.
Definition marked (p : plot) : bool := existsb (fun f => contains (mark f) (p_file p)) band_order.
Definition pad (l : list (list entry)) : list (list entry) :=
  l ++ repeat blank (match Nat.modulo (length l) 3 with O => 0 | S O => 2 | _ => 1 end)%nat.
(** order_plots, lines 502-562; [ms] are the metrics of the run *)
Definition order_plots (dir : string) (ms : list metric) (plots : list plot) : list (list entry) :=
  match plots with
  | [] => []
  | _ =>
      if forallb (fun f => Nat.leb (length (of_band f plots)) 1) band_order then
        pad (map (fun f => match of_band f plots with [] => blank | l => plot_dict dir l end) band_order
             ++ map (fun p => plot_dict dir [p]) (filter (fun p => negb (marked p)) plots))
      else
        pad (map (fun m => plot_dict dir (filter (fun p => Z.eqb (p_id p) (m_id m)) plots))
                 (sort_metrics [COrder] (with_ids (map p_id plots) ms)))
  end.
(** get_sky_maps, lines 564-575 *)
Definition get_sky_maps (types : list string) (plots : list plot) (ms : list metric) : list plot :=
  filter (fun p => has types (p_type p)) (filter (fun p => has_id (map m_id ms) (p_id p)) plots).

(** * Summary statistics *)
(** summary_stat_order, lines 56-88 *)
Definition usual_stats : list string :=
  ["Id"; "Identity"; "Median"; "Mean"; "Rms"; "RobustRms"; "N(-3Sigma)"; "N(+3Sigma)"; "Count"; "25th%ile"; "75th%ile"; "Min"; "Max"]%string.
Definition fraction_ends : list string := ["TableFraction 0 == P"; "TableFraction 1 == P"; "TableFraction 1 < P"]%string.
Definition stat_order (stats : list stat) : list string :=
  match filter (String.prefix "TableFraction") (unique (map s_name stats)) with
  | [] => usual_stats
  | l => usual_stats ++ ["TableFraction 0 == P"%string] ++ filter (fun x => negb (has fraction_ends x)) l ++ ["TableFraction 1 == P"; "TableFraction 1 < P"]%string
  end.
(** order_stat_names and all_stat_names, lines 611-646; [order] is summary_stat_order, in which no name is repeated *)
Definition order_names (order names : list string) : list string := filter (has names) order ++ filter (fun n => negb (has order n)) names.
Definition order_stat_names (order : list string) (stats : list stat) : list string := order_names order (unique (map s_name stats)).
Definition all_stat_names (order : list string) (stats : list stat) (ms : list metric) : list string :=
  order_stat_names order (filter (fun s => has_id (map m_id ms) (s_id s)) stats).
(** stats_for_metric, lines 579-589 *)
Definition stats_for (m : metric) (name : option string) (stats : list stat) : list stat :=
  let l := filter (fun s => Z.eqb (s_id s) (m_id m)) stats in
  match name with None => l | Some n => filter (fun s => String.eqb (s_name s) n) l end.
(** stat_dict, lines 591-609: the first value of a name *)
Definition stat_dict (order : list string) (stats : list stat) : list (string * Z) :=
  flat_map (fun n => match filter (fun s => String.eqb (s_name s) n) stats with [] => [] | s :: _ => [(n, s_value s)] end) (order_stat_names order stats).

(** * The list of runs, maf_tracking.py *)
Record run := { r_id : Z; r_name : string; r_dir : string }.
(** the file of the tracking database: its time stamp and its rows *)
Record disk := { d_stamp : Z; d_runs : list run }.
Record tracker (page : Type) := { t_stamp : Z; t_runs : list run; t_pages : list (Z * page) }.
Arguments t_stamp {page} _. Arguments t_runs {page} _. Arguments t_pages {page} _.
(** sorted by maf_run_id, which does not repeat, line 46 *)
Fixpoint insert_run (x : run) (l : list run) : list run := match l with [] => [x] | y :: t => if Z.leb (r_id x) (r_id y) then x :: l else y :: insert_run x t end.
Definition sort_runs (l : list run) : list run := fold_right insert_run [] l.
(** __init__, lines 25-47: the stamp is that of [d0], the rows those of [d1]; sort_runs looks at the stamp again, of [d2], and if it has changed reads
    everything again, which sets the stamp and the pages; then the rows read first are stored.  Simplified: nothing changes during the second reading. *)
Definition load {page} (d0 d1 d2 : disk) : tracker page :=
  {| t_stamp := if Z.eqb (d_stamp d2) (d_stamp d0) then d_stamp d0 else d_stamp d2; t_runs := sort_runs (d_runs d1); t_pages := [] |}.
(** _check_db, lines 49-53 *)
Definition check_db {page} (d : disk) (t : tracker page) : tracker page := if Z.eqb (d_stamp d) (t_stamp t) then t else load d d d.
Inductive run_id := IdNumber (z : Z) | IdTexts (l : list string) | IdDict (l : list (list string)).
(** int(text), None is a ValueError *)
Definition id_of (to_int : string -> option Z) (i : run_id) : result Z :=
  let parse s := match to_int s with Some z => Ok z | None => Err ValueError end in
  match i with
  | IdNumber z => Ok z
  | IdTexts l => do s <- arr_get l 0; parse s
  | IdDict l => do r <- arr_get l 0; do s <- arr_get r 0; parse s
  end.
(** get_run, lines 106-142; [open] reads the results of a directory *)
Definition get_run {page} (to_int : string -> option Z) (open : string -> option string -> page) (d : disk) (i : run_id) (t0 : tracker page)
  : result (page * tracker page) :=
  let t := check_db d t0 in
  do z <- id_of to_int i;
  match dget Z.eqb (t_pages t) z with
  | Some p => Ok (p, t)
  | None =>
      match filter (fun r => Z.eqb (r_id r) z) (t_runs t) with
      | [] => Err IndexError
      | r :: _ =>
          let p := open (r_dir r) (if String.eqb (r_name r) "NULL" then None else Some (r_name r)) in
          Ok (p, {| t_stamp := t_stamp t; t_runs := t_runs t; t_pages := dset Z.eqb (t_pages t) z p |})
      end
  end.

(** * Helpers of the batches, batches/common.py *)
(** combine_info_labels, lines 20-29 *)
Definition combine_labels (a b : option string) : option string :=
  match a, b with Some x, Some y => Some (x ++ " " ++ y)%string | Some x, None => Some x | None, y => y end.
(** filter_list, lines 32-87: bands, order, constraints and labels *)
Definition bands_of (all : bool) : list string := if all then "all"%string :: band_order else band_order.
Definition label_prefix (extra label : option string) : string :=
  match label with
  | Some l => (l ++ " ")%string
  | None => match extra with None | Some EmptyString => EmptyString | Some s => (s ++ " ")%string end
  end.
Definition band_sql (col b : string) : string := if String.eqb b "all" then EmptyString else (col ++ " = '" ++ b ++ "'")%string.
Definition band_constraint (extra : option string) (col b : string) : string :=
  match extra with
  | None | Some EmptyString => band_sql col b
  | Some s => if String.eqb b "all" then s else ("(" ++ s ++ ") and (" ++ band_sql col b ++ ")")%string
  end.
Definition band_label (extra label : option string) (b : string) : string :=
  (label_prefix extra label ++ (if String.eqb b "all" then "all bands" else b ++ " band"))%string.
Definition band_rank : list (string * Z) := [("u", 1); ("g", 2); ("r", 3); ("i", 4); ("z", 5); ("y", 6); ("all", 0)]%string.
Definition filter_list (all : bool) (extra label : option string) (col : string) : list (string * (string * string)) :=
  map (fun b => (b, (band_constraint extra col b, band_label extra label b))) (bands_of all).
(** str.replace(old, new) for a text [old] that is not empty; [skip] characters are still to be dropped *)
Fixpoint replace (old new : string) (skip : nat) (s : string) : string :=
  match s with
  | EmptyString => EmptyString
  | String c t => match skip with
                  | S k => replace old new k t
                  | O => if String.prefix old s then (new ++ replace old new (String.length old - 1) t)%string else String c (replace old new O t)
                  end
  end.
(** str.rstrip(chars) *)
Fixpoint in_text (c : ascii) (s : string) : bool := match s with EmptyString => false | String d t => Ascii.eqb c d || in_text c t end.
Fixpoint rstrip (chars s : string) : string :=
  match s with
  | EmptyString => EmptyString
  | String c t => match rstrip chars t with EmptyString => if in_text c chars then EmptyString else String c EmptyString | r => String c r end
  end.
(** standard_metrics, extended_metrics and standard_angle_metrics, lines 147-252: what becomes of the name of a metric *)
Definition renamed (col : string) (new : option string) (name : string) : string :=
  match new with
  | None => name
  | Some EmptyString => rstrip (" " ++ col) name
  | Some r => replace col r O name
  end.
(** fraction_population_at_threshold, lines 310-341: names of the metrics; [show] is the text of a threshold *)
Fixpoint fraction_names {T} (show : T -> string) (thresholds : list T) (names : option (list string)) (k : nat) : result (list (T * string)) :=
  match thresholds with
  | [] => Ok []
  | x :: t =>
      do o <- match names with None => Ok (show x) | Some l => arr_get l k end;
      do r <- fraction_names show t names (S k);
      Ok ((x, "FractionPop " ++ o)%string :: r)
  end.
