(** Model of rubin_sim/maf/db/results_db.py (ResultsDb).
    A table is the list of its rows.  An [Integer] primary key of SQLite that is not given is one more than the
    largest key in the table (1 for an empty table); keys near 2^63 are not modelled.  SQLAlchemy sends the
    INSERTs of a flush before the DELETEs.  Column values are strings; [None] is SQL NULL
    ([filter_by(col=None)] is rendered as IS NULL, so it matches). *)
From Verif Require Import Base.
From Coq Require Import Ascii.

(** next free integer primary key *)
Definition next_id (ids : list nat) : nat := S (fold_right Nat.max 0 ids).

(** MetricRow, results_db.py:30-45 *)
Record metric_row := mkM {
  m_id : nat; m_name : option string; m_slicer : option string; m_run : string;
  m_constraint : string; m_label : string; m_datafile : string }.
(** DisplayRow, results_db.py:75-92 *)
Record display_row := mkD {
  d_id : nat; d_metric : nat; d_group : string; d_subgroup : string; d_order : Z; d_caption : string }.
(** PlotRow, results_db.py:107-123 *)
Record plot_row := mkP { p_id : nat; p_metric : nat; p_type : string; p_file : string }.
(** SummaryStatRow, results_db.py:134-149 *)
Record stat_row := mkS { s_id : nat; s_metric : nat; s_name : string; s_value : Z }.

Record db := mkDb {
  metrics : list metric_row; displays : list display_row; plots : list plot_row; stats : list stat_row }.
Definition empty_db : db := mkDb [] [] [] [].

Definition oeqb (a b : option string) : bool :=
  match a, b with
  | Some x, Some y => String.eqb x y
  | None, None => true
  | _, _ => false
  end.
(** [if x is None: x = "NULL"], results_db.py:434-441 *)
Definition null_str (x : option string) : string := match x with Some s => s | None => "NULL" end.

(** the arguments of update_metric *)
Record metric_args := mkMA {
  a_name : option string; a_slicer : option string; a_run : option string;
  a_constraint : option string; a_label : option string; a_datafile : option string }.

(** the filter_by of results_db.py:443-453 *)
Definition metric_match (a : metric_args) (r : metric_row) : bool :=
  oeqb (m_name r) (a_name a) && oeqb (m_slicer r) (a_slicer a) && String.eqb (m_run r) (null_str (a_run a)) &&
  String.eqb (m_label r) (null_str (a_label a)) && String.eqb (m_constraint r) (null_str (a_constraint a)).

(** update_metric, results_db.py:397-470: the new database and the returned metric_id *)
Definition update_metric (s : db) (a : metric_args) : db * nat :=
  match filter (metric_match a) (metrics s) with
  | [] =>
      let i := next_id (map m_id (metrics s)) in
      (mkDb (metrics s ++ [mkM i (a_name a) (a_slicer a) (null_str (a_run a)) (null_str (a_constraint a))
                               (null_str (a_label a)) (null_str (a_datafile a))])
            (displays s) (plots s) (stats s), i)
  | r :: _ => (s, m_id r)
  end.

(** [str.endswith("(auto)")] and [str.replace("(auto)", "", 1)] (first occurrence), results_db.py:508-509 *)
Definition auto : string := "(auto)".
Fixpoint remove_first (pat s : string) : string :=
  if String.prefix pat s then String.substring (String.length pat) (String.length s - String.length pat) s
  else match s with
       | EmptyString => EmptyString
       | String c t => String c (remove_first pat t)
       end.
Definition ends_with (pat s : string) : bool :=
  (String.length pat <=? String.length s)%nat &&
  String.eqb (String.substring (String.length s - String.length pat) (String.length pat) s) pat.
Definition clean_caption (c : string) : string :=
  if ends_with auto c then remove_first auto c else c.

(** the display dictionary: [None] is a missing key or the value None *)
Record display_args := mkDA {
  da_group : option string; da_subgroup : option string; da_order : option Z; da_caption : option string }.

(** update_display, results_db.py:472-522 *)
Definition update_display (s : db) (mid : nat) (a : display_args) (overwrite : bool) : db :=
  let old := filter (fun r => (d_metric r =? mid)%nat) (displays s) in
  if (0 <? length old)%nat && negb overwrite then s
  else
    let row := mkD (next_id (map d_id (displays s))) mid (null_str (da_group a)) (null_str (da_subgroup a))
                   (match da_order a with Some z => z | None => 0%Z end)
                   (clean_caption (null_str (da_caption a))) in
    mkDb (metrics s) (filter (fun r => negb (d_metric r =? mid)%nat) (displays s) ++ [row]) (plots s) (stats s).

(** update_plot, results_db.py:524-549 *)
Definition plot_match (mid : nat) (ty : string) (r : plot_row) : bool :=
  (p_metric r =? mid)%nat && String.eqb (p_type r) ty.
Definition update_plot (s : db) (mid : nat) (ty file : string) (overwrite : bool) : db :=
  let row := mkP (next_id (map p_id (plots s))) mid ty file in
  let kept := if overwrite then filter (fun r => negb (plot_match mid ty r)) (plots s) else plots s in
  mkDb (metrics s) (displays s) (kept ++ [row]) (stats s).

(** update_summary_stat, results_db.py:551-620.
    The value: a number, a structured array with name and value columns, or something else. *)
Inductive summary_value := Scalar (z : Z) | Struct (rows : list (string * Z)) | OtherValue.
(** What a commit does: success, or an error.  The [except] clause (line 606) names the OperationalError of the
    module sqlite3 (imported in line 15); SQLAlchemy reports a locked database as its own
    sqlalchemy.exc.OperationalError, which is not a subclass of it. *)
Inductive commit_outcome := Committed | RaisesSqlalchemy | RaisesSqlite.

Definition add_stat (s : db) (mid : nat) (name : string) (v : Z) : db :=
  mkDb (metrics s) (displays s) (plots s) (stats s ++ [mkS (next_id (map s_id (stats s))) mid name v]).

(** the while loop of lines 601-609 for one row: [outs] are the outcomes of the coming commits (a database that is
    available once the list is used up); result: the database, remaining outcomes, tries, and the exception *)
Fixpoint try_row (fuel : nat) (s : db) (mid : nat) (name : string) (v : Z) (outs : list commit_outcome)
    (tries ntry : nat) : db * list commit_outcome * nat * option exn :=
  match fuel with
  | O => (s, outs, tries, None)
  | S fuel' =>
      if (tries <? ntry)%nat then
        match outs with
        | [] => (add_stat s mid name v, [], tries, None)
        | Committed :: t => (add_stat s mid name v, t, tries, None)
        | RaisesSqlalchemy :: t => (s, t, tries, Some OperationalError)
        | RaisesSqlite :: t => try_row fuel' s mid name v t (S tries) ntry
        end
      else (s, outs, tries, None)
  end.
(** the for loop of lines 587-609 ([fuel = ntry] iterations of the while loop are enough) *)
Fixpoint try_rows (s : db) (mid : nat) (base : string) (rows : list (string * Z)) (outs : list commit_outcome)
    (tries ntry : nat) : db * option exn :=
  match rows with
  | [] => (s, None)
  | (n, v) :: t =>
      match try_row (S ntry) s mid (base ++ " " ++ n)%string v outs tries ntry with
      | (s', outs', tries', None) => try_rows s' mid base t outs' tries' ntry
      | (s', _, _, Some e) => (s', Some e)
      end
  end.
Definition update_summary_stat (s : db) (mid : nat) (name : string) (v : summary_value) (ntry : nat)
    (outs : list commit_outcome) : db * option exn :=
  match v with
  | Struct rows => try_rows s mid name rows outs 0 ntry
  | Scalar z =>
      match outs with
      | [] | Committed :: _ => (add_stat s mid name z, None)
      | _ => (s, Some OperationalError)
      end
  | OtherValue => (s, None)          (* a warning *)
  end.

(** The calls of a history. *)
Inductive op :=
| UpdateMetric (a : metric_args)
| UpdateDisplay (mid : nat) (a : display_args) (overwrite : bool)
| UpdatePlot (mid : nat) (ty file : string) (overwrite : bool)
| UpdateSummary (mid : nat) (name : string) (v : summary_value) (ntry : nat) (outs : list commit_outcome).
Definition step (s : db) (o : op) : db :=
  match o with
  | UpdateMetric a => fst (update_metric s a)
  | UpdateDisplay m a ow => update_display s m a ow
  | UpdatePlot m t f ow => update_plot s m t f ow
  | UpdateSummary m n v k outs => fst (update_summary_stat s m n v k outs)
  end.
Definition run (s : db) (h : list op) : db := fold_left step h s.

(** get_metric_id, results_db.py:622-662, up to the order of the result (ORDER BY slicer, label) *)
Definition opt_match (want : option string) (have : option string) : bool :=
  match want with None => true | Some w => oeqb have (Some w) end.
Definition get_metric_id (s : db) (name : string) (slicer label run : option string) : list nat :=
  map m_id (filter (fun r => oeqb (m_name r) (Some name) && opt_match slicer (m_slicer r) &&
                             opt_match label (Some (m_label r)) && opt_match run (Some (m_run r))) (metrics s)).

(** Two processes in update_metric: the SELECT (lines 443-453) and the INSERT with COMMIT (lines 455-464) are separate
    database operations (no unique constraint on the table).  A client has done its query or not. *)
Inductive client := Start (a : metric_args) | Queried (a : metric_args) (found : option nat) | Done (i : nat).
Definition client_step (s : db) (c : client) : db * client :=
  match c with
  | Start a => (s, Queried a (option_map m_id (hd_error (filter (metric_match a) (metrics s)))))
  | Queried a (Some i) => (s, Done i)
  | Queried a None =>
      let i := next_id (map m_id (metrics s)) in
      (mkDb (metrics s ++ [mkM i (a_name a) (a_slicer a) (null_str (a_run a)) (null_str (a_constraint a))
                               (null_str (a_label a)) (null_str (a_datafile a))])
            (displays s) (plots s) (stats s), Done i)
  | Done i => (s, Done i)
  end.
(** a schedule: [true] = the first client moves *)
Fixpoint two_clients (s : db) (c1 c2 : client) (sched : list bool) : db * client * client :=
  match sched with
  | [] => (s, c1, c2)
  | true :: t => let (s', c1') := client_step s c1 in two_clients s' c1' c2 t
  | false :: t => let (s', c2') := client_step s c2 in two_clients s' c1 c2' t
  end.

(** build_summary_name, results_db.py:722-738; [str.join] with blanks, then strip of blanks; the result of
    [name.replace(",", "")] is dropped (line 737); a [None] metric name makes join raise TypeError *)
Definition blank : ascii := " "%char.
Fixpoint lstrip (s : string) : string :=
  match s with
  | String c t => if Ascii.eqb c blank then lstrip t else s
  | EmptyString => EmptyString
  end.
Fixpoint srev (s : string) (acc : string) : string :=
  match s with EmptyString => acc | String c t => srev t (String c acc) end.
Definition rstrip (s : string) : string := srev (lstrip (srev s "")) "".
Definition build_summary_name (metric_name label slicer stat : option string) : result string :=
  let label := match label with None => ""%string | Some l => l end in
  let slicer := match slicer with None => ""%string | Some l => l end in
  let sname := match stat with
               | None => ""%string
               | Some n => if String.eqb n "Identity" || String.eqb n "Id" || String.eqb n "Count" then ""%string else n
               end in
  let slname := if String.eqb slicer "UniSlicer" then ""%string else slicer in
  match metric_name with
  | None => Err TypeError
  | Some m => Ok (lstrip (rstrip (sname ++ " " ++ m ++ " " ++ label ++ " " ++ slname)%string))
  end.

(** * Schema *)
(** A schema: the column names of the tables metrics, summarystats, plots, displays, version. *)
Record schema := mkSch { t_metrics : list string; t_stats : list string; t_plots : list string;
                         t_displays : list string; t_version : list string }.
Definition smem (c : string) (l : list string) : bool := existsb (String.eqb c) l.
(** ALTER TABLE .. RENAME COLUMN: error when the column is absent or the new name is taken (names are compared
    exactly; SQLite ignores case, none of the names of the code differ by case only) *)
Definition rename (old new : string) (cols : list string) : result (list string) :=
  if negb (smem old cols) then Err OperationalError
  else if smem new cols then Err OperationalError
  else Ok (map (fun c => if String.eqb c old then new else c) cols).
(** a loop of renames; also returns the columns at the point of failure *)
Fixpoint renames (l : list (string * string)) (cols : list string) : list string * option exn :=
  match l with
  | [] => (cols, None)
  | (old, new) :: t => match rename old new cols with
                       | Ok c => renames t c
                       | Err e => (cols, Some e)
                       end
  end.
Definition swap (l : list (string * string)) : list (string * string) := map (fun p => (snd p, fst p)) l.

Local Open Scope string_scope.
(** results_db.py:263-305 *)
Definition up_metrics := [("metricName", "metric_name"); ("slicerName", "slicer_name"); ("simDataName", "run_name");
  ("sqlConstraint", "sql_constraint"); ("metricInfoLabel", "metric_info_label"); ("metricDataFile", "metric_datafile")].
Definition up_stats := [("statId", "stat_id"); ("summaryName", "summary_name"); ("summaryValue", "summary_value")].
Definition up_plots := [("plotId", "plot_id"); ("plotType", "plot_type"); ("plotFile", "plot_file")].
Definition up_displays := [("displayId", "display_id"); ("displayGroup", "display_group");
  ("displaySubgroup", "display_subgroup"); ("displayOrder", "display_order"); ("displayCaption", "display_caption")].
Definition up_version := [("verId", "version_id"); ("rundate", "run_date")].
(** results_db.py:326-376, written old name first as in the code *)
Definition down_metrics := [("metricId", "metric_id"); ("metricName", "metric_name"); ("slicerName", "slicer_name");
  ("simDataName", "run_name"); ("sqlConstraint", "sql_constraint"); ("metricInfoLabel", "metric_info_label");
  ("metricDataFile", "metric_datafile")].
Definition down_stats := [("statId", "stat_id"); ("metricId", "metric_id"); ("summaryName", "summary_name");
  ("summaryValue", "summary_value")].
Definition down_plots := [("plotId", "plot_id"); ("metricId", "metric_id"); ("plotType", "plot_type");
  ("plotFile", "plot_file")].
Definition down_displays := [("displayId", "display_id"); ("metricId", "metric_id"); ("displayGroup", "display_group");
  ("displaySubgroup", "display_subgroup"); ("displayOrder", "display_order"); ("displayCaption", "display_caption")].
Definition down_version := [("verId", "version_id"); ("rundate", "run_date")].
Local Close Scope string_scope.

(** One block of the code: renames in one table.  Python's sqlite3 does not open a transaction for DDL, so the renames
    before a failing one stay. *)
Inductive table := TMetrics | TStats | TPlots | TDisplays | TVersion.
Definition get_table (s : schema) (t : table) : list string :=
  match t with TMetrics => t_metrics s | TStats => t_stats s | TPlots => t_plots s
             | TDisplays => t_displays s | TVersion => t_version s end.
Definition set_table (s : schema) (t : table) (c : list string) : schema :=
  match t with
  | TMetrics => mkSch c (t_stats s) (t_plots s) (t_displays s) (t_version s)
  | TStats => mkSch (t_metrics s) c (t_plots s) (t_displays s) (t_version s)
  | TPlots => mkSch (t_metrics s) (t_stats s) c (t_displays s) (t_version s)
  | TDisplays => mkSch (t_metrics s) (t_stats s) (t_plots s) c (t_version s)
  | TVersion => mkSch (t_metrics s) (t_stats s) (t_plots s) (t_displays s) c
  end.
Fixpoint blocks (l : list (table * list (string * string))) (s : schema) : schema * option exn :=
  match l with
  | [] => (s, None)
  | (t, r) :: rest =>
      match renames r (get_table s t) with
      | (c, None) => blocks rest (set_table s t c)
      | (c, Some e) => (set_table s t c, Some e)
      end
  end.
(** update_database, results_db.py:235-316; [cols] is read once at the start (lines 250-251) *)
Definition update_database (s : schema) : schema * option exn :=
  let cols := t_metrics s in
  blocks ((if smem "metricMetadata" cols then [(TMetrics, [("metricMetadata"%string, "metric_info_label"%string)])] else []) ++
          (if smem "metricId" cols
           then map (fun t => (t, [("metricId"%string, "metric_id"%string)])) [TMetrics; TStats; TPlots; TDisplays] else []) ++
          (if smem "run_name" cols then []
           else [(TMetrics, up_metrics); (TStats, up_stats); (TPlots, up_plots);
                 (TDisplays, up_displays); (TVersion, up_version)])) s.
(** opening a database file, results_db.py:220-225 *)
Definition open_db (s : schema) : schema * option exn :=
  if smem "sql_constraint" (t_metrics s) then (s, None) else update_database s.
(** downgrade_database, results_db.py:318-382 *)
Definition downgrade_database (s : schema) : schema * option exn :=
  blocks [(TMetrics, swap down_metrics); (TStats, swap down_stats); (TPlots, swap down_plots);
          (TDisplays, swap down_displays); (TVersion, swap down_version)] s.
