(** Vocabulary for the statements about the results database. *)
From Verif Require Import Base ResultsDb_Model.

(** what identifies a metric: names, run, label and constraint (a missing one counts as "NULL") *)
Definition or_null (x : option string) : string := match x with None => "NULL" | Some s => s end.
Definition identity : Type := (option string * option string * string * string * string)%type.
Definition ident_of_args (a : metric_args) : identity :=
  (a_name a, a_slicer a, or_null (a_run a), or_null (a_label a), or_null (a_constraint a)).
Definition ident_of_row (r : metric_row) : identity :=
  (m_name r, m_slicer r, m_run r, m_label r, m_constraint r).

(** the plot files that should be listed for a metric and plot type after a history *)
Definition plot_files (m : nat) (ty : string) (h : list op) : list string :=
  fold_left (fun acc o =>
    match o with
    | UpdatePlot m' ty' f ow => if Nat.eq_dec m m' then if string_dec ty ty' then if ow then [f] else acc ++ [f] else acc else acc
    | _ => acc
    end) h [].

(** no character [c] in a string *)
Definition has_char (c : Ascii.ascii) (s : string) : Prop := exists p q, s = (p ++ String c q)%string.
(** [t] occurs in [s] *)
Definition occurs (t s : string) : Prop := exists p q, s = (p ++ t ++ q)%string.

(** the current column names *)
Local Open Scope string_scope.
Definition cur_metrics := ["metric_id"; "metric_name"; "slicer_name"; "run_name"; "sql_constraint"; "metric_info_label"; "metric_datafile"].
Definition cur_stats := ["stat_id"; "metric_id"; "summary_name"; "summary_value"].
Definition cur_plots := ["plot_id"; "metric_id"; "plot_type"; "plot_file"].
Definition cur_displays := ["display_id"; "metric_id"; "display_group"; "display_subgroup"; "display_order"; "display_caption"].
Definition cur_version := ["version_id"; "version"; "run_date"].
(** the column names of MAF 0.10 - 1.0 *)
Definition old_metrics := ["metricId"; "metricName"; "slicerName"; "simDataName"; "sqlConstraint"; "metricInfoLabel"; "metricDataFile"].
Definition old_stats := ["statId"; "metricId"; "summaryName"; "summaryValue"].
Definition old_plots := ["plotId"; "metricId"; "plotType"; "plotFile"].
Definition old_displays := ["displayId"; "metricId"; "displayGroup"; "displaySubgroup"; "displayOrder"; "displayCaption"].
Definition old_version := ["verId"; "version"; "rundate"].
(** and before that the label column was called metricMetadata *)
Definition very_old_metrics := ["metricId"; "metricName"; "slicerName"; "simDataName"; "sqlConstraint"; "metricMetadata"; "metricDataFile"].
Local Close Scope string_scope.

(** a table that has the columns [req] and none of [forb], and any others *)
Definition has_cols (req forb cols : list string) : Prop :=
  NoDup cols /\ incl req cols /\ forall c, In c forb -> ~ In c cols.
Definition up_to_date (s : schema) : Prop :=
  has_cols cur_metrics ("metricMetadata"%string :: old_metrics) (t_metrics s) /\ has_cols cur_stats old_stats (t_stats s) /\
  has_cols cur_plots old_plots (t_plots s) /\ has_cols cur_displays old_displays (t_displays s) /\
  has_cols cur_version ["verId"%string; "rundate"%string] (t_version s).
Definition old_schema (s : schema) : Prop :=
  has_cols old_metrics ("metricMetadata"%string :: cur_metrics) (t_metrics s) /\ has_cols old_stats cur_stats (t_stats s) /\
  has_cols old_plots cur_plots (t_plots s) /\ has_cols old_displays cur_displays (t_displays s) /\
  has_cols old_version ["version_id"%string; "run_date"%string] (t_version s).
