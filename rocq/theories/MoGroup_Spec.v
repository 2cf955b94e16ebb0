(** What the properties of groups of moving object metrics talk about. *)
From Verif Require Import Base MoGroup_Model.
Open Scope Z_scope.

(** the bundle under a key *)
Definition bundle_of (d : list (key * mo_bundle)) (k : key) (b : mo_bundle) : Prop := dget String.eqb d k = Some b.
(** two bundles do not conflict: the same constraint, and stackers of the same class are equal *)
Definition no_conflict (a b : mo_bundle) : Prop :=
  mb_constraint a = mb_constraint b /\ forall s s', In s (mb_stackers a) -> In s' (mb_stackers b) -> ms_name s = ms_name s' -> ms_conf s = ms_conf s'.
(** column c is set by one of the stackers *)
Definition set_by (l : list mo_stk) (c : string) : Prop := exists s, In s l /\ In c (ms_cols s).
(** two tables have the same rows and agree on some columns *)
Definition agree (P : string -> Prop) (t t' : mdata) : Prop := d_rows t = d_rows t' /\ forall c, P c -> d_col t c = d_col t' c.
(** the stackers only read columns that none of them sets *)
Definition read_base (l : list mo_stk) : Prop :=
  forall s t t' href hval c, In s l -> agree (fun c => ~ set_by l c) t t' -> ms_fun s t href hval c = ms_fun s t' href hval c.
(** stackers that set a common column, or have the same class and attributes, are the same stacker *)
Definition one_setter (l : list mo_stk) : Prop :=
  forall s s', In s l -> In s' l -> ((exists c, In c (ms_cols s) /\ In c (ms_cols s')) \/ (ms_name s = ms_name s' /\ ms_conf s = ms_conf s')) -> s = s'.
(** the metrics of a bundle read only columns that its own stackers set and columns that no stacker of the group sets *)
Definition reads_own (l : list mo_stk) (b : mo_bundle) : Prop :=
  forall t t' hval, agree (fun c => set_by (mb_stackers b) c \/ ~ set_by l c) t t' ->
    mm_run (mb_metric b) t hval = mm_run (mb_metric b) t' hval /\
    forall n c ss v, In (n, c, ss) (mb_children b) -> ch_run c t hval v = ch_run c t' hval v.
