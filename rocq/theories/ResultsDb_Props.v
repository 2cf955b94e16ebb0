(** Property theorems about the results database: C28-C32, C77-C80. *)
From Verif Require Import Base ResultsDb_Model ResultsDb_Spec ResultsDb_Proofs.
From Coq Require Import Lia Ascii.

(** C28 *)
Theorem C28_one_row_per_metric : forall h,
  NoDup (map ident_of_row (metrics (run empty_db h))) /\ NoDup (map m_id (metrics (run empty_db h))).
Proof. intros h. exact (run_inv h _ empty_inv). Qed.
Print Assumptions C28_one_row_per_metric.
Theorem C28_stable_distinct_ids : forall h h' a a' s i s' i',
  update_metric (run empty_db h) a = (s, i) -> update_metric (run s h') a' = (s', i') ->
  (i' = i <-> ident_of_args a' = ident_of_args a).
Proof. exact stable_id. Qed.
Print Assumptions C28_stable_distinct_ids.
Theorem C28_returned_row : forall h a s i, update_metric (run empty_db h) a = (s, i) ->
  exists r, In r (metrics s) /\ ident_of_row r = ident_of_args a /\ m_id r = i.
Proof. intros h a s i. apply update_metric_row, run_inv, empty_inv. Qed.
Print Assumptions C28_returned_row.
Theorem C28_rows_never_change : forall h h', exists new,
  metrics (run (run empty_db h) h') = metrics (run empty_db h) ++ new.
Proof. intros h h'. apply run_metrics. Qed.
Print Assumptions C28_rows_never_change.
Definition exa (n : string) : metric_args := mkMA (Some n) (Some "Uni"%string) None None (Some "r"%string) None.
Example C28_case : let h := [UpdateMetric (exa "A"); UpdateMetric (exa "B"); UpdateMetric (exa "A")]%string in
  map m_id (metrics (run empty_db h)) = [1; 2] /\ snd (update_metric (run empty_db h) (exa "B")) = 2.
Proof. vm_compute. auto. Qed.

(** C29 *)
Theorem C29_one_display_per_metric : forall h, NoDup (map d_metric (displays (run empty_db h))).
Proof. intros h. apply (run_dinv h empty_db). split; constructor. Qed.
Print Assumptions C29_one_display_per_metric.
Theorem C29_overwrite_replaces : forall s m a,
  let s' := update_display s m a true in
  (exists r, filter (fun r => (d_metric r =? m)%nat) (displays s') = [r] /\
     d_group r = or_null (da_group a) /\ d_subgroup r = or_null (da_subgroup a) /\
     d_order r = match da_order a with None => 0%Z | Some z => z end /\
     d_caption r = clean_caption (or_null (da_caption a))) /\
  (forall m', m' <> m -> filter (fun r => (d_metric r =? m')%nat) (displays s') =
                        filter (fun r => (d_metric r =? m')%nat) (displays s)) /\
  metrics s' = metrics s /\ plots s' = plots s /\ stats s' = stats s.
Proof. exact update_display_overwrite. Qed.
Print Assumptions C29_overwrite_replaces.
Theorem C29_no_overwrite_keeps : forall s m a,
  ((exists r, In r (displays s) /\ d_metric r = m) -> update_display s m a false = s) /\
  ((forall r, In r (displays s) -> d_metric r <> m) -> update_display s m a false = update_display s m a true).
Proof. intros s m a. split; [intros (r & H1 & H2); eapply update_display_keep; eauto|apply update_display_new]. Qed.
Print Assumptions C29_no_overwrite_keeps.
Example C29_case : map d_group (displays (run empty_db
   [UpdateDisplay 1 (mkDA (Some "a") None None None) true; UpdateDisplay 1 (mkDA (Some "b") None None None) true;
    UpdateDisplay 1 (mkDA (Some "c") None None None) false]))%string = ["b"]%string.
Proof. reflexivity. Qed.

(** C30: in any history the rows for a metric and plot type are the files since the last overwriting call *)
Theorem C30_plots : forall m ty h,
  map p_file (filter (fun r => (p_metric r =? m)%nat && String.eqb (p_type r) ty) (plots (run empty_db h))) = plot_files m ty h.
Proof. exact run_files. Qed.
Print Assumptions C30_plots.
Theorem C30_recorded_once : forall h, (forall m ty f ow, In (UpdatePlot m ty f ow) h -> ow = true) ->
  forall m ty, length (filter (fun r => (p_metric r =? m)%nat && String.eqb (p_type r) ty) (plots (run empty_db h))) <= 1.
Proof.
  intros h H m ty. pose proof (run_files m ty h) as E. pose proof (plot_files_ow m ty h H) as L. rewrite <- E in L.
  unfold files in L. rewrite map_length in L. exact L.
Qed.
Print Assumptions C30_recorded_once.
Example C30_case : plot_files 1 "hist" [UpdatePlot 1 "hist" "a.png" true; UpdatePlot 2 "hist" "x" true; UpdatePlot 1 "hist" "b.png" true]%string = ["b.png"]%string.
Proof. reflexivity. Qed.

(** C31 (false of the code for ntry = 0: nothing is recorded and no error is reported) *)
Theorem C31_ntry_zero_refuted : exists s mid name rows, rows <> [] /\
  update_summary_stat s mid name (Struct rows) 0 [] = (s, None).
Proof. exists empty_db, 1, "N"%string, [("a"%string, 3%Z)]. split; [discriminate|reflexivity]. Qed.
Print Assumptions C31_ntry_zero_refuted.
(** for every positive ntry: a normal return means all rows are recorded, in order; an exception is only raised when the
    database failed, and then the rows before the failure are recorded.  (SQLAlchemy raises its own exceptions.) *)
Theorem C31_summary_recorded_partial : forall s mid name rows ntry outs s' e, 0 < ntry -> ~ In RaisesSqlite outs ->
  update_summary_stat s mid name (Struct rows) ntry outs = (s', e) ->
  (exists k, k <= length rows /\
    map (fun r => (s_metric r, s_name r, s_value r)) (stats s') =
    map (fun r => (s_metric r, s_name r, s_value r)) (stats s) ++
      map (fun p => (mid, (name ++ " " ++ fst p)%string, snd p)) (firstn k rows) /\
    (e = None -> k = length rows) /\ (e <> None -> In RaisesSqlalchemy outs)) /\
  metrics s' = metrics s /\ displays s' = displays s /\ plots s' = plots s.
Proof.
  intros s mid name rows ntry outs s' e Hn Ho H. split.
  - eapply try_rows_ok; eauto. apply Forall_forall. intros x Hx ->. auto.
  - pose proof (update_summary_other s mid name (Struct rows) ntry outs) as P. rewrite H in P. exact P.
Qed.
Print Assumptions C31_summary_recorded_partial.
Theorem C31_scalar_recorded : forall s mid name z ntry outs s' e,
  update_summary_stat s mid name (Scalar z) ntry outs = (s', e) ->
  (e = None -> map (fun r => (s_metric r, s_name r, s_value r)) (stats s') =
     map (fun r => (s_metric r, s_name r, s_value r)) (stats s) ++ [(mid, name, z)]) /\
  (e <> None -> s' = s /\ outs <> []).
Proof.
  intros s mid name z ntry outs s' e H. simpl in H.
  destruct outs as [|[| |] t]; injection H as <- <-; split; try congruence; try (intros _; split; [reflexivity|discriminate]);
    intros _; unfold add_stat; cbn [stats]; rewrite map_app; reflexivity.
Qed.
Print Assumptions C31_scalar_recorded.
(** if the error were one that the code catches (sqlite3's own class), the last rows would be dropped silently,
    because the number of tries is shared by all rows *)
Theorem C31_caught_errors_refuted : exists s rows outs s', length outs = 1 /\ length rows = 2 /\
  update_summary_stat s 1 "N" (Struct rows) 1 outs = (s', None) /\ stats s' = [].
Proof.
  exists empty_db, [("a"%string, 1%Z); ("b"%string, 2%Z)], [RaisesSqlite], empty_db. repeat split.
Qed.
Print Assumptions C31_caught_errors_refuted.
Example C31_case : exists s', update_summary_stat empty_db 4 "N" (Struct [("a"%string, 1%Z); ("b"%string, 2%Z)]) 3 [Committed] = (s', None) /\
  length (stats s') = 2.
Proof. eexists. split; reflexivity. Qed.

(** C77 (false of the code): one lock in three tries is enough to fail *)
Theorem C77_retry_refuted : exists s mid name rows ntry outs, length outs < ntry /\
  snd (update_summary_stat s mid name (Struct rows) ntry outs) <> None.
Proof.
  exists empty_db, 1, "N"%string, [("a"%string, 1%Z)], 3, [RaisesSqlalchemy]. split; [simpl; lia|discriminate].
Qed.
Print Assumptions C77_retry_refuted.
(** indeed any SQLAlchemy error at the first commit is passed on, for every ntry *)
Theorem C77_never_retried_partial : forall s mid name n v rows ntry outs, 0 < ntry ->
  update_summary_stat s mid name (Struct ((n, v) :: rows)) ntry (RaisesSqlalchemy :: outs) = (s, Some OperationalError).
Proof.
  intros s mid name n v rows ntry outs H. simpl. destruct ntry as [|k]; [lia|]. reflexivity.
Qed.
Print Assumptions C77_never_retried_partial.

(** C32 *)
Theorem C32_downgrade_upgrade : forall s, up_to_date s ->
  exists s1, downgrade_database s = (s1, None) /\ old_schema s1 /\ open_db s1 = (s, None).
Proof. exact downgrade_upgrade. Qed.
Print Assumptions C32_downgrade_upgrade.
Theorem C32_upgrade_old : forall s, old_schema s ->
  exists s1, open_db s = (s1, None) /\ up_to_date s1 /\ downgrade_database s1 = (s, None).
Proof. exact upgrade_downgrade. Qed.
Print Assumptions C32_upgrade_old.
Theorem C32_up_to_date_untouched : forall s, up_to_date s -> open_db s = (s, None).
Proof.
  intros s (H & _). unfold open_db. rewrite (has_req _ _ _ "sql_constraint" H); auto. simpl. tauto.
Qed.
Print Assumptions C32_up_to_date_untouched.
(** (false of the code) for the oldest schema that the code mentions the upgrade fails, and it leaves a half-renamed
    database that is taken for an up-to-date one when opened again *)
Definition very_old : schema := mkSch very_old_metrics old_stats old_plots old_displays old_version.
Theorem C32_very_old_refuted : exists s1, open_db very_old = (s1, Some OperationalError) /\ ~ up_to_date s1 /\
  open_db s1 = (s1, None).
Proof.
  eexists. split; [vm_compute; reflexivity|]. split; [|vm_compute; reflexivity].
  intros (_ & _ & (_ & H & _) & _). specialize (H "plot_id"%string). simpl in H. intuition discriminate.
Qed.
Print Assumptions C32_very_old_refuted.
Example C32_case : up_to_date (mkSch ("extra"%string :: cur_metrics) cur_stats cur_plots cur_displays cur_version).
Proof.
  unfold up_to_date; refine (conj _ (conj _ (conj _ (conj _ _)))); apply has_cols_b; reflexivity.
Qed.
Example C32_case_old : old_schema (mkSch old_metrics old_stats old_plots old_displays old_version).
Proof.
  unfold old_schema; refine (conj _ (conj _ (conj _ (conj _ _)))); apply has_cols_b; reflexivity.
Qed.

(** C78 (false of the code): the first "(auto)" is removed instead of the one at the end *)
Theorem C78_auto_caption_refuted : exists c, clean_caption (c ++ "(auto)")%string <> c.
Proof. exists "Median (auto) of N"%string. discriminate. Qed.
Print Assumptions C78_auto_caption_refuted.
Theorem C78_auto_caption_partial : forall c,
  (~ occurs "(auto)" c -> clean_caption (c ++ "(auto)")%string = c) /\
  (exists p q, (c ++ "(auto)" = p ++ "(auto)" ++ q)%string /\ clean_caption (c ++ "(auto)")%string = (p ++ q)%string) /\
  ((forall p, c <> (p ++ "(auto)")%string) -> clean_caption c = c).
Proof. intros c. split; [apply clean_caption_auto|split; [apply clean_caption_once|apply clean_caption_other]]. Qed.
Print Assumptions C78_auto_caption_partial.
Example C78_case : clean_caption "Sky map of N (auto)" = "Sky map of N "%string.
Proof. reflexivity. Qed.

(** C79 (false of the code): two processes that record the same metric at the same time *)
Theorem C79_parallel_runs_refuted : exists a sched i j s, two_clients empty_db (Start a) (Start a) sched = (s, Done i, Done j) /\
  i <> j /\ ~ NoDup (map ident_of_row (metrics s)).
Proof.
  exists (exa "A"), [true; false; true; false], 1, 2. eexists. split; [reflexivity|]. split; [discriminate|].
  intros H. simpl in H. inversion H as [|? ? H1 _]. apply H1. left. reflexivity.
Qed.
Print Assumptions C79_parallel_runs_refuted.
(** one after the other is fine *)
Theorem C79_sequential_partial : forall h a b s i j,
  two_clients (run empty_db h) (Start a) (Start b) [true; true; false; false] = (s, Done i, Done j) ->
  NoDup (map ident_of_row (metrics s)) /\ (i = j <-> ident_of_args a = ident_of_args b).
Proof.
  intros h a b s i j H.
  assert (forall s c, let (s1, c1) := client_step s (Start c) in
            client_step s1 c1 = (fst (update_metric s c), Done (snd (update_metric s c)))) as Hc.
  { intros s0 c. simpl. unfold update_metric. destruct (filter (metric_match c) (metrics s0)); reflexivity. }
  cbn [two_clients] in H. pose proof (Hc (run empty_db h) a) as H1.
  destruct (client_step (run empty_db h) (Start a)) as [s1 c1]. rewrite H1 in H.
  pose proof (Hc (fst (update_metric (run empty_db h) a)) b) as H2.
  destruct (client_step (fst (update_metric (run empty_db h) a)) (Start b)) as [s2 c2]. rewrite H2 in H.
  destruct (update_metric (run empty_db h) a) as [sa ia] eqn:Ea. cbn [fst snd] in *.
  destruct (update_metric sa b) as [sb jb] eqn:Eb. cbn [fst snd] in *.
  injection H as <- <- <-. split.
  - pose proof (update_metric_inv sa b) as I. rewrite Eb in I. apply I.
    pose proof (update_metric_inv (run empty_db h) a (run_inv h _ empty_inv)) as I'. rewrite Ea in I'. exact I'.
  - pose proof (stable_id h [] a b sa ia sb jb Ea Eb) as E. split; intros H; [symmetry; apply E|symmetry; apply E]; congruence.
Qed.
Print Assumptions C79_sequential_partial.

(** C80 (false of the code): the comma stays, because the result of replace is dropped *)
Theorem C80_summary_name_refuted : exists m l r, build_summary_name (Some m) l None None = Ok r /\ has_char ","%char r.
Proof.
  exists "N"%string, (Some "r, WFD"%string), "N r, WFD"%string. split; [reflexivity|].
  exists "N r"%string, " WFD"%string. reflexivity.
Qed.
Print Assumptions C80_summary_name_refuted.
Theorem C80_summary_name_partial : forall m l sl st r, build_summary_name m l sl st = Ok r ->
  (forall p, r <> (" " ++ p)%string) /\ (forall p, r <> (p ++ " ")%string) /\
  (forall c, c <> " "%char -> has_char c r ->
     (exists x, m = Some x /\ has_char c x) \/ (exists x, l = Some x /\ has_char c x) \/
     (exists x, sl = Some x /\ has_char c x) \/ (exists x, st = Some x /\ has_char c x)).
Proof. exact summary_name_ok. Qed.
Print Assumptions C80_summary_name_partial.
Example C80_case : (build_summary_name (Some "Nvisits") (Some "r band") (Some "UniSlicer") (Some "Identity") = Ok "Nvisits r band")%string.
Proof. reflexivity. Qed.
