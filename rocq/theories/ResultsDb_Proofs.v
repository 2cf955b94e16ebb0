(** Lemmas about the results database model. *)
From Verif Require Import Base ResultsDb_Model ResultsDb_Spec.
From Coq Require Import Lia Permutation Ascii.

Lemma oeqb_eq a b : oeqb a b = true <-> a = b.
Proof. destruct a, b; simpl; try (split; congruence). rewrite String.eqb_eq. split; congruence. Qed.

Lemma match_ident a r : metric_match a r = true <-> ident_of_row r = ident_of_args a.
Proof.
  unfold metric_match, ident_of_row, ident_of_args. rewrite !andb_true_iff, !oeqb_eq, !String.eqb_eq.
  unfold null_str, or_null. split.
  - intros ((((H1 & H2) & H3) & H4) & H5). rewrite H1, H2, H3, H4, H5.
    destruct (a_run a), (a_label a), (a_constraint a); reflexivity.
  - intros H. injection H as H1 H2 H3 H4 H5. rewrite H1, H2, H3, H4, H5.
    destruct (a_run a), (a_label a), (a_constraint a); auto.
Qed.

Lemma next_id_fresh ids i : In i ids -> i < next_id ids.
Proof. unfold next_id. induction ids as [|x t IH]; simpl; [tauto|]. intros [->|H]; [lia|]. apply IH in H. lia. Qed.
Lemma next_id_notin ids : ~ In (next_id ids) ids.
Proof. intros H. apply next_id_fresh in H. lia. Qed.

Lemma NoDup_snoc {A} (l : list A) x : NoDup l -> ~ In x l -> NoDup (l ++ [x]).
Proof.
  intros Hn Hx. apply (Permutation_NoDup (l := x :: l)); [apply Permutation_cons_append|]. constructor; auto.
Qed.

Definition MInv (s : db) : Prop := NoDup (map ident_of_row (metrics s)) /\ NoDup (map m_id (metrics s)).

Lemma update_metric_cases s a :
  (exists r, In r (metrics s) /\ ident_of_row r = ident_of_args a /\ update_metric s a = (s, m_id r)) \/
  ((forall r, In r (metrics s) -> ident_of_row r <> ident_of_args a) /\
   exists r, ident_of_row r = ident_of_args a /\ m_id r = next_id (map m_id (metrics s)) /\
     m_datafile r = or_null (a_datafile a) /\
     update_metric s a = (mkDb (metrics s ++ [r]) (displays s) (plots s) (stats s), m_id r)).
Proof.
  unfold update_metric. destruct (filter (metric_match a) (metrics s)) as [|r t] eqn:E.
  - right. split.
    + intros r Hr Hi. assert (In r []) as []. rewrite <- E. apply filter_In. split; auto. apply match_ident; auto.
    + exists (mkM (next_id (map m_id (metrics s))) (a_name a) (a_slicer a) (null_str (a_run a)) (null_str (a_constraint a))
                               (null_str (a_label a)) (null_str (a_datafile a))).
      split; [|split; [reflexivity|split; [destruct (a_datafile a); reflexivity|reflexivity]]].
      unfold ident_of_row, ident_of_args; simpl. destruct (a_run a), (a_label a), (a_constraint a); reflexivity.
  - left. exists r. assert (In r (filter (metric_match a) (metrics s))) as H by (rewrite E; left; auto).
    apply filter_In in H as [H1 H2]. apply match_ident in H2. auto.
Qed.

Lemma update_metric_inv s a : MInv s -> MInv (fst (update_metric s a)).
Proof.
  intros [H1 H2]. destruct (update_metric_cases s a) as [(r & _ & _ & ->)|(Hn & r & Hi & Hid & _ & ->)]; simpl; [split; auto|].
  split; simpl; rewrite map_app; simpl; apply NoDup_snoc; auto.
  - intros H. apply in_map_iff in H as (r' & E & Hr'). apply (Hn r' Hr'). congruence.
  - rewrite Hid. apply next_id_notin.
Qed.

Lemma try_row_metrics fuel : forall s mid n v outs tries ntry s' o' t' e,
  try_row fuel s mid n v outs tries ntry = (s', o', t', e) ->
  metrics s' = metrics s /\ displays s' = displays s /\ plots s' = plots s.
Proof.
  induction fuel as [|f IH]; simpl; intros s mid n v outs tries ntry s' o' t' e H.
  - injection H as <- <- <- <-. auto.
  - destruct (tries <? ntry)%nat; [|injection H as <- <- <- <-; auto].
    destruct outs as [|[| |] o]; try (injection H as <- <- <- <-; auto). eapply IH; eauto.
Qed.
Lemma try_rows_metrics mid base rows : forall s outs tries ntry s' e,
  try_rows s mid base rows outs tries ntry = (s', e) ->
  metrics s' = metrics s /\ displays s' = displays s /\ plots s' = plots s.
Proof.
  induction rows as [|[n v] t IH]; intros s outs tries ntry s' e H.
  - injection H as <- <-. auto.
  - cbn [try_rows] in H. destruct (try_row (S ntry) s mid _ v outs tries ntry) as [[[s1 o1] t1] [e1|]] eqn:E.
    + injection H as <- <-. eapply try_row_metrics; eauto.
    + apply try_row_metrics in E as (E1 & E2 & E3). apply IH in H as (H1 & H2 & H3). repeat split; congruence.
Qed.
Lemma update_summary_other s mid n v k outs :
  let s' := fst (update_summary_stat s mid n v k outs) in
  metrics s' = metrics s /\ displays s' = displays s /\ plots s' = plots s.
Proof.
  destruct v as [z|rows|]; simpl.
  - destruct outs as [|[| |] o]; simpl; auto.
  - destruct (try_rows s mid n rows outs 0 k) as [s' e] eqn:E. simpl. eapply try_rows_metrics; eauto.
  - auto.
Qed.

Lemma step_metrics s o : exists new, metrics (step s o) = metrics s ++ new.
Proof.
  destruct o as [a|m a ow|m t f ow|m n v k outs]; cbn [step].
  - destruct (update_metric_cases s a) as [(r & _ & _ & ->)|(_ & r & _ & _ & _ & ->)]; simpl; [exists []; rewrite app_nil_r; auto|eauto].
  - exists []. rewrite app_nil_r. unfold update_display. destruct (_ && _); auto.
  - exists []. rewrite app_nil_r. auto.
  - exists []. rewrite app_nil_r. apply update_summary_other.
Qed.
Lemma step_inv s o : MInv s -> MInv (step s o).
Proof.
  intros H. destruct o as [a|m a ow|m t f ow|m n v k outs].
  - apply update_metric_inv; auto.
  - unfold MInv in *. assert (metrics (step s (UpdateDisplay m a ow)) = metrics s) as -> ; auto.
    cbn [step]. unfold update_display. destruct (_ && _); auto.
  - exact H.
  - unfold MInv in *. cbn [step]. rewrite (proj1 (update_summary_other s m n v k outs)). auto.
Qed.
Lemma run_inv h : forall s, MInv s -> MInv (run s h).
Proof. induction h as [|o t IH]; intros s H; [exact H|]. apply (IH (step s o)), step_inv, H. Qed.
Lemma run_metrics h : forall s, exists new, metrics (run s h) = metrics s ++ new.
Proof.
  induction h as [|o t IH]; intros s; simpl; [exists []; rewrite app_nil_r; auto|].
  destruct (IH (step s o)) as [n1 E1]. destruct (step_metrics s o) as [n2 E2].
  exists (n2 ++ n1). change (run s (o :: t)) with (run (step s o) t). rewrite E1, E2, app_assoc. auto.
Qed.
Lemma empty_inv : MInv empty_db.
Proof. split; constructor. Qed.

Lemma inv_ident s r r' : MInv s -> In r (metrics s) -> In r' (metrics s) -> ident_of_row r = ident_of_row r' -> r = r'.
Proof.
  intros [H _]. revert H. generalize (metrics s). intros l. induction l as [|x t IH]; simpl; [tauto|].
  intros Hn [->|Hr] [->|Hr'] E; auto; apply NoDup_cons_iff in Hn as [Hx Hn].
  - elim Hx. rewrite E. apply in_map; auto.
  - elim Hx. rewrite <- E. apply in_map; auto.
  - apply IH; auto.
Qed.
Lemma inv_id s r r' : MInv s -> In r (metrics s) -> In r' (metrics s) -> m_id r = m_id r' -> r = r'.
Proof.
  intros [_ H]. revert H. generalize (metrics s). intros l. induction l as [|x t IH]; simpl; [tauto|].
  intros Hn [->|Hr] [->|Hr'] E; auto; apply NoDup_cons_iff in Hn as [Hx Hn].
  - elim Hx. rewrite E. apply in_map; auto.
  - elim Hx. rewrite <- E. apply in_map; auto.
  - apply IH; auto.
Qed.

Lemma update_metric_row s a s' i : MInv s -> update_metric s a = (s', i) ->
  exists r, In r (metrics s') /\ ident_of_row r = ident_of_args a /\ m_id r = i.
Proof.
  intros H E. destruct (update_metric_cases s a) as [(r & Hr & Hi & E')|(_ & r & Hi & _ & _ & E')]; rewrite E' in E; injection E as <- <-.
  - eauto.
  - exists r. simpl. rewrite in_app_iff. simpl. auto.
Qed.

Lemma stable_id h h' a a' s i s' i' : update_metric (run empty_db h) a = (s, i) ->
  update_metric (run s h') a' = (s', i') -> (i' = i <-> ident_of_args a' = ident_of_args a).
Proof.
  intros E E'. pose proof (run_inv h _ empty_inv) as I0.
  assert (MInv s) as I1 by (pose proof (update_metric_inv _ a I0) as H; rewrite E in H; exact H).
  pose proof (run_inv h' _ I1) as I2.
  assert (MInv s') as I3 by (pose proof (update_metric_inv _ a' I2) as H; rewrite E' in H; exact H).
  destruct (update_metric_row _ _ _ _ I0 E) as (r & Hr & Hi & Hid).
  destruct (update_metric_row _ _ _ _ I2 E') as (r' & Hr' & Hi' & Hid').
  assert (In r (metrics s')) as Hr2.
  { destruct (run_metrics h' s) as [n1 E1]. pose proof (step_metrics (run s h') (UpdateMetric a')) as [n2 E2].
    simpl in E2. rewrite E' in E2. simpl in E2. rewrite E2, E1, !in_app_iff. auto. }
  split; intros H.
  - assert (r' = r) by (apply (inv_id s'); auto; congruence). congruence.
  - assert (r' = r) by (apply (inv_ident s'); auto; congruence). congruence.
Qed.

(** * displays *)
Definition DInv (s : db) : Prop := NoDup (map d_metric (displays s)) /\ NoDup (map d_id (displays s)).
Lemma NoDup_map_filter {A B} (f : A -> B) p l : NoDup (map f l) -> NoDup (map f (filter p l)).
Proof.
  induction l as [|x t IH]; simpl; auto. intros H. apply NoDup_cons_iff in H as [Hx H].
  destruct (p x); simpl; auto. constructor; auto. intros Hi. apply Hx. apply in_map_iff in Hi as (y & E & Hy).
  apply in_map_iff. exists y. split; auto. apply filter_In in Hy. tauto.
Qed.
Lemma update_display_inv s m a ow : DInv s -> DInv (update_display s m a ow).
Proof.
  intros [H1 H2]. unfold update_display. destruct (_ && _); [split; auto|]. split; cbn [displays]; rewrite map_app; apply NoDup_snoc.
  - apply NoDup_map_filter; auto.
  - simpl. intros H. apply in_map_iff in H as (r & E & Hr). apply filter_In in Hr as [_ Hr].
    rewrite E, Nat.eqb_refl in Hr. discriminate.
  - apply NoDup_map_filter; auto.
  - simpl. intros H. apply (next_id_notin (map d_id (displays s))). apply in_map_iff in H as (r & E & Hr).
    rewrite <- E. apply in_map. apply filter_In in Hr. tauto.
Qed.
Lemma step_displays s o : (forall m a ow, o <> UpdateDisplay m a ow) -> displays (step s o) = displays s.
Proof.
  intros H. destruct o as [a|m a ow|m t f ow|m n v k outs]; cbn [step].
  - destruct (update_metric_cases s a) as [(r & _ & _ & ->)|(_ & r & _ & _ & _ & ->)]; auto.
  - elim (H m a ow). auto.
  - auto.
  - apply update_summary_other.
Qed.
Lemma step_dinv s o : DInv s -> DInv (step s o).
Proof.
  intros H. destruct o as [a|m a ow|m t f ow|m n v k outs].
  2: apply update_display_inv; auto.
  all: unfold DInv in *; rewrite step_displays by discriminate; auto.
Qed.
Lemma run_dinv h : forall s, DInv s -> DInv (run s h).
Proof. induction h as [|o t IH]; intros s H; [exact H|]. apply (IH (step s o)), step_dinv, H. Qed.

Lemma filter_snoc {A} p (l : list A) x : filter p (l ++ [x]) = filter p l ++ (if p x then [x] else []).
Proof. rewrite filter_app. reflexivity. Qed.
Lemma filter_filter_neg {A} (p : A -> bool) l : filter p (filter (fun x => negb (p x)) l) = [].
Proof. induction l as [|x t IH]; simpl; auto. destruct (p x) eqn:E; simpl; auto. rewrite E. auto. Qed.
Lemma filter_filter_id {A} (p q : A -> bool) l : (forall x, p x = true -> q x = true) -> filter p (filter q l) = filter p l.
Proof.
  intros H. induction l as [|x t IH]; simpl; auto. destruct (q x) eqn:Q; simpl.
  - destruct (p x); simpl; congruence.
  - destruct (p x) eqn:P; auto. rewrite (H x P) in Q. discriminate.
Qed.

Lemma update_display_overwrite s m a :
  let s' := update_display s m a true in
  (exists r, filter (fun r => (d_metric r =? m)%nat) (displays s') = [r] /\
     d_group r = or_null (da_group a) /\ d_subgroup r = or_null (da_subgroup a) /\
     d_order r = match da_order a with None => 0%Z | Some z => z end /\
     d_caption r = clean_caption (or_null (da_caption a))) /\
  (forall m', m' <> m -> filter (fun r => (d_metric r =? m')%nat) (displays s') =
                        filter (fun r => (d_metric r =? m')%nat) (displays s)) /\
  metrics s' = metrics s /\ plots s' = plots s /\ stats s' = stats s.
Proof.
  unfold update_display. rewrite andb_false_r. cbn -[clean_caption]. split; [|split; [|auto]].
  - rewrite filter_snoc, filter_filter_neg. cbn [d_metric]. rewrite Nat.eqb_refl.
    eexists. split; [reflexivity|]. cbn -[clean_caption].
    destruct (da_group a), (da_subgroup a), (da_order a), (da_caption a); auto.
  - intros m' Hm. rewrite filter_snoc. cbn [d_metric]. replace (m =? m')%nat with false by (symmetry; apply Nat.eqb_neq; auto).
    rewrite app_nil_r. apply filter_filter_id. intros x Hx. apply Nat.eqb_eq in Hx. apply negb_true_iff, Nat.eqb_neq. congruence.
Qed.
Lemma update_display_keep s m a r : In r (displays s) -> d_metric r = m -> update_display s m a false = s.
Proof.
  intros Hr Hm. unfold update_display. destruct (filter _ (displays s)) as [|x t] eqn:E; auto.
  assert (In r []) as []. rewrite <- E. apply filter_In. split; auto. apply Nat.eqb_eq; auto.
Qed.
Lemma update_display_new s m a ow : (forall r, In r (displays s) -> d_metric r <> m) ->
  update_display s m a ow = update_display s m a true.
Proof.
  intros H. unfold update_display. rewrite andb_false_r. destruct (filter _ (displays s)) as [|x t] eqn:E; auto.
  exfalso. assert (In x (filter (fun r => (d_metric r =? m)%nat) (displays s))) as Hx by (rewrite E; left; auto).
  apply filter_In in Hx as [Hx Hm]. apply Nat.eqb_eq in Hm. apply (H x Hx Hm).
Qed.

(** * plots *)
Lemma plot_match_iff m ty r : plot_match m ty r = true <-> p_metric r = m /\ p_type r = ty.
Proof. unfold plot_match. rewrite andb_true_iff, Nat.eqb_eq, String.eqb_eq. tauto. Qed.
Lemma step_plots s o : (forall m t f ow, o <> UpdatePlot m t f ow) -> plots (step s o) = plots s.
Proof.
  intros H. destruct o as [a|m a ow|m t f ow|m n v k outs]; cbn [step].
  - destruct (update_metric_cases s a) as [(r & _ & _ & ->)|(_ & r & _ & _ & _ & ->)]; auto.
  - unfold update_display. destruct (_ && _); auto.
  - elim (H m t f ow). auto.
  - apply update_summary_other.
Qed.
Definition files (m : nat) (ty : string) (s : db) : list string := map p_file (filter (plot_match m ty) (plots s)).
Lemma step_files m ty s o : files m ty (step s o) =
  match o with
  | UpdatePlot m' ty' f ow => if Nat.eq_dec m m' then if string_dec ty ty' then if ow then [f] else files m ty s ++ [f] else files m ty s else files m ty s
  | _ => files m ty s
  end.
Proof.
  destruct o as [a|m' a ow|m' t f ow|m' n v k outs].
  1, 2, 4: unfold files; rewrite step_plots by discriminate; auto.
  unfold files. cbn [step update_plot plots]. rewrite filter_snoc, map_app.
  destruct (Nat.eq_dec m m') as [<-|Hm]; [destruct (string_dec ty t) as [<-|Ht]|].
  - assert (plot_match m ty (mkP (next_id (map p_id (plots s))) m ty f) = true) as -> by (apply plot_match_iff; auto).
    destruct ow; simpl; [rewrite filter_filter_neg|]; auto.
  - replace (plot_match m ty _) with false.
    + simpl. rewrite app_nil_r. f_equal. destruct ow; auto. apply filter_filter_id. intros x Hx.
      apply plot_match_iff in Hx. apply negb_true_iff. destruct (plot_match m t x) eqn:E; auto.
      apply plot_match_iff in E. destruct Hx, E. congruence.
    + symmetry. destruct (plot_match m ty _) eqn:E; auto. apply plot_match_iff in E. simpl in E. destruct E. congruence.
  - replace (plot_match m ty _) with false.
    + simpl. rewrite app_nil_r. f_equal. destruct ow; auto. apply filter_filter_id. intros x Hx.
      apply plot_match_iff in Hx. apply negb_true_iff. destruct (plot_match m' t x) eqn:E; auto.
      apply plot_match_iff in E. destruct Hx, E. congruence.
    + symmetry. destruct (plot_match m ty _) eqn:E; auto. apply plot_match_iff in E. simpl in E. destruct E. congruence.
Qed.
Lemma run_files m ty h : files m ty (run empty_db h) = plot_files m ty h.
Proof.
  unfold run, plot_files.
  assert (forall s acc, files m ty s = acc -> files m ty (fold_left step h s) = fold_left (fun acc o =>
    match o with
    | UpdatePlot m' ty' f ow => if Nat.eq_dec m m' then if string_dec ty ty' then if ow then [f] else acc ++ [f] else acc else acc
    | _ => acc
    end) h acc) as H.
  { induction h as [|o t IH]; intros s acc E; simpl; auto. apply IH. rewrite step_files, E. destruct o; auto. }
  apply H. reflexivity.
Qed.
Lemma plot_files_ow m ty h :
  (forall m' ty' f ow, In (UpdatePlot m' ty' f ow) h -> ow = true) -> length (plot_files m ty h) <= 1.
Proof.
  unfold plot_files. assert (forall acc : list string, length acc <= 1 ->
    (forall m' ty' f ow, In (UpdatePlot m' ty' f ow) h -> ow = true) ->
    length (fold_left (fun acc o =>
    match o with
    | UpdatePlot m' ty' f ow => if Nat.eq_dec m m' then if string_dec ty ty' then if ow then [f] else acc ++ [f] else acc else acc
    | _ => acc
    end) h acc) <= 1) as H.
  { induction h as [|o t IH]; intros acc Ha Hh; simpl; auto. apply IH; [|intros; eapply Hh; right; eauto].
    destruct o as [a|m' a ow|m' ty' f ow|m' n v k outs]; auto.
    assert (ow = true) as -> by (eapply Hh; left; eauto).
    destruct (Nat.eq_dec m m'), (string_dec ty ty'); simpl; auto. }
  apply H. simpl. lia.
Qed.

(** * summary statistics *)
Definition srow (r : stat_row) : nat * string * Z := (s_metric r, s_name r, s_value r).
Definition okc (o : commit_outcome) : Prop := o <> RaisesSqlite.
Lemma try_row_ok ntry s mid n v outs : 0 < ntry -> Forall okc outs ->
  match try_row (S ntry) s mid n v outs 0 ntry with
  | (s', outs', tries', None) => s' = add_stat s mid n v /\ Forall okc outs' /\ tries' = 0
  | (s', _, _, Some e) => s' = s /\ In RaisesSqlalchemy outs
  end.
Proof.
  intros Hn Ho. cbn [try_row]. replace (0 <? ntry)%nat with true by (symmetry; apply Nat.ltb_lt; auto).
  destruct outs as [|[| |] t]; auto.
  - inversion Ho; auto.
  - simpl. auto.
  - inversion Ho as [|? ? H]. elim H. reflexivity.
Qed.
Lemma try_rows_ok mid base ntry rows : 0 < ntry -> forall s outs s' e, Forall okc outs ->
  try_rows s mid base rows outs 0 ntry = (s', e) ->
  exists k, k <= length rows /\
    map srow (stats s') = map srow (stats s) ++ map (fun p => (mid, (base ++ " " ++ fst p)%string, snd p)) (firstn k rows) /\
    (e = None -> k = length rows) /\ (e <> None -> In RaisesSqlalchemy outs).
Proof.
  intros Hn. induction rows as [|[n v] t IH]; intros s outs s' e Ho H.
  - injection H as <- <-. exists 0. simpl. rewrite app_nil_r. repeat split; auto. congruence.
  - cbn [try_rows] in H. pose proof (try_row_ok ntry s mid (base ++ " " ++ n)%string v outs Hn Ho) as R.
    destruct (try_row (S ntry) s mid _ v outs 0 ntry) as [[[s1 o1] t1] [e1|]] eqn:E.
    + injection H as <- <-. destruct R as [-> R]. exists 0. simpl. rewrite app_nil_r. repeat split; auto; try lia. discriminate.
    + destruct R as (-> & Ho1 & ->). destruct (IH _ _ _ _ Ho1 H) as (k & Hk & Hs & H1 & H2).
      exists (S k). simpl. rewrite Hs. unfold add_stat. cbn [stats]. rewrite map_app. simpl. rewrite <- app_assoc. simpl.
      split; [lia|split; [reflexivity|split]].
      * intros He. rewrite (H1 He). auto.
      * intros He. specialize (H2 He). cbn [try_row] in E.
        replace (0 <? ntry)%nat with true in E by (symmetry; apply Nat.ltb_lt; auto).
        destruct outs as [|[| |] to]; try discriminate.
        -- injection E as E. subst o1. destruct H2.
        -- injection E as E. subst o1. right. auto.
        -- inversion Ho as [|? ? Hx]. elim Hx. reflexivity.
Qed.

(** * captions *)
Lemma sapp_nil s : (s ++ "" = s)%string.
Proof. induction s as [|c t IH]; simpl; congruence. Qed.
Lemma sapp_assoc a b c : ((a ++ b) ++ c = a ++ (b ++ c))%string.
Proof. induction a as [|x t IH]; simpl; congruence. Qed.
Lemma slen_app a b : String.length (a ++ b)%string = String.length a + String.length b.
Proof. induction a as [|x t IH]; simpl; congruence. Qed.
Lemma substring_app_r a b : String.substring (String.length a) (String.length b) (a ++ b)%string = b.
Proof.
  induction a as [|x t IH]; simpl; auto. induction b as [|y u IHb]; simpl; congruence.
Qed.
Lemma substring_full s : String.substring 0 (String.length s) s = s.
Proof. exact (substring_app_r "" s). Qed.
Lemma ends_with_app c : ends_with auto (c ++ auto)%string = true.
Proof.
  unfold ends_with. rewrite slen_app. replace (String.length c + String.length auto - String.length auto) with (String.length c) by lia.
  rewrite substring_app_r, String.eqb_refl, andb_true_r. apply Nat.leb_le. lia.
Qed.
Lemma prefix_split p : forall s, String.prefix p s = true -> exists q, s = (p ++ q)%string.
Proof.
  induction p as [|a p IH]; intros [|b s] H; simpl in *; try discriminate; eauto.
  destruct (ascii_dec a b) as [->|]; [|discriminate]. destruct (IH s H) as [q ->]. eauto.
Qed.
Lemma auto_no_overlap x q : (x ++ auto = auto ++ q)%string -> x = ""%string \/ exists r, x = (auto ++ r)%string.
Proof.
  intros H. unfold auto in *.
  destruct x as [|x0 x]; auto. simpl in H. injection H as -> H.
  destruct x as [|x1 x]; simpl in H; [discriminate|]. injection H as -> H.
  destruct x as [|x2 x]; simpl in H; [discriminate|]. injection H as -> H.
  destruct x as [|x3 x]; simpl in H; [discriminate|]. injection H as -> H.
  destruct x as [|x4 x]; simpl in H; [discriminate|]. injection H as -> H.
  destruct x as [|x5 x]; simpl in H; [discriminate|]. injection H as -> H.
  right. exists x. reflexivity.
Qed.
Lemma remove_first_auto c : ~ occurs auto c -> remove_first auto (c ++ auto)%string = c.
Proof.
  induction c as [|a t IH]; intros H.
  - reflexivity.
  - change (String a t ++ auto)%string with (String a (t ++ auto)%string). cbn [remove_first].
    destruct (String.prefix auto (String a (t ++ auto))) eqn:E.
    + exfalso. apply prefix_split in E as [q E]. change (String a (t ++ auto))%string with (String a t ++ auto)%string in E.
      apply auto_no_overlap in E as [E|[r E]]; [discriminate|]. apply H. exists ""%string, r. exact E.
    + f_equal. apply IH. intros (p & q & ->). apply H. exists (String a p), q. reflexivity.
Qed.
Lemma remove_first_once c : exists p q, (c ++ auto)%string = (p ++ auto ++ q)%string /\ remove_first auto (c ++ auto)%string = (p ++ q)%string.
Proof.
  induction c as [|a t IH].
  - exists ""%string, ""%string. split; reflexivity.
  - change (String a t ++ auto)%string with (String a (t ++ auto)%string). cbn [remove_first].
    destruct (String.prefix auto (String a (t ++ auto))) eqn:E.
    + apply prefix_split in E as [q E]. exists ""%string, q. split; [exact E|]. rewrite E, slen_app.
      replace (String.length auto + String.length q - String.length auto) with (String.length q) by lia. apply substring_app_r.
    + destruct IH as (p & q & E1 & E2). exists (String a p), q. split; [rewrite E1; reflexivity | rewrite E2; reflexivity].
Qed.
Lemma clean_caption_once c : exists p q, (c ++ auto)%string = (p ++ auto ++ q)%string /\ clean_caption (c ++ auto)%string = (p ++ q)%string.
Proof. unfold clean_caption. rewrite ends_with_app. apply remove_first_once. Qed.
Lemma clean_caption_auto c : ~ occurs auto c -> clean_caption (c ++ auto)%string = c.
Proof. intros H. unfold clean_caption. rewrite ends_with_app. apply remove_first_auto; auto. Qed.
Lemma substring_length_split : forall n s, n <= String.length s ->
  exists p q, s = (p ++ q)%string /\ String.length p = n.
Proof.
  induction n as [|n IH]; intros s H; [exists ""%string, s; auto|]. destruct s as [|a s]; simpl in *; [lia|].
  destruct (IH s ltac:(lia)) as (p & q & -> & E). exists (String a p), q. simpl. auto.
Qed.
Lemma clean_caption_other c : (forall p, c <> (p ++ auto)%string) -> clean_caption c = c.
Proof.
  intros H. unfold clean_caption. destruct (ends_with auto c) eqn:E; auto. exfalso.
  unfold ends_with in E. apply andb_true_iff in E as [E1 E2]. apply Nat.leb_le in E1. apply String.eqb_eq in E2.
  destruct (substring_length_split (String.length c - String.length auto) c ltac:(lia)) as (p & q & E & Ep).
  assert (String.length q = String.length auto) as Lq by (pose proof (slen_app p q) as L; rewrite <- E in L; lia).
  rewrite <- Ep, <- Lq, E, substring_app_r in E2. apply (H p). congruence.
Qed.

(** * schema *)
Definition sub (l : list (string * string)) (c : string) : string :=
  match dget String.eqb l c with Some n => n | None => c end.
Lemma dget_none {V} (l : list (string * V)) c : ~ In c (map fst l) <-> dget String.eqb l c = None.
Proof.
  induction l as [|[k v] t IH]; simpl; [tauto|]. destruct (String.eqb_spec c k) as [->|Hk].
  - split; [intros H; elim H; auto|discriminate].
  - rewrite <- IH. split; intros H; [tauto|]. intros [->|H']; tauto.
Qed.
Lemma dget_in {V} (l : list (string * V)) c v : NoDup (map fst l) -> (dget String.eqb l c = Some v <-> In (c, v) l).
Proof.
  induction l as [|[k w] t IH]; simpl; [split; [discriminate|tauto]|]. intros Hn. apply NoDup_cons_iff in Hn as [Hk Hn].
  destruct (String.eqb_spec c k) as [->|Hc].
  - split; [intros E; left; congruence|]. intros [E|E]; [congruence|]. elim Hk. apply in_map_iff. exists (k, v); auto.
  - rewrite IH by auto. split; [auto|]. intros [E|E]; [congruence|auto].
Qed.
Lemma smem_in c l : smem c l = true <-> In c l.
Proof. unfold smem. rewrite existsb_exists. split; [intros (x & H & E); apply String.eqb_eq in E; congruence|intros H; exists c; split; auto; apply String.eqb_refl]. Qed.
Lemma smem_notin c l : smem c l = false <-> ~ In c l.
Proof. rewrite <- smem_in. destruct (smem c l); split; congruence. Qed.

Definition static (l : list (string * string)) : Prop := NoDup (map fst l ++ map snd l).
Lemma NoDup_app_inv {A} (a b : list A) : NoDup (a ++ b) -> NoDup a /\ NoDup b /\ forall x, In x a -> ~ In x b.
Proof.
  induction a as [|x t IH]; simpl; intros H; [repeat split; auto; constructor|].
  apply NoDup_cons_iff in H as [Hx H]. destruct (IH H) as (H1 & H2 & H3). rewrite in_app_iff in Hx.
  repeat split; auto; [constructor; tauto|]. intros y [->|Hy]; [tauto|auto].
Qed.
Lemma NoDup_app_intro {A} (a b : list A) : NoDup a -> NoDup b -> (forall x, In x a -> ~ In x b) -> NoDup (a ++ b).
Proof.
  induction a as [|x t IH]; simpl; intros H1 H2 H3; auto. apply NoDup_cons_iff in H1 as [Hx H1].
  constructor; [rewrite in_app_iff; intros [H|H]; [tauto|elim (H3 x); auto]|]. apply IH; auto.
Qed.
Lemma NoDup_map_inj {A B} (f : A -> B) l : (forall x y, In x l -> In y l -> f x = f y -> x = y) -> NoDup l -> NoDup (map f l).
Proof.
  intros Hf. induction l as [|x t IH]; intros H; simpl; constructor; apply NoDup_cons_iff in H as [Hx H].
  - intros Hi. apply in_map_iff in Hi as (y & E & Hy). apply Hx. rewrite (Hf x y); simpl; auto.
  - apply IH; auto. intros; apply Hf; simpl; auto.
Qed.

Lemma renames_ok l : forall cols, static l -> NoDup cols -> incl (map fst l) cols ->
  (forall c, In c (map snd l) -> ~ In c cols) -> renames l cols = (map (sub l) cols, None).
Proof.
  induction l as [|[o n] t IH]; intros cols Hs Hn Hi Hd.
  - simpl. f_equal. unfold sub. simpl. symmetry. apply map_id.
  - cbn [renames]. unfold rename.
    assert (In o cols) as Ho by (apply Hi; left; auto).
    assert (~ In n cols) as Hnn by (apply Hd; left; auto).
    rewrite (proj2 (smem_in o cols) Ho), (proj2 (smem_notin n cols) Hnn). cbn [negb].
    apply NoDup_app_inv in Hs as (Hs1 & Hs2 & Hs3). simpl in Hs1, Hs2.
    apply NoDup_cons_iff in Hs1 as [Ho1 Hs1]. apply NoDup_cons_iff in Hs2 as [Hn1 Hs2].
    set (f := fun c => if String.eqb c o then n else c).
    rewrite IH.
    + f_equal. rewrite map_map. apply map_ext_in. intros c Hc. unfold f, sub. simpl.
      destruct (String.eqb_spec c o) as [->|Hco]; auto.
      assert (dget String.eqb t n = None) as -> by (apply dget_none; intros H; elim (Hs3 n); simpl; auto). auto.
    + apply NoDup_app_intro; auto. intros x Hx Hx'. elim (Hs3 x); simpl; auto.
    + apply NoDup_map_inj; auto. intros x y Hx Hy. unfold f.
      destruct (String.eqb_spec x o) as [E1|E1], (String.eqb_spec y o) as [E2|E2]; intros E; congruence.
    + intros x Hx. apply in_map_iff. exists x. unfold f. split.
      * destruct (String.eqb_spec x o) as [->|]; auto. tauto.
      * apply Hi. right. auto.
    + intros x Hx Hx'. apply in_map_iff in Hx' as (y & E & Hy). unfold f in E.
      destruct (String.eqb_spec y o) as [E1|E1]; [congruence|]. rewrite E in Hy. apply (Hd x); auto. right; auto.
Qed.

Lemma swap_fst l : map fst (swap l) = map snd l.
Proof. unfold swap. rewrite map_map. apply map_ext. auto. Qed.
Lemma swap_snd l : map snd (swap l) = map fst l.
Proof. unfold swap. rewrite map_map. apply map_ext. auto. Qed.
Lemma static_swap l : static l -> static (swap l).
Proof.
  unfold static. rewrite swap_fst, swap_snd. intros H. apply (Permutation_NoDup (l := map fst l ++ map snd l)); auto.
  apply Permutation_app_comm.
Qed.
Lemma swap_swap l : swap (swap l) = l.
Proof. unfold swap. rewrite map_map. rewrite <- (map_id l) at 2. apply map_ext. intros []; auto. Qed.
Lemma sub_in l c v : static l -> In (c, v) l -> sub l c = v.
Proof. intros H Hi. apply NoDup_app_inv in H as (H & _). unfold sub. rewrite (proj2 (dget_in l c v H) Hi). auto. Qed.
Lemma sub_notin l c : ~ In c (map fst l) -> sub l c = c.
Proof. intros H. unfold sub. rewrite (proj1 (dget_none l c) H). auto. Qed.
Lemma sub_swap l c : static l -> ~ In c (map snd l) -> sub (swap l) (sub l c) = c.
Proof.
  intros Hs Hc. destruct (in_dec string_dec c (map fst l)) as [Hi|Hi].
  - apply in_map_iff in Hi as ([k v] & E & Hi). simpl in E. subst k.
    rewrite (sub_in l c v Hs Hi). apply sub_in; [apply static_swap; auto|]. unfold swap. apply in_map_iff. exists (c, v). auto.
  - rewrite (sub_notin l c Hi). apply sub_notin. rewrite swap_fst. auto.
Qed.
Lemma sub_perm l l' c : static l -> Permutation l l' -> sub l c = sub l' c.
Proof.
  intros Hs Hp. assert (static l') as Hs'.
  { unfold static. apply (Permutation_NoDup (l := map fst l ++ map snd l)); auto. apply Permutation_app; apply Permutation_map; auto. }
  destruct (in_dec string_dec c (map fst l)) as [Hi|Hi].
  - apply in_map_iff in Hi as ([k v] & E & Hi). simpl in E. subst k. rewrite (sub_in l c v), (sub_in l' c v); auto.
    apply (Permutation_in _ Hp); auto.
  - rewrite !sub_notin; auto. intros H. apply Hi. apply (Permutation_in _ (Permutation_sym (Permutation_map fst Hp))). auto.
Qed.
Lemma renames_app a b cols : renames (a ++ b) cols =
  match renames a cols with (c, None) => renames b c | r => r end.
Proof. revert cols. induction a as [|[o n] t IH]; intros cols; simpl; auto. destruct (rename o n cols); auto. Qed.

(** renaming forth and (in another order) back *)
Lemma forth_cols l cols : static l -> has_cols (map fst l) (map snd l) cols ->
  renames l cols = (map (sub l) cols, None) /\ has_cols (map snd l) (map fst l) (map (sub l) cols) /\
  forall l', Permutation l' (swap l) -> renames l' (map (sub l) cols) = (cols, None).
Proof.
  intros Hs (Hn & Hi & Hd). split; [apply renames_ok; auto|].
  assert (has_cols (map snd l) (map fst l) (map (sub l) cols)) as Hc.
  { split; [|split].
    - apply NoDup_map_inj; auto. intros x y Hx Hy E. rewrite <- (sub_swap l x), <- (sub_swap l y), E; auto; intros H; eapply Hd; eauto.
    - intros v Hv. apply in_map_iff in Hv as ([k v'] & E & Hv). simpl in E. subst v'. apply in_map_iff. exists k.
      split; [apply sub_in; auto|]. apply Hi, in_map_iff. exists (k, v). auto.
    - intros k Hk Hk'. apply in_map_iff in Hk' as (c & E & Hc). destruct (in_dec string_dec c (map fst l)) as [Hf|Hf].
      + apply in_map_iff in Hf as ([c' v] & E' & Hv). simpl in E'. subst c'. rewrite (sub_in l c v Hs Hv) in E. subst v.
        apply NoDup_app_inv in Hs as (_ & _ & Hs). apply (Hs k Hk). apply in_map_iff. exists (c, k). auto.
      + rewrite (sub_notin l c Hf) in E. congruence. }
  split; auto. intros l' Hp. pose proof (static_swap l Hs) as Hs'.
  assert (static l') as Hs''.
  { unfold static in *. apply (Permutation_NoDup (l := map fst (swap l) ++ map snd (swap l))); auto.
    apply Permutation_app; apply Permutation_map, Permutation_sym; auto. }
  destruct Hc as (Hc1 & Hc2 & Hc3). rewrite renames_ok; auto.
  - f_equal. rewrite map_map. rewrite <- (map_id cols) at 2. apply map_ext_in. intros c Hc.
    rewrite (sub_perm l' (swap l) _ Hs'' Hp). apply sub_swap; auto. intros H. eapply Hd; eauto.
  - intros x Hx. apply Hc2. rewrite <- swap_fst. apply (Permutation_in _ (Permutation_map fst Hp)). auto.
  - intros x Hx. apply Hc3. rewrite <- swap_snd. apply (Permutation_in _ (Permutation_map snd Hp)). auto.
Qed.
Lemma has_cols_perm a a' b b' cols : (forall x, In x a <-> In x a') -> (forall x, In x b <-> In x b') ->
  has_cols a b cols -> has_cols a' b' cols.
Proof. intros Ha Hb (H1 & H2 & H3). split; auto. split; [intros x Hx; apply H2, Ha; auto|intros x Hx; apply H3, Hb; auto]. Qed.

Lemma renames_split a b cols r : renames (a ++ b) cols = (r, None) ->
  exists m, renames a cols = (m, None) /\ renames b m = (r, None).
Proof. rewrite renames_app. destruct (renames a cols) as [m [e|]]; [discriminate|]. eauto. Qed.

Ltac static_tac := unfold static; cbn; repeat (constructor; [cbn; intuition discriminate|]); constructor.
Lemma static_m : static down_metrics. Proof. static_tac. Qed.
Lemma static_s : static down_stats. Proof. static_tac. Qed.
Lemma static_p : static down_plots. Proof. static_tac. Qed.
Lemma static_d : static down_displays. Proof. static_tac. Qed.
Lemma static_v : static down_version. Proof. static_tac. Qed.
Definition up1 : list (string * string) := [("metricId", "metric_id")]%string.
Lemma perm_m : Permutation (up1 ++ up_metrics) down_metrics. Proof. apply Permutation_refl. Qed.
Lemma perm_s : Permutation (up1 ++ up_stats) down_stats. Proof. apply perm_swap. Qed.
Lemma perm_p : Permutation (up1 ++ up_plots) down_plots. Proof. apply perm_swap. Qed.
Lemma perm_d : Permutation (up1 ++ up_displays) down_displays. Proof. apply perm_swap. Qed.

Ltac in_tac := cbn; intuition congruence.

Lemma has_forb req forb cols c : has_cols req forb cols -> In c forb -> smem c cols = false.
Proof. intros (_ & _ & H) Hc. apply smem_notin; auto. Qed.
Lemma has_req req forb cols c : has_cols req forb cols -> In c req -> smem c cols = true.
Proof. intros (_ & H & _) Hc. apply smem_in; auto. Qed.
Lemma has_weaken req forb req' forb' cols : incl req' req -> incl forb' forb -> has_cols req forb cols -> has_cols req' forb' cols.
Proof. intros Hr Hf (H1 & H2 & H3). split; auto. split; [intros x Hx; auto|intros x Hx; auto]. Qed.

(** a name that is neither old nor new is present after the renaming iff it was before *)
Lemma sub_other l cols c : ~ In c (map fst l) -> ~ In c (map snd l) -> static l -> (In c (map (sub l) cols) <-> In c cols).
Proof.
  intros H1 H2 Hs. split; intros H.
  - apply in_map_iff in H as (x & E & Hx). destruct (in_dec string_dec x (map fst l)) as [Hf|Hf].
    + apply in_map_iff in Hf as ([x' v] & E' & Hv). simpl in E'. subst x'. rewrite (sub_in l x v Hs Hv) in E. subst v.
      elim H2. apply in_map_iff. exists (x, c). auto.
    + rewrite (sub_notin l x Hf) in E. congruence.
  - apply in_map_iff. exists c. split; auto. apply sub_notin; auto.
Qed.

Lemma upgrade_old sm ss sp sd sv : forall cm cs cp cd cv,
  renames (up1 ++ up_metrics) cm = (sm, None) -> renames (up1 ++ up_stats) cs = (ss, None) ->
  renames (up1 ++ up_plots) cp = (sp, None) -> renames (up1 ++ up_displays) cd = (sd, None) ->
  renames up_version cv = (sv, None) ->
  has_cols old_metrics ("metricMetadata"%string :: cur_metrics) cm ->
  open_db (mkSch cm cs cp cd cv) = (mkSch sm ss sp sd sv, None).
Proof.
  intros cm cs cp cd cv Hm Hs Hp Hd Hv Hc.
  apply renames_split in Hm as (m1 & Hm1 & Hm2). apply renames_split in Hs as (s1 & Hs1 & Hs2).
  apply renames_split in Hp as (p1 & Hp1 & Hp2). apply renames_split in Hd as (d1 & Hd1 & Hd2).
  unfold open_db. cbn [t_metrics].
  rewrite (has_forb _ _ _ "sql_constraint" Hc) by in_tac.
  unfold update_database. cbn [t_metrics].
  rewrite (has_forb _ _ _ "metricMetadata" Hc), (has_req _ _ _ "metricId" Hc), (has_forb _ _ _ "run_name" Hc) by in_tac.
  cbn [app map blocks]. fold up1.
  cbn [get_table set_table t_metrics t_stats t_plots t_displays t_version]. rewrite Hm1.
  cbn [get_table set_table t_metrics t_stats t_plots t_displays t_version]. rewrite Hs1.
  cbn [get_table set_table t_metrics t_stats t_plots t_displays t_version]. rewrite Hp1.
  cbn [get_table set_table t_metrics t_stats t_plots t_displays t_version]. rewrite Hd1.
  cbn [get_table set_table t_metrics t_stats t_plots t_displays t_version]. rewrite Hm2.
  cbn [get_table set_table t_metrics t_stats t_plots t_displays t_version]. rewrite Hs2.
  cbn [get_table set_table t_metrics t_stats t_plots t_displays t_version]. rewrite Hp2.
  cbn [get_table set_table t_metrics t_stats t_plots t_displays t_version]. rewrite Hd2.
  cbn [get_table set_table t_metrics t_stats t_plots t_displays t_version]. rewrite Hv.
  reflexivity.
Qed.
Lemma downgrade_cur sm ss sp sd sv : forall cm cs cp cd cv,
  renames (swap down_metrics) cm = (sm, None) -> renames (swap down_stats) cs = (ss, None) ->
  renames (swap down_plots) cp = (sp, None) -> renames (swap down_displays) cd = (sd, None) ->
  renames (swap down_version) cv = (sv, None) ->
  downgrade_database (mkSch cm cs cp cd cv) = (mkSch sm ss sp sd sv, None).
Proof.
  intros cm cs cp cd cv Hm Hs Hp Hd Hv. unfold downgrade_database. cbn [blocks].
  cbn [get_table set_table t_metrics t_stats t_plots t_displays t_version]. rewrite Hm.
  cbn [get_table set_table t_metrics t_stats t_plots t_displays t_version]. rewrite Hs.
  cbn [get_table set_table t_metrics t_stats t_plots t_displays t_version]. rewrite Hp.
  cbn [get_table set_table t_metrics t_stats t_plots t_displays t_version]. rewrite Hd.
  cbn [get_table set_table t_metrics t_stats t_plots t_displays t_version]. rewrite Hv.
  reflexivity.
Qed.

Lemma has_cols_cons req forb f cols : has_cols req (f :: forb) cols <-> has_cols req forb cols /\ ~ In f cols.
Proof.
  unfold has_cols. split.
  - intros (H1 & H2 & H3). repeat split; auto; intros; apply H3; simpl; auto.
  - intros ((H1 & H2 & H3) & H4). repeat split; auto. intros c [<-|Hc]; auto.
Qed.
Lemma version_split a b c cols : has_cols [a; b; c] [] cols <-> has_cols [a; c] [] cols /\ In b cols.
Proof.
  unfold has_cols. split.
  - intros (H1 & H2 & H3). repeat split; auto; [intros x Hx; apply H2; simpl in *; tauto|apply H2; simpl; auto].
  - intros ((H1 & H2 & H3) & H4). repeat split; auto. intros x [<-|[<-|[<-|[]]]]; auto; apply H2; simpl; auto.
Qed.

Lemma downgrade_upgrade s : up_to_date s ->
  exists s1, downgrade_database s = (s1, None) /\ old_schema s1 /\ open_db s1 = (s, None).
Proof.
  destruct s as [cm cs cp cd cv]. intros (Hm & Hs & Hp & Hd & Hv). cbn [t_metrics t_stats t_plots t_displays t_version] in *.
  apply has_cols_cons in Hm as [Hm Hmm].
  destruct (forth_cols (swap down_metrics) cm (static_swap _ static_m) Hm) as (Em & Om & Bm).
  destruct (forth_cols (swap down_stats) cs (static_swap _ static_s) Hs) as (Es & Os & Bs).
  destruct (forth_cols (swap down_plots) cp (static_swap _ static_p) Hp) as (Ep & Op & Bp).
  destruct (forth_cols (swap down_displays) cd (static_swap _ static_d) Hd) as (Ed & Od & Bd).
  assert (has_cols (map fst (swap down_version)) (map snd (swap down_version)) cv) as Hv'.
  { apply (has_weaken cur_version ["verId"; "rundate"]%string); auto; intros x; in_tac. }
  destruct (forth_cols (swap down_version) cv (static_swap _ static_v) Hv') as (Ev & Ov & Bv).
  rewrite swap_swap in *.
  assert (has_cols old_metrics ("metricMetadata"%string :: cur_metrics) (map (sub (swap down_metrics)) cm)) as Om'.
  { apply has_cols_cons. split; [exact Om|]. rewrite sub_other; auto; [in_tac|in_tac|apply static_swap, static_m]. }
  eexists. split; [apply downgrade_cur; eauto|]. split.
  - split; [exact Om'|]. split; [exact Os|]. split; [exact Op|]. split; [exact Od|].
    cbn [t_version]. destruct Ov as (O1 & O2 & O3). split; [exact O1|]. split; [|exact O3].
    intros x Hx. destruct (string_dec x "version") as [->|Hx'].
    + rewrite sub_other; [|in_tac|in_tac|apply static_swap, static_v]. destruct Hv as (_ & Hi & _). apply Hi. in_tac.
    + apply O2. revert Hx. in_tac.
  - apply upgrade_old; [apply Bm, perm_m|apply Bs, perm_s|apply Bp, perm_p|apply Bd, perm_d|apply Bv, Permutation_refl|exact Om'].
Qed.

Lemma upgrade_downgrade s : old_schema s ->
  exists s1, open_db s = (s1, None) /\ up_to_date s1 /\ downgrade_database s1 = (s, None).
Proof.
  destruct s as [cm cs cp cd cv]. intros (Hm & Hs & Hp & Hd & Hv). cbn [t_metrics t_stats t_plots t_displays t_version] in *.
  pose proof Hm as Hm0. apply has_cols_cons in Hm as [Hm Hmm].
  destruct (forth_cols down_metrics cm static_m Hm) as (Em & Om & Bm).
  destruct (forth_cols down_stats cs static_s Hs) as (Es & Os & Bs).
  destruct (forth_cols down_plots cp static_p Hp) as (Ep & Op & Bp).
  destruct (forth_cols down_displays cd static_d Hd) as (Ed & Od & Bd).
  assert (has_cols (map fst down_version) (map snd down_version) cv) as Hv'.
  { apply (has_weaken old_version ["version_id"; "run_date"]%string); auto; intros x; in_tac. }
  destruct (forth_cols down_version cv static_v Hv') as (Ev & Ov & Bv).
  assert (forall l l' cols, static l -> Permutation l' l -> has_cols (map fst l) (map snd l) cols ->
            renames l' cols = (map (sub l) cols, None)) as Hperm.
  { intros l l' cols Hst Hpm (G1 & G2 & G3).
    assert (static l') as Hst'.
    { unfold static in *. apply (Permutation_NoDup (l := map fst l ++ map snd l)); auto.
      apply Permutation_app; apply Permutation_map, Permutation_sym; auto. }
    rewrite renames_ok; auto.
    - f_equal. apply map_ext. intros c. apply sub_perm; auto.
    - intros x Hx. apply G2. apply (Permutation_in _ (Permutation_map fst Hpm)). auto.
    - intros x Hx. apply G3. apply (Permutation_in _ (Permutation_map snd Hpm)). auto. }
  eexists. split; [|split].
  - apply upgrade_old.
    + apply Hperm; [apply static_m|apply perm_m|exact Hm].
    + apply Hperm; [apply static_s|apply perm_s|exact Hs].
    + apply Hperm; [apply static_p|apply perm_p|exact Hp].
    + apply Hperm; [apply static_d|apply perm_d|exact Hd].
    + apply Ev.
    + exact Hm0.
  - split; [|split; [exact Os|split; [exact Op|split; [exact Od|]]]].
    + apply has_cols_cons. split; [exact Om|]. cbn [t_metrics]. rewrite sub_other; auto; [in_tac|in_tac|apply static_m].
    + cbn [t_version]. destruct Ov as (O1 & O2 & O3). split; [exact O1|]. split; [|exact O3].
      intros x Hx. destruct (string_dec x "version") as [->|Hx'].
      * rewrite sub_other; [|in_tac|in_tac|apply static_v]. destruct Hv as (_ & Hi & _). apply Hi. in_tac.
      * apply O2. revert Hx. in_tac.
  - apply downgrade_cur; [apply Bm|apply Bs|apply Bp|apply Bd|apply Bv]; apply Permutation_refl.
Qed.

(** * names *)
Lemma has_char_app c a b : has_char c (a ++ b)%string <-> has_char c a \/ has_char c b.
Proof.
  unfold has_char. split.
  - intros (p & q & E). revert b p E. induction a as [|x t IH]; intros b p E; simpl in E; [right; eauto|].
    destruct p as [|y p]; simpl in E; injection E as -> E.
    + left. exists ""%string, t. auto.
    + destruct (IH _ _ E) as [(p' & q' & ->)|H]; [|auto]. left. exists (String y p'), q'. auto.
  - intros [(p & q & ->)|(p & q & ->)].
    + exists p, (q ++ b)%string. rewrite sapp_assoc. auto.
    + exists (a ++ p)%string, q. rewrite sapp_assoc. auto.
Qed.
Lemma has_char_cons c x s : has_char c (String x s) <-> c = x \/ has_char c s.
Proof.
  unfold has_char. split.
  - intros (p & q & E). destruct p as [|y p]; simpl in E; injection E as -> E; eauto.
  - intros [->|(p & q & ->)]; [exists ""%string, s; auto|exists (String x p), q; auto].
Qed.
Lemma has_char_nil c : ~ has_char c "".
Proof. intros (p & q & E). destruct p; discriminate. Qed.
Lemma lstrip_char c s : has_char c (lstrip s) -> has_char c s.
Proof.
  induction s as [|x t IH]; simpl; auto. destruct (Ascii.eqb x blank); auto. intros H. apply has_char_cons. right. auto.
Qed.
Lemma srev_char c s : forall acc, has_char c (srev s acc) <-> has_char c s \/ has_char c acc.
Proof.
  induction s as [|x t IH]; intros acc; simpl.
  - split; [auto|]. intros [H|H]; auto. elim (has_char_nil c H).
  - rewrite IH, !has_char_cons. tauto.
Qed.
Lemma rstrip_char c s : has_char c (rstrip s) -> has_char c s.
Proof.
  unfold rstrip. rewrite srev_char. intros [H|H]; [|elim (has_char_nil c H)]. apply lstrip_char, srev_char in H as [H|H]; auto.
  elim (has_char_nil c H).
Qed.
Lemma srev_app s : forall acc, srev s acc = (srev s "" ++ acc)%string.
Proof.
  induction s as [|x t IH]; intros acc; simpl; auto. rewrite (IH (String x acc)), (IH (String x "")), sapp_assoc. auto.
Qed.
Lemma srev_snoc s x : srev (s ++ String x "") "" = String x (srev s "").
Proof.
  assert (forall acc, srev (s ++ String x "")%string acc = String x (srev s acc)) as H.
  { induction s as [|y t IH]; intros acc; simpl; auto. }
  apply H.
Qed.
Lemma srev_srev s : srev (srev s "") "" = s.
Proof.
  induction s as [|x t IH]; simpl; auto. rewrite (srev_app t (String x "")), srev_snoc, IH. auto.
Qed.
Definition first_ok (s : string) : Prop := match s with EmptyString => True | String c _ => c <> " "%char end.
Lemma lstrip_first s : first_ok (lstrip s).
Proof. induction s as [|x t IH]; simpl; auto. destruct (Ascii.eqb_spec x blank); auto. Qed.
Lemma rstrip_last s p : rstrip s <> (p ++ " ")%string.
Proof.
  unfold rstrip. intros E. apply (f_equal (fun x => srev x "")) in E. rewrite srev_srev, srev_snoc in E.
  pose proof (lstrip_first (srev s "")) as H. rewrite E in H. simpl in H. congruence.
Qed.
Lemma lstrip_suffix s : exists p, s = (p ++ lstrip s)%string.
Proof. induction s as [|x t [p IH]]; simpl; [exists ""%string; auto|]. destruct (Ascii.eqb x blank); [exists (String x p); simpl; congruence|exists ""%string; auto]. Qed.

Lemma summary_name_ok m l sl st r : build_summary_name m l sl st = Ok r ->
  (forall p, r <> (" " ++ p)%string) /\ (forall p, r <> (p ++ " ")%string) /\
  (forall c, c <> " "%char -> has_char c r ->
     (exists x, m = Some x /\ has_char c x) \/ (exists x, l = Some x /\ has_char c x) \/
     (exists x, sl = Some x /\ has_char c x) \/ (exists x, st = Some x /\ has_char c x)).
Proof.
  unfold build_summary_name. destruct m as [m|]; [|discriminate]. intros H.
  assert (r = lstrip (rstrip
     ((match st with None => "" | Some n => if (String.eqb n "Identity" || String.eqb n "Id" || String.eqb n "Count")%bool then "" else n end)
      ++ " " ++ m ++ " " ++ (match l with None => "" | Some x => x end) ++ " " ++
      (if String.eqb (match sl with None => "" | Some x => x end) "UniSlicer" then "" else match sl with None => "" | Some x => x end))%string)) as ->
   by congruence. clear H.
  match goal with |- context [rstrip ?x] => set (b := x) end. split; [|split].
  - intros p E. pose proof (lstrip_first (rstrip b)) as F. rewrite E in F. simpl in F. congruence.
  - intros p E. destruct (lstrip_suffix (rstrip b)) as [q Q]. rewrite E, <- sapp_assoc in Q. apply (rstrip_last b _ Q).
  - intros c Hc Hr. apply lstrip_char, rstrip_char in Hr. unfold b in Hr. rewrite !has_char_app in Hr.
    assert (~ has_char c " ") as Hb by (rewrite has_char_cons; intros [->|H]; [congruence|apply (has_char_nil c H)]).
    destruct Hr as [Hr|[Hr|[Hr|[Hr|[Hr|[Hr|Hr]]]]]]; try tauto.
    + destruct st as [n|]; [|elim (has_char_nil c Hr)]. right; right; right. exists n. split; auto.
      destruct (_ || _)%bool; auto. elim (has_char_nil c Hr).
    + left. eauto.
    + destruct l as [n|]; [|elim (has_char_nil c Hr)]. right; left. eauto.
    + destruct sl as [n|]; [|elim (has_char_nil c Hr)]. right; right; left. exists n. split; auto.
      destruct (String.eqb n "UniSlicer"); auto. elim (has_char_nil c Hr).
Qed.

(** deciding [has_cols], for the examples *)
Fixpoint nodupb (l : list string) : bool := match l with [] => true | x :: t => negb (smem x t) && nodupb t end.
Lemma nodupb_ok l : nodupb l = true -> NoDup l.
Proof.
  induction l as [|x t IH]; simpl; [constructor|]. rewrite andb_true_iff, negb_true_iff, smem_notin.
  intros [H1 H2]. constructor; auto.
Qed.
Lemma has_cols_b req forb cols :
  nodupb cols && forallb (fun c => smem c cols) req && forallb (fun c => negb (smem c cols)) forb = true -> has_cols req forb cols.
Proof.
  rewrite !andb_true_iff, !forallb_forall. intros [[H1 H2] H3]. split; [apply nodupb_ok; auto|]. split.
  - intros x Hx. apply smem_in; auto.
  - intros x Hx. apply smem_notin, negb_true_iff; auto.
Qed.
