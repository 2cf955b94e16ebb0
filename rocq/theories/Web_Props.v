(** Theorems about the metrics shown on the pages of a run: C353. *)
From Coq Require Import String Ascii ZArith List Bool Lia Permutation Sorted.
From Verif Require Import Base Web_Spec Web_Model Web_Proofs.
Import ListNotations.
Open Scope Z_scope.

Definition mk (i : Z) (g s b : string) (o : Z) : metric :=
  {| m_id := i; m_name := b; m_base := b; m_slicer := "Healpix"; m_label := "r"; m_file := "a.npz"; m_group := g; m_sub := s; m_order := o; m_caption := "NULL" |}.

(** The metrics of a run are shown by group, subgroup, name, slicer, display order and label, each of them once, whatever the order in the database. *)
Theorem C353_by_name : forall l, NoDup (map m_id l) ->
  Permutation (sort_metrics by_name l) l /\
  InOrder (fun x y => Lex [ByText m_group x y; ByText m_sub x y; ByText m_base x y; ByText m_slicer x y; ByNumber m_order x y; ByText m_label x y; ByNumber m_id x y])
          (sort_metrics by_name l).
Proof.
  intros l N. split; [apply sort_perm|]. intros i j x y L Ei Ej. apply (before_lex by_name).
  exact (sorted_order _ _ (sort_sorted by_name l N) i j x y L Ei Ej).
Qed.
Print Assumptions C353_by_name.
(** With their statistics they are shown by group, subgroup, slicer, display order, label and name. *)
Theorem C353_by_order : forall l, NoDup (map m_id l) ->
  Permutation (sort_metrics by_order l) l /\
  InOrder (fun x y => Lex [ByText m_group x y; ByText m_sub x y; ByText m_slicer x y; ByNumber m_order x y; ByText m_label x y; ByText m_base x y; ByNumber m_id x y])
          (sort_metrics by_order l).
Proof.
  intros l N. split; [apply sort_perm|]. intros i j x y L Ei Ej. apply (before_lex by_order).
  exact (sorted_order _ _ (sort_sorted by_order l N) i j x y L Ei Ej).
Qed.
Print Assumptions C353_by_order.
Theorem C353_database_order : forall cs l l', NoDup (map m_id l) -> Permutation l l' -> sort_metrics cs l = sort_metrics cs l'.
Proof. exact sort_same. Qed.
Print Assumptions C353_database_order.
Example C353_case : let l := [mk 1 "B" "x" "Mean" 2; mk 2 "A" "y" "Mean" 1; mk 3 "A" "x" "Count" 0] in
  NoDup (map m_id l) /\ map m_id (sort_metrics by_name l) = [3; 2; 1].
Proof. cbv zeta. split; [|reflexivity]. cbn. repeat (constructor; [cbn; intuition lia|]). constructor. Qed.

(** The metrics of a group or subgroup are exactly those with its name, each once. *)
Theorem C353_group : forall g ms, Keeps (fun m => m_group m = g) ms (in_group g false ms) /\
  Permutation (in_group g true ms) (in_group g false ms).
Proof.
  intros. split; [apply keeps_filter; intros; apply String.eqb_eq|]. unfold in_group. apply sort_perm.
Qed.
Print Assumptions C353_group.
Theorem C353_subgroup : forall g s ms, exists o, Keeps (fun m => m_group m = g /\ m_sub m = s) ms o /\ Permutation (in_subgroup g s ms) o.
Proof.
  intros. exists (filter (fun m => String.eqb (m_group m) g && String.eqb (m_sub m) s) ms). split.
  - apply keeps_filter. intros x _. rewrite andb_true_iff, !String.eqb_eq. tauto.
  - unfold in_subgroup, in_group. rewrite sort_perm. apply Permutation_refl'. induction ms as [|m t IH]; cbn; auto.
    destruct (String.eqb (m_group m) g); cbn; [|exact IH]. destruct (String.eqb (m_sub m) s); cbn; rewrite IH; auto.
Qed.
Print Assumptions C353_subgroup.
(** The groups and subgroups offered are exactly those of the metrics, each once and in order; so that each metric is reached by exactly one of them. *)
Theorem C353_groups : forall ms,
  InOrder (fun x y => TextLt (fst x) (fst y)) (groups_of ms) /\
  forall g, ((exists subs, In (g, subs) (groups_of ms)) <-> exists m, In m ms /\ m_group m = g) /\
            forall subs, In (g, subs) (groups_of ms) -> InOrder TextLt subs /\ forall s, In s subs <-> exists m, In m ms /\ m_group m = g /\ m_sub m = s.
Proof.
  intros ms. split.
  - intros i j [a x] [b y] L Ei Ej. unfold groups_of in *. rewrite nth_error_map in Ei, Ej. cbn.
    destruct (nth_error (unique (map m_group ms)) i) eqn:E; [|discriminate]. destruct (nth_error (unique (map m_group ms)) j) eqn:E'; [|discriminate].
    injection Ei as -> _. injection Ej as -> _. exact (sorted_order _ _ (unique_sorted _) i j a b L E E').
  - intro g. unfold groups_of. split.
    + split.
      * intros (subs & H). apply in_map_iff in H as (g' & E & H). injection E as -> _. apply unique_in, in_map_iff in H as (m & E & H). eauto.
      * intros (m & H & E). eexists. apply in_map_iff. exists g. split; [reflexivity|]. apply unique_in, in_map_iff. eauto.
    + intros subs H. apply in_map_iff in H as (g' & E & H). injection E as -> <-. split; [apply sorted_order, unique_sorted|].
      intro s. rewrite unique_in, in_map_iff. unfold in_group. split.
      * intros (m & E & I). apply filter_In in I as (I & E'). apply String.eqb_eq in E'. eauto.
      * intros (m & I & E' & E). exists m. split; auto. apply filter_In. split; auto. apply String.eqb_eq, E'.
Qed.
Print Assumptions C353_groups.
Example C353_groups_case : groups_of [mk 1 "B" "x" "Mean" 2; mk 2 "A" "y" "Mean" 1; mk 3 "A" "x" "Count" 0; mk 4 "A" "y" "Rms" 0] = [("A", ["x"; "y"]); ("B", ["x"])]%string.
Proof. reflexivity. Qed.

(** Selections by slicer, label or name, and by statistics. *)
Theorem C353_texts : forall f x ms, Keeps (fun m => f m = x) ms (with_text f x ms).
Proof. intros. apply keeps_filter. intros. apply String.eqb_eq. Qed.
Print Assumptions C353_texts.
Lemma with_ids_keeps ids ms : Keeps (fun m => In (m_id m) ids) ms (with_ids ids ms).
Proof. apply keeps_filter. intros. apply has_id_in. Qed.
Lemma keeps_iff {A} (P Q : A -> Prop) l o : (forall x, P x <-> Q x) -> Keeps P l o -> Keeps Q l o.
Proof. intros E. induction 1; constructor; try (rewrite <- E); auto. Qed.
Theorem C353_statistics : forall names stats ms,
  (exists o, Keeps (fun m => exists s, In s stats /\ s_id s = m_id m /\ In (s_name s) names) ms o /\ Permutation (with_stat names stats ms) o) /\
  (exists o, Keeps (fun m => exists s, In s stats /\ s_id s = m_id m) ms o /\ Permutation (with_stats stats ms) o).
Proof.
  intros. split; eexists; (split; [|apply sort_perm]); (eapply keeps_iff; [|apply with_ids_keeps]); intro m; cbn beta; rewrite in_map_iff; split.
  - intros (s & E & H). apply filter_In in H as (H & N). apply has_in in N. eauto.
  - intros (s & H & E & N). exists s. split; auto. apply filter_In. rewrite has_in. auto.
  - intros (s & E & H). eauto.
  - intros (s & H & E). eauto.
Qed.
Print Assumptions C353_statistics.

(** Selection by the type of plots accepts the old names of a type: "skymapPlot" for "SkyMap" and "SkyMap" for "SkyMapPlot". *)
Definition OldName (t u : string) : Prop :=
  (exists a, t = (a ++ "lot")%string) /\ (exists b e, t = (b ++ e)%string /\ u = b /\ (String.length e = 4%nat \/ String.length t = 3%nat /\ b = EmptyString)) \/
  (forall a, t <> (a ++ "lot")%string) /\ (exists l, Smalls t l /\ u = (l ++ "Plot")%string).
Lemma append_inj_len : forall a b c d : string, (a ++ b)%string = (c ++ d)%string -> String.length a = String.length c -> a = c /\ b = d.
Proof. induction a as [|x a IH]; intros b [|y c] d H L; cbn in *; try discriminate; auto. injection H as -> H. destruct (IH b c d H) as [-> ->]; auto. Qed.
Lemma substring_all s : substring 0 (String.length s) s = s.
Proof. induction s; cbn; congruence. Qed.
Lemma substring_skip : forall a b, substring (String.length a) (String.length b) (a ++ b) = b.
Proof. induction a as [|c a IH]; intro b; cbn; [apply substring_all|apply IH]. Qed.
Lemma substring_first : forall a b, substring 0 (String.length a) (a ++ b) = a.
Proof. induction a as [|c a IH]; intro b; cbn; [destruct b; reflexivity|rewrite IH; auto]. Qed.
Lemma length_append (a b : string) : String.length (a ++ b) = (String.length a + String.length b)%nat.
Proof. induction a; cbn; auto. Qed.
Lemma cut : forall s n, (n <= String.length s)%nat -> exists a b, s = (a ++ b)%string /\ String.length a = n.
Proof.
  induction s as [|c s IH]; intros [|n] H; cbn in *; try lia; [exists EmptyString, EmptyString; auto|exists EmptyString, (String c s); auto|].
  destruct (IH n) as (a & b & -> & L); [lia|]. exists (String c a), b. cbn. auto.
Qed.
Lemma ends_true suf s : ends_with suf s = true <-> exists a, s = (a ++ suf)%string.
Proof.
  unfold ends_with. rewrite andb_true_iff, Nat.leb_le, String.eqb_eq. split.
  - intros (L & E). destruct (cut s (String.length s - String.length suf)) as (a & b & -> & La); [lia|]. rewrite length_append in *.
    exists a. f_equal. rewrite <- E. replace (String.length a + String.length b - String.length suf)%nat with (String.length a) by lia.
    replace (String.length suf) with (String.length b) by lia. symmetry. apply substring_skip.
  - intros (a & ->). rewrite length_append. split; [lia|]. replace (String.length a + String.length suf - String.length suf)%nat with (String.length a) by lia. apply substring_skip.
Qed.
Lemma lower_smalls : forall s, Smalls s (lower s).
Proof.
  unfold Smalls. induction s as [|c s IH]; cbn; constructor; auto. unfold Small, lower1, Code.
  destruct ((65 <=? nat_of_ascii c)%nat && (nat_of_ascii c <=? 90)%nat)%bool eqn:E.
  - apply andb_true_iff in E as (A & B). apply Nat.leb_le in A, B. left. split; [lia|]. apply nat_ascii_embedding. lia.
  - right. split; auto. intros (A & B). apply Nat.leb_le in A, B. rewrite A, B in E. discriminate.
Qed.
Lemma code_inj c d : Code c = Code d -> c = d.
Proof. intro H. rewrite <- (ascii_nat_embedding c), <- (ascii_nat_embedding d). unfold Code in H. congruence. Qed.
Lemma smalls_eq : forall s t u, Smalls s t -> Smalls s u -> t = u.
Proof.
  unfold Smalls. induction s as [|c s IH]; intros [|d t] [|e u] H H'; inversion H; inversion H'; subst; auto.
  f_equal; [|apply IH; auto]. unfold Small in *. destruct H3 as [(A & B)|(A & B)], H9 as [(C & D)|(C & D)]; try tauto; try congruence. apply code_inj. congruence.
Qed.
Theorem C353_plot_type : forall types plots ms,
  Keeps (fun m => exists p t, In p plots /\ p_id p = m_id m /\ In t types /\ (p_type p = t \/ OldName t (p_type p))) ms (with_plot_type types plots ms).
Proof.
  intros. eapply keeps_iff; [|apply with_ids_keeps]. intro m. cbn beta. rewrite in_map_iff.
  assert (K : forall t u, In u (type_names t) <-> u = t \/ OldName t u).
  { intros t u. unfold type_names, OldName. cbn [In].
    destruct (ends_with "lot" t) eqn:E.
    - apply ends_true in E. destruct E as (a & Ea). split.
      + intros [<-|[<-|[]]]; auto. right. left. split; [eauto|].
        assert (L : String.length t = (String.length a + 3)%nat) by (rewrite Ea, length_append; reflexivity).
        destruct (cut t (String.length t - 4)) as (b & e & Eb & Lb); [lia|]. exists b, e. split; auto. split.
        * rewrite <- Lb. rewrite Eb. apply substring_first.
        * assert (String.length t = (String.length b + String.length e)%nat) by (rewrite Eb at 1; apply length_append).
          destruct (Nat.eq_dec (String.length t) 3) as [T|T]; [right; split; auto; destruct b; auto; cbn in Lb; lia|left; lia].
      + intros [->|[(_ & b & e & Eb & -> & H)|(N & _)]]; auto; [|exfalso; eapply N; eauto]. right. left.
        assert (L : String.length t = (String.length b + String.length e)%nat) by (rewrite Eb at 1; apply length_append).
        destruct H as [H|(H & ->)].
        * replace (String.length t - 4)%nat with (String.length b) by lia. rewrite Eb. apply substring_first.
        * replace (String.length t - 4)%nat with 0%nat by lia. destruct t; reflexivity.
    - assert (N : forall a, t <> (a ++ "lot")%string). { intros a Ea. rewrite (proj2 (ends_true "lot" t)) in E; [discriminate|eauto]. }
      split.
      + intros [<-|[<-|[]]]; auto. right. right. split; auto. exists (lower t). split; auto. apply lower_smalls.
      + intros [->|[((a & Ea) & _)|(_ & l & Sl & ->)]]; auto; [exfalso; eapply N; eauto|]. right. left. f_equal. apply (smalls_eq t); auto. apply lower_smalls. }
  split.
  - intros (p & E & H). apply filter_In in H as (H & T). apply has_in, in_flat_map in T as (t & Ht & T). apply K in T. exists p, t. auto.
  - intros (p & t & H & E & Ht & T). exists p. split; auto. apply filter_In. split; auto. apply has_in, in_flat_map. exists t. split; auto. apply K, T.
Qed.
Print Assumptions C353_plot_type.
Example C353_plot_type_case : type_names "SkyMap" = ["SkyMap"; "skymapPlot"]%string /\ type_names "SkyMapPlot" = ["SkyMapPlot"; "SkyMap"]%string.
Proof. split; reflexivity. Qed.

(** The lists of names are without repetitions and in order; those of name and label keep the order of the metrics, *)
Theorem C353_unique : forall f ms, InOrder TextLt (unique_texts f ms) /\ forall x, In x (unique_texts f ms) <-> exists m, In m ms /\ f m = x.
Proof.
  intros. split; [apply sorted_order, unique_sorted|]. intro x. unfold unique_texts. rewrite unique_in, in_map_iff. split; intros (m & A & B); eauto.
Qed.
Print Assumptions C353_unique.
Lemma first_times_spec : forall l seen, NoDup (first_times seen l) /\ forall x, In x (first_times seen l) <-> In x l /\ ~ In x seen.
Proof.
  induction l as [|y l IH]; intro seen; cbn; [split; [constructor|intuition]|]. destruct (has seen y) eqn:E.
  - apply has_in in E. destruct (IH seen) as (N & I). split; auto. intro x. rewrite I. intuition (subst; tauto).
  - apply has_not in E. destruct (IH (seen ++ [y])) as (N & I). split.
    + constructor; auto. rewrite I, in_app_iff. cbn. tauto.
    + intro x. cbn. rewrite I, in_app_iff. cbn. destruct (string_dec y x); intuition (subst; tauto).
Qed.
(** the order of two texts of the list is that of their first appearances *)
Definition Appears (l : list string) (x : string) (k : nat) : Prop := nth_error l k = Some x /\ forall j, (j < k)%nat -> nth_error l j <> Some x.
Lemma first_times_order : forall l seen i j x y, (i < j)%nat -> nth_error (first_times seen l) i = Some x -> nth_error (first_times seen l) j = Some y ->
  exists p q, (p < q)%nat /\ Appears l x p /\ Appears l y q.
Proof.
  induction l as [|z l IH]; intros seen i j x y L Ei Ej; [destruct i; discriminate|]. cbn in Ei, Ej. destruct (has seen z) eqn:E.
  - destruct (IH _ _ _ _ _ L Ei Ej) as (p & q & Lt & (A & A') & (B & B')).
    assert (NX : forall w k, nth_error (first_times seen l) k = Some w -> z <> w).
    { intros w k H ->. apply nth_error_In in H. apply first_times_spec in H. apply has_in in E. tauto. }
    exists (S p), (S q). split; [lia|]. split; (split; [assumption|]); intros [|k] Hk; cbn; try (intro Q; injection Q as Q; eapply NX; [|exact Q]; eauto); [apply A'|apply B']; lia.
  - destruct j as [|j]; [lia|]. cbn in Ej.
    assert (NY : forall w k, nth_error (first_times (seen ++ [z]) l) k = Some w -> z <> w).
    { intros w k H ->. apply nth_error_In in H. apply first_times_spec in H. rewrite in_app_iff in H. cbn in H. tauto. }
    destruct i as [|i]; cbn in Ei.
    + injection Ei as <-. assert (exists q, Appears l y q).
      { pose proof (nth_error_In _ _ Ej) as H. apply first_times_spec in H as (H & _). clear - H. induction l as [|w l IH]; [destruct H|].
        destruct (string_dec w y) as [->|D]; [exists 0%nat; split; [reflexivity|intros; lia]|]. destruct H as [->|H]; [tauto|]. destruct (IH H) as (q & A & B).
        exists (S q). split; auto. intros [|k] Hk; cbn; [congruence|apply B; lia]. }
      destruct H as (q & A & B). exists 0%nat, (S q). split; [lia|]. split; [split; [reflexivity|intros; lia]|]. split; auto.
      intros [|k] Hk; cbn; [intro Q; injection Q as Q; eapply NY; eauto|apply B; lia].
    + assert (L' : (i < j)%nat) by lia. destruct (IH _ _ _ _ _ L' Ei Ej) as (p & q & Lt & (A & A') & (B & B')). exists (S p), (S q). split; [lia|].
      split; (split; [assumption|]); intros [|k] Hk; cbn; try (intro Q; injection Q as Q; eapply NY; [|exact Q]; eauto); [apply A'|apply B']; lia.
Qed.
Theorem C353_names_and_labels : forall ms, let texts := map (fun m => m_name m ++ " " ++ m_label m)%string ms in
  NoDup (names_and_labels ms) /\ (forall x, In x (names_and_labels ms) <-> In x texts) /\
  InOrder (fun x y => exists p q, (p < q)%nat /\ Appears texts x p /\ Appears texts y q) (names_and_labels ms).
Proof.
  intros ms texts. unfold names_and_labels. fold texts. destruct (first_times_spec texts []) as (N & I). split; auto. split.
  - intro x. rewrite I. cbn. tauto.
  - intros i j x y L Ei Ej. apply (first_times_order texts [] i j); auto.
Qed.
Print Assumptions C353_names_and_labels.
(** but the metric names do not, although the documentation says they do. *)
Theorem C353_names_order_refuted : ~ (forall ms, InOrder (fun x y => exists p q, (p < q)%nat /\ Appears (map m_base ms) x p /\ Appears (map m_base ms) y q) (unique_texts m_base ms)).
Proof.
  intro H. specialize (H [mk 1 "A" "x" "Rms" 0; mk 2 "A" "x" "Mean" 1] 0%nat 1%nat "Mean"%string "Rms"%string).
  destruct H as (p & q & L & (A & _) & (B & _)); try reflexivity; try lia.
  destruct q as [|[|q]]; cbn in B; [lia|discriminate|destruct q; discriminate].
Qed.
Print Assumptions C353_names_order_refuted.
