(** Theorems about the choice of metrics and their files, the statistics and the plots of a run: C354-C357. *)
From Coq Require Import String Ascii ZArith List Bool Lia Permutation Sorted.
From Verif Require Import Base Web_Spec Web_Model Web_Proofs Web_Props Pop_Props5.
From Verif Require Maps_Model Maps_Props3.
Import ListNotations.
Open Scope Z_scope.

(** * C354 *)
Lemma lacks_free c s : Lacks c s <-> Free c s.
Proof.
  split.
  - induction s as [|d s IH]; cbn; auto. intro L. split.
    + intro E. apply (L EmptyString s). cbn. congruence.
    + apply IH. intros a b E. apply (L (String d a) b). cbn. congruence.
  - intros F a b ->. induction a as [|d a IH]; cbn in F; tauto.
Qed.
Lemma sent_plus : forall s t, Sent s t -> plus_to_blank t = s.
Proof.
  unfold Sent. induction s as [|c s IH]; intros [|d t] H; inversion H as [|? ? ? ? S1 S2]; subst; auto. cbn. f_equal; [|apply IH; auto].
  destruct S1 as [(-> & [->| ->])|(A & B & ->)]; auto. destruct (Ascii.eqb_spec c "+"); congruence.
Qed.
Lemma sent_free : forall s t, Sent s t -> Free "_" s -> Free "_" t.
Proof.
  unfold Sent. induction s as [|c s IH]; intros [|d t] H F; inversion H as [|? ? ? ? S1 S2]; subst; cbn; auto. destruct F as (F1 & F2). split; [|apply IH; auto].
  destruct S1 as [(-> & [->| ->])|(A & B & ->)]; auto; discriminate.
Qed.
(** the value of a box of the form *)
Definition Box (gs : string * string) (text : string) : Prop := exists s', Sent (snd gs) s' /\ text = (fst gs ++ "__" ++ s')%string.
Lemma box_chosen gs text : Box gs text -> Lacks "_" (fst gs) -> Lacks "_" (snd gs) -> chosen_subgroup text = gs.
Proof.
  intros (s' & S1 & ->) Lg Ls. destruct gs as [g s]. cbn [fst snd] in *. unfold chosen_subgroup. apply lacks_free in Lg, Ls.
  change ("__" ++ s')%string with (String "_" (String "_" s')). f_equal.
  - rewrite split_free by exact Lg. reflexivity.
  - replace (g ++ String "_" (String "_" s'))%string with ((g ++ "_") ++ String "_" s')%string by (rewrite append_assoc'; reflexivity).
    rewrite last_split; [apply sent_plus, S1|apply (sent_free s); auto].
Qed.
(** Ticking boxes of subgroups and of metrics shows exactly the metrics of these subgroups and these metrics, *)
Theorem C354_select_partial : forall chosen texts ids ms, NoDup (map m_id ms) -> Forall2 Box chosen texts ->
  (forall g s, In (g, s) chosen -> Lacks "_" g /\ Lacks "_" s) ->
  exists o, Keeps (fun m => In (m_id m) ids \/ In (m_group m, m_sub m) chosen) ms o /\ Permutation (convert_select texts ids ms) o.
Proof.
  intros chosen texts ids ms N B L. unfold convert_select.
  set (f := fun t => map m_id (in_subgroup (fst (chosen_subgroup t)) (snd (chosen_subgroup t)) ms)).
  exists (with_ids (flat_map f texts ++ ids) ms). split; [|apply sort_perm].
  unfold with_ids. apply keeps_filter. intros m Im. rewrite has_id_in, in_app_iff.
  assert (K : In (m_id m) (flat_map f texts) <-> In (m_group m, m_sub m) chosen); [|rewrite K; tauto].
  assert (U : forall m', In m' ms -> m_id m' = m_id m -> m' = m).
  { clear - N Im. intros m' I' E. induction ms as [|a t IH]; [destruct Im|]. cbn in N. apply NoDup_cons_iff in N as (N & D).
    destruct Im as [->|Im], I' as [->|I']; auto; exfalso; apply N; [rewrite <- E|rewrite E]; apply in_map; auto. }
  assert (G : forall gs t, In (fst gs, snd gs) chosen -> Box gs t -> In (m_id m) (f t) <-> (m_group m, m_sub m) = gs).
  { intros [g s] t Ig Bt. cbn in Ig. unfold f. rewrite (box_chosen (g, s) t Bt) by apply (L g s Ig). cbn [fst snd].
    destruct (C353_subgroup g s ms) as (o & Ko & Po). rewrite (Permutation_map m_id Po) by idtac. split.
    - intro H. apply in_map_iff in H as (m' & E & H). apply (keeps_in _ _ _ Ko) in H as (H & E1 & E2). rewrite (U m' H E) in *. congruence.
    - intro E. injection E as E1 E2. apply in_map. apply (keeps_in _ _ _ Ko). auto. }
  assert (W : forall cs ts, Forall2 Box cs ts -> (forall gs, In gs cs -> In gs chosen) -> (In (m_id m) (flat_map f ts) <-> In (m_group m, m_sub m) cs)).
  { clear - G. clearbody f. induction 1 as [|gs t cs ts Bx B IH]; intro Sub; cbn; [tauto|].
    rewrite in_app_iff, (G gs t) by (auto; destruct gs; apply Sub; left; auto). rewrite IH by (intros; apply Sub; right; auto). split; intros [H|H]; auto. }
  apply W; auto.
Qed.
Print Assumptions C354_select_partial.
Example C354_select_case : let ms := [mk 1 "A" "x y" "Mean" 1; mk 2 "A" "z" "Mean" 2; mk 3 "B" "z" "Mean" 3] in
  NoDup (map m_id ms) /\ Forall2 Box [("A", "x y")]%string ["A__x+y"]%string /\ map m_id (convert_select ["A__x+y"]%string [3] ms) = [1; 3].
Proof.
  cbv zeta. split; [cbn; repeat (constructor; [cbn; intuition lia|]); constructor|]. split; [|reflexivity].
  constructor; [|constructor]. exists "x+y"%string. split; [|reflexivity]. unfold Sent, Sent1. cbn.
  constructor; [right; repeat split; discriminate|]. constructor; [left; auto|]. constructor; [right; repeat split; discriminate|constructor].
Qed.
(** but a name with an underscore or a plus breaks it: the box of the group "A_B" shows the metrics of the group "A". *)
Theorem C354_select_refuted : ~ (forall chosen texts ids ms, NoDup (map m_id ms) -> Forall2 Box chosen texts ->
  exists o, Keeps (fun m => In (m_id m) ids \/ In (m_group m, m_sub m) chosen) ms o /\ Permutation (convert_select texts ids ms) o).
Proof.
  intro H. destruct (H [("A_B", "x")]%string ["A_B__x"]%string [] [mk 1 "A_B" "x" "Mean" 1; mk 2 "A" "x" "Mean" 2]) as (o & K & P).
  - cbn. repeat (constructor; [cbn; intuition lia|]). constructor.
  - constructor; [|constructor]. exists "x"%string. split; [|reflexivity]. unfold Sent, Sent1. cbn. constructor; [|constructor]. right. repeat split; discriminate.
  - assert (E : map m_id (convert_select ["A_B__x"]%string [] [mk 1 "A_B" "x" "Mean" 1; mk 2 "A" "x" "Mean" 2]) = [2]) by reflexivity.
    assert (I : In 1 (map m_id o)) by (apply (in_map m_id o (mk 1 "A_B" "x" "Mean" 1)), (keeps_in _ _ _ K); cbn; auto).
    apply (Permutation_in _ (Permutation_map m_id (Permutation_sym P))) in I. rewrite E in I. cbn in I. intuition lia.
Qed.
Print Assumptions C354_select_refuted.

Lemma upper_null s : String.eqb (upper s) "NULL" = true <-> IsNull s.
Proof.
  rewrite String.eqb_eq. unfold IsNull. split.
  - assert (U : forall c k, upper1 c = ascii_of_nat k -> (65 <= k <= 90)%nat -> c = ascii_of_nat k \/ c = ascii_of_nat (k + 32)).
    { intros c k E Hk. unfold upper1 in E. destruct ((97 <=? nat_of_ascii c)%nat && (nat_of_ascii c <=? 122)%nat)%bool eqn:B; [|auto].
      apply andb_true_iff in B as (B1 & B2). apply Nat.leb_le in B1, B2. right.
      assert (nat_of_ascii c - 32 = k)%nat. { rewrite <- (nat_ascii_embedding (nat_of_ascii c - 32)) by lia. rewrite E. apply nat_ascii_embedding. lia. }
      replace (k + 32)%nat with (nat_of_ascii c) by lia. symmetry. apply ascii_nat_embedding. }
    intro E. destruct s as [|a [|b [|c [|d [|e s]]]]]; cbn [upper] in E; try discriminate.
    injection E as Ea Eb Ec Ed. exists a, b, c, d. split; [reflexivity|].
    split; [apply (U a 78%nat); [exact Ea|lia]|]. split; [apply (U b 85%nat); [exact Eb|lia]|]. split; [apply (U c 76%nat); [exact Ec|lia]|apply (U d 76%nat); [exact Ed|lia]].
  - intros (a & b & c & d & E & A & B & C & D). destruct s as [|a' [|b' [|c' [|d' [|e s]]]]]; try discriminate. injection E as -> -> -> ->.
    destruct A as [->| ->], B as [->| ->], C as [->| ->], D as [->| ->]; reflexivity.
Qed.
Lemma join_file dir file : FileIn dir file (join dir file).
Proof.
  unfold FileIn, join. destruct file as [|c r]; [right; split; [discriminate|reflexivity]|].
  destruct (Ascii.eqb_spec c "/") as [->|D]; [left; exists r; auto|].
  right. split; [intros q E; injection E as -> _; tauto|].
  destruct c as [[] [] [] [] [] [] [] []]; try reflexivity. exfalso. apply D. reflexivity.
Qed.
(** The data file of one metric is offered unless its name is NULL; of several metrics none is. *)
Theorem C354_data_file : forall dir ms,
  (forall m, ms = [m] -> (IsNull (m_file m) /\ get_npz dir ms = Ok None) \/ (~ IsNull (m_file m) /\ exists path, FileIn dir (m_file m) path /\ get_npz dir ms = Ok (Some path))) /\
  ((2 <= length ms)%nat -> get_npz dir ms = Ok None) /\ (ms = [] -> get_npz dir ms = Err IndexError).
Proof.
  intros. split; [|split].
  - intros m ->. cbn. destruct (String.eqb (upper (m_file m)) "NULL") eqn:E; [left; split; auto; apply upper_null, E|right].
    split; [rewrite <- upper_null; congruence|]. eexists. split; [apply join_file|reflexivity].
  - destruct ms as [|a [|b t]]; cbn; auto; lia.
  - intros ->. reflexivity.
Qed.
Print Assumptions C354_data_file.
(** The data of a metric can never be fetched as JSON, *)
Theorem C354_json_refuted : forall dir read ms text, get_json dir read ms <> Ok (Some text).
Proof.
  intros dir read [|m [|m' t]] text; cbn; try discriminate. destruct (String.eqb (upper (m_file m)) "NULL"); [discriminate|].
  destruct (read (join dir (m_file m))); cbn; discriminate.
Qed.
Print Assumptions C354_json_refuted.
(** even of a file that is read: the call fails because of the name of an argument. *)
Theorem C354_json_fails : forall dir read m json, ~ IsNull (m_file m) -> (forall path, read path = Ok json) -> get_json dir read [m] = Err TypeError.
Proof.
  intros dir read m json N R. cbn. destruct (String.eqb (upper (m_file m)) "NULL") eqn:E; [apply upper_null in E; tauto|]. rewrite R. reflexivity.
Qed.
Print Assumptions C354_json_fails.
(** The table rows of a blank and of a metric have different titles. *)
Theorem C354_titles_refuted : forall dir m data slicer, map fst (metric_info dir None data slicer) <> map fst (metric_info dir (Some m) data slicer).
Proof. intros dir m [] []; cbn; intro H; discriminate. Qed.
Print Assumptions C354_titles_refuted.
Theorem C354_titles : forall dir m m' data slicer, map fst (metric_info dir (Some m) data slicer) = map fst (metric_info dir (Some m') data slicer) /\
  length (metric_info dir None data slicer) = length (metric_info dir (Some m) data slicer).
Proof. intros dir m m' [] []; split; reflexivity. Qed.
Print Assumptions C354_titles.
(** A caption is shown as it is stored, but not the word NULL. *)
Theorem C354_caption : forall m, (m_caption m = "NULL"%string -> caption m = EmptyString) /\ (m_caption m <> "NULL"%string -> caption m = m_caption m).
Proof. intro m. unfold caption. destruct (String.eqb_spec (m_caption m) "NULL"); split; congruence. Qed.
Print Assumptions C354_caption.

(** * C355 *)
Lemma filter_at {A} (f : A -> bool) : forall (l : list A) i j x y, (i < j)%nat -> nth_error (filter f l) i = Some x -> nth_error (filter f l) j = Some y ->
  exists p q, (p < q)%nat /\ nth_error l p = Some x /\ nth_error l q = Some y.
Proof.
  induction l as [|a l IH]; intros i j x y L Ei Ej; [destruct i; discriminate|]. cbn in Ei, Ej. destruct (f a).
  - destruct j as [|j]; [lia|]. destruct i as [|i]; cbn in *.
    + injection Ei as ->. apply nth_error_In, filter_In in Ej as (H & _). apply In_nth_error in H as (q & H). exists 0%nat, (S q). split; [lia|auto].
    + destruct (IH i j x y) as (p & q & P & Q & R); auto; [lia|]. exists (S p), (S q). split; [lia|auto].
  - destruct (IH i j x y) as (p & q & P & Q & R); auto. exists (S p), (S q). split; [lia|auto].
Qed.
Lemma nth_app {A} (l r : list A) i x : nth_error (l ++ r) i = Some x ->
  ((i < length l)%nat /\ nth_error l i = Some x) \/ ((length l <= i)%nat /\ nth_error r (i - length l) = Some x).
Proof.
  intro H. destruct (Nat.lt_ge_cases i (length l)) as [L|L]; [left; rewrite nth_error_app1 in H by auto; auto|right; rewrite nth_error_app2 in H by auto; auto].
Qed.
Lemma names_ranked order names : NoDup order -> StronglySorted TextLt names ->
  NoDup (order_names order names) /\ (forall x, In x (order_names order names) <-> In x names) /\ InOrder (Ranked order) (order_names order names).
Proof.
  intros N S. unfold order_names.
  assert (A : forall x, In x (filter (has names) order) <-> In x order /\ In x names) by (intro; rewrite filter_In, has_in; tauto).
  assert (B : forall x, In x (filter (fun n => negb (has order n)) names) <-> In x names /\ ~ In x order).
  { intro x. rewrite filter_In, negb_true_iff, has_not. tauto. }
  split; [|split].
  - assert (N2 : NoDup names) by (apply (sorted_nodup TextLt); auto; apply textlt_irrefl).
    apply (NoDup_filter (has names)) in N. apply (NoDup_filter (fun n => negb (has order n))) in N2.
    remember (filter (has names) order) as l. remember (filter (fun n => negb (has order n)) names) as r. clear Heql Heqr.
    assert (D : forall x, In x l -> ~ In x r) by (intros x H H'; apply A in H; apply B in H'; tauto). clear A B.
    induction l as [|a l IH]; cbn; auto. apply NoDup_cons_iff in N as (N & N'). constructor; [|apply IH; auto; intros; apply D; right; auto].
    rewrite in_app_iff. intros [H|H]; [tauto|]. apply (D a); auto. left; auto.
  - intro x. rewrite in_app_iff, A, B. destruct (in_dec string_dec x order); tauto.
  - intros i j x y L Ei Ej. apply nth_app in Ei as [(Li & Ei)|(Li & Ei)]; apply nth_app in Ej as [(Lj & Ej)|(Lj & Ej)].
    + left. apply (filter_at (has names) order i j); auto.
    + right. left. apply nth_error_In in Ei, Ej. apply A in Ei. apply B in Ej. tauto.
    + lia.
    + right. right. pose proof (nth_error_In _ _ Ei) as Ii. pose proof (nth_error_In _ _ Ej) as Ij. apply B in Ii, Ij. split; [tauto|]. split; [tauto|].
      assert (L' : (i - length (filter (has names) order) < j - length (filter (has names) order))%nat) by lia.
      destruct (filter_at _ _ _ _ _ _ L' Ei Ej) as (p & q & P & Q & R). apply (sorted_order _ _ S p q); auto.
Qed.
(** Each name of a statistic is listed once, first the usual ones in their order and then the others by the alphabet, *)
Theorem C355_names : forall order stats, NoDup order ->
  NoDup (order_stat_names order stats) /\ (forall x, In x (order_stat_names order stats) <-> exists s, In s stats /\ s_name s = x) /\
  InOrder (Ranked order) (order_stat_names order stats).
Proof.
  intros order stats N. destruct (names_ranked order (unique (map s_name stats)) N (unique_sorted _)) as (A & B & C). split; auto. split; auto.
  intro x. unfold order_stat_names. rewrite B, unique_in, in_map_iff. split; intros (s & P & Q); eauto.
Qed.
Print Assumptions C355_names.
(** and for several metrics those of any of them. *)
Theorem C355_all_names : forall order stats ms, NoDup order ->
  NoDup (all_stat_names order stats ms) /\ (forall x, In x (all_stat_names order stats ms) <-> exists s m, In s stats /\ In m ms /\ s_id s = m_id m /\ s_name s = x) /\
  InOrder (Ranked order) (all_stat_names order stats ms).
Proof.
  intros order stats ms N. unfold all_stat_names. destruct (C355_names order (filter (fun s => has_id (map m_id ms) (s_id s)) stats) N) as (A & B & C).
  split; auto. split; auto. intro x. rewrite B. split.
  - intros (s & I & E). apply filter_In in I as (I & H). apply has_id_in, in_map_iff in H as (m & Em & Im). exists s, m. auto.
  - intros (s & m & I & Im & Em & E). exists s. split; auto. apply filter_In. split; auto. apply has_id_in, in_map_iff. eauto.
Qed.
Print Assumptions C355_all_names.
Lemma filter_sorted {A} (R : A -> A -> Prop) f (u : list A) : StronglySorted R u -> StronglySorted R (filter f u).
Proof.
  induction 1 as [|x u S IH F]; cbn; [constructor|]. destruct (f x); auto. constructor; auto. rewrite Forall_forall in *. intros y Iy. apply filter_In in Iy as (Iy & _). auto.
Qed.
(** The usual order: thirteen names, then the fractions from none to more than all. *)
Theorem C355_order : forall stats, exists fractions,
  let usual := ["Id"; "Identity"; "Median"; "Mean"; "Rms"; "RobustRms"; "N(-3Sigma)"; "N(+3Sigma)"; "Count"; "25th%ile"; "75th%ile"; "Min"; "Max"]%string in
  let none := "TableFraction 0 == P"%string in let all := "TableFraction 1 == P"%string in let more := "TableFraction 1 < P"%string in
  NoDup (stat_order stats) /\ InOrder TextLt fractions /\
  (forall x, In x fractions <-> (exists s, In s stats /\ s_name s = x) /\ (exists r, x = ("TableFraction" ++ r)%string) /\ x <> none /\ x <> all /\ x <> more) /\
  ((forall s r, In s stats -> s_name s <> ("TableFraction" ++ r)%string) -> stat_order stats = usual) /\
  (forall s r, In s stats -> s_name s = ("TableFraction" ++ r)%string -> stat_order stats = usual ++ [none] ++ fractions ++ [all; more]).
Proof.
  intro stats. set (l := filter (String.prefix "TableFraction") (unique (map s_name stats))). set (fr := filter (fun x => negb (has fraction_ends x)) l).
  assert (P : forall x, String.prefix "TableFraction" x = true <-> exists r, x = ("TableFraction" ++ r)%string).
  { intro x. split; [|intros (r & ->); apply prefix_app]. intro H. apply Maps_Props3.prefix_true in H. exact H. }
  assert (I : forall x, In x l <-> (exists s, In s stats /\ s_name s = x) /\ exists r, x = ("TableFraction" ++ r)%string).
  { intro x. unfold l. rewrite filter_In, P, unique_in, in_map_iff. split; intros ((s & A & B) & C); eauto. }
  assert (J : forall x, In x fr <-> In x l /\ ~ In x fraction_ends) by (intro; unfold fr; rewrite filter_In, negb_true_iff, has_not; tauto).
  exists fr. cbv zeta. assert (So : StronglySorted TextLt fr).
  { unfold fr, l. apply filter_sorted, filter_sorted, unique_sorted. }
  assert (O : stat_order stats = usual_stats \/ stat_order stats = usual_stats ++ ["TableFraction 0 == P"%string] ++ fr ++ ["TableFraction 1 == P"; "TableFraction 1 < P"]%string).
  { unfold stat_order. fold l. unfold fr. destruct l; auto. }
  split; [|split; [apply sorted_order, So|split]].
  - assert (U : NoDup usual_stats) by (unfold usual_stats; repeat (constructor; [cbn; intuition discriminate|]); constructor).
    destruct O as [->| ->]; auto. assert (Nf : NoDup fr) by (apply (sorted_nodup TextLt); auto; apply textlt_irrefl).
    assert (D : forall x, In x (["TableFraction 0 == P"%string] ++ fr ++ ["TableFraction 1 == P"; "TableFraction 1 < P"]%string) -> exists r, x = ("TableFraction" ++ r)%string).
    { intros x H. cbn in H. rewrite in_app_iff in H. destruct H as [<-|[H|[<-|[<-|[]]]]]; [exists " 0 == P"%string|apply J in H as (H & _); apply I in H; tauto|exists " 1 == P"%string|exists " 1 < P"%string]; reflexivity. }
    assert (T : NoDup (["TableFraction 0 == P"%string] ++ fr ++ ["TableFraction 1 == P"; "TableFraction 1 < P"]%string)).
    { cbn. assert (Nj : forall x, In x fraction_ends -> ~ In x fr) by (intros x H H'; apply J in H'; tauto).
      constructor; [rewrite in_app_iff; cbn; intros [H|[H|[H|[]]]]; [revert H; apply Nj; cbn; auto|discriminate|discriminate]|].
      apply (Permutation_NoDup (Permutation_app_comm ["TableFraction 1 == P"; "TableFraction 1 < P"]%string fr)). cbn.
      constructor; [cbn; intros [H|H]; [discriminate|revert H; apply Nj; cbn; auto]|]. constructor; auto. apply Nj. cbn. auto. }
    revert U D T. generalize (["TableFraction 0 == P"%string] ++ fr ++ ["TableFraction 1 == P"; "TableFraction 1 < P"]%string). intros r U D T.
    assert (X : forall x, In x usual_stats -> ~ In x r). { intros x H H'. apply D in H' as (q & ->). cbn in H. repeat (destruct H as [H|H]; [discriminate|]). exact H. }
    clear - U T X. revert U X. generalize usual_stats. induction l as [|a l IH]; intros U X; cbn; auto. apply NoDup_cons_iff in U as (U & U'). constructor; [|apply IH; auto; intros; apply X; right; auto].
    rewrite in_app_iff. intros [H|H]; [tauto|]. apply (X a); auto. left; auto.
  - intro x. rewrite J, I. unfold fraction_ends. cbn. intuition congruence.
  - split.
    + intro H. destruct O as [O|O]; auto. unfold stat_order in *. fold l. fold l in O. destruct l as [|x t] eqn:E; auto. exfalso.
      destruct (proj1 (I x) (or_introl eq_refl)) as ((s & Is & En) & r & Er). apply (H s r Is). congruence.
    + intros s r Is E. assert (Il : In (s_name s) l) by (apply I; split; eauto). unfold stat_order. fold l. unfold fr. destruct l; [destruct Il|reflexivity].
Qed.
Print Assumptions C355_order.
Definition st (i : Z) (n : string) (v : Z) : stat := {| s_id := i; s_name := n; s_value := v |}.
Example C355_case : let l := [st 1 "Zeta" 1; st 1 "TableFraction 1 == P" 2; st 1 "Mean" 3; st 1 "TableFraction 0.1 <= P" 4; st 1 "Alpha" 5; st 1 "Id" 6]%string in
  order_stat_names (stat_order l) l = ["Id"; "Mean"; "TableFraction 0.1 <= P"; "TableFraction 1 == P"; "Alpha"; "Zeta"]%string.
Proof. reflexivity. Qed.
(** Each name has the value that is stored first for it. *)
Theorem C355_values : forall order stats, NoDup order ->
  map fst (stat_dict order stats) = order_stat_names order stats /\
  forall n v, In (n, v) (stat_dict order stats) <-> exists s, FirstAt (fun s => s_name s = n) stats s /\ v = s_value s.
Proof.
  intros order stats N. destruct (C355_names order stats N) as (_ & I & _).
  assert (F : forall n s t, filter (fun s => String.eqb (s_name s) n) stats = s :: t -> FirstAt (fun s => s_name s = n) stats s).
  { intro n. clear. induction stats as [|a l IH]; cbn; [discriminate|]. intros s t. destruct (String.eqb_spec (s_name a) n) as [E|E].
    - intros Q. injection Q as -> _. exists 0%nat. split; [reflexivity|]. split; auto. intros; lia.
    - intro Q. destruct (IH _ _ Q) as (k & A & B & C). exists (S k). split; auto. split; auto. intros [|j] y L Hy; cbn in Hy; [congruence|apply (C j); auto; lia]. }
  assert (G : forall n s, FirstAt (fun s => s_name s = n) stats s -> exists t, filter (fun s => String.eqb (s_name s) n) stats = s :: t).
  { intros n s. clear. induction stats as [|a l IH]; intros (k & A & B & C); [destruct k; discriminate|]. cbn. destruct (String.eqb_spec (s_name a) n) as [E|E].
    - destruct k as [|k]; [injection A as ->; eauto|]. exfalso. apply (C 0%nat a); auto. lia.
    - destruct k as [|k]; [injection A as ->; tauto|]. apply IH. exists k. split; auto. split; auto. intros j y L Hy. apply (C (S j)); auto. lia. }
  split.
  - unfold stat_dict. assert (H : forall n, In n (order_stat_names order stats) -> exists s t, filter (fun s => String.eqb (s_name s) n) stats = s :: t).
    { intros n H. apply I in H as (s & Is & E). destruct (filter (fun s => String.eqb (s_name s) n) stats) eqn:Q; eauto.
      exfalso. assert (In s []) as []. rewrite <- Q. apply filter_In. split; auto. apply String.eqb_eq, E. }
    revert H. generalize (order_stat_names order stats). induction l as [|n l IH]; intro H; cbn; auto.
    destruct (H n (or_introl eq_refl)) as (s & t & ->). cbn. f_equal. apply IH. intros; apply H; right; auto.
  - intros n v. unfold stat_dict. rewrite in_flat_map. split.
    + intros (n' & _ & H). destruct (filter (fun s => String.eqb (s_name s) n') stats) as [|s t] eqn:Q; [destruct H|]. destruct H as [H|[]]. injection H as <- <-. exists s. split; auto. eapply F; eauto.
    + intros (s & H & ->). exists n. split.
      * apply I. destruct H as (k & A & B & _). exists s. split; auto. apply (nth_error_In _ _ A).
      * destruct (G n s H) as (t & ->). left; auto.
Qed.
Print Assumptions C355_values.
Theorem C355_of_metric : forall m name stats, Keeps (fun s => s_id s = m_id m /\ (forall n, name = Some n -> s_name s = n)) stats (stats_for m name stats).
Proof.
  intros m [n|] stats; unfold stats_for.
  - assert (E : filter (fun s => String.eqb (s_name s) n) (filter (fun s => Z.eqb (s_id s) (m_id m)) stats) = filter (fun s => Z.eqb (s_id s) (m_id m) && String.eqb (s_name s) n) stats).
    { induction stats as [|a l IH]; cbn; auto. destruct (Z.eqb (s_id a) (m_id m)); cbn; [|exact IH]. destruct (String.eqb (s_name a) n); cbn; rewrite IH; auto. }
    rewrite E. apply keeps_filter. intros s _. rewrite andb_true_iff, Z.eqb_eq, String.eqb_eq. split; [intros (A & B); split; auto; congruence|intros (A & B); auto].
  - apply keeps_filter. intros s _. rewrite Z.eqb_eq. split; [intro A; split; auto; discriminate|tauto].
Qed.
Print Assumptions C355_of_metric.
