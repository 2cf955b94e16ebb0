(** Tables: columns looked up, dropped and added; the columns set_orbits adds. *)
From Coq Require Import Reals Lra Lia.
From Verif Require Import Base Orbits_Model Orbits_Spec.
Open Scope R_scope.

Lemma has_in : forall c f, has c f = true <-> In c (names f).
Proof.
  intros c f. unfold has, names. rewrite existsb_exists, in_map_iff. split.
  - intros [p [I E]]. apply String.eqb_eq in E. exists p. auto.
  - intros [p [E I]]. exists p. split; [exact I|]. apply String.eqb_eq. exact E.
Qed.
Lemma has_not : forall c f, has c f = false <-> ~ In c (names f).
Proof. intros c f. rewrite <- has_in. destruct (has c f); split; intros; try congruence; tauto. Qed.
Lemma in_names : forall f c l, In (c, l) (f_cols f) -> In c (names f).
Proof. intros f c l I. unfold names. apply in_map_iff. exists (c, l). auto. Qed.
Lemma names_in : forall f c, In c (names f) -> exists l, In (c, l) (f_cols f).
Proof. intros f c I. unfold names in I. apply in_map_iff in I. destruct I as [[c' l] [E I]]. cbn in E. subst. exists l. exact I. Qed.
Lemma unique_col : forall (l : list (string * list cell)) c a b, NoDup (map fst l) -> In (c, a) l -> In (c, b) l -> a = b.
Proof.
  induction l as [|[c' x] l IH]; intros c a b N A B; [destruct A|]. cbn in N. inversion N as [|? ? NI N']; subst.
  destruct A as [A|A], B as [B|B].
  - congruence.
  - inversion A; subst. destruct NI. apply in_map_iff. exists (c, b). auto.
  - inversion B; subst. destruct NI. apply in_map_iff. exists (c, a). auto.
  - exact (IH c a b N' A B).
Qed.
Lemma column_ok : forall f c l, wf f -> (column f c = Ok l <-> In (c, l) (f_cols f)).
Proof.
  intros f c l [N _]. unfold column. destruct (find _ (f_cols f)) as [[c' x]|] eqn:E.
  - apply find_some in E. destruct E as [I E]. cbn in E. apply String.eqb_eq in E. subst c'. cbn [snd]. split.
    + intros H. injection H as <-. exact I.
    + intros H. f_equal. exact (unique_col _ _ _ _ N I H).
  - split; [discriminate|]. intros I. apply find_none with (x := (c, l)) in E; [|exact I]. cbn in E. rewrite String.eqb_refl in E. discriminate.
Qed.
Lemma column_err : forall f c e, column f c = Err e -> e = KeyError /\ ~ In c (names f).
Proof.
  intros f c e. unfold column. destruct (find _ (f_cols f)) as [p|] eqn:E; [discriminate|]. intros H. injection H as <-. split; [reflexivity|].
  intros I. apply names_in in I. destruct I as [l I]. apply find_none with (x := (c, l)) in E; [|exact I]. cbn in E. rewrite String.eqb_refl in E. discriminate.
Qed.
Lemma column_has : forall f c, In c (names f) -> exists l, column f c = Ok l.
Proof.
  intros f c I. destruct (column f c) as [l|e] eqn:E; [exists l; reflexivity|]. apply column_err in E. tauto.
Qed.
Lemma holds_col : forall f c i v, wf f -> (holds f c i v <-> exists l, column f c = Ok l /\ nth_error l i = Some v).
Proof. intros f c i v W. unfold holds. split; intros [l [A B]]; exists l; (split; [|exact B]); apply column_ok; assumption. Qed.
Lemma holds_names : forall f c i v, holds f c i v -> In c (names f).
Proof. intros f c i v [l [I _]]. exact (in_names f c l I). Qed.
Lemma holds_exists : forall f c i, wf f -> In c (names f) -> (i < rows f)%nat -> exists v, holds f c i v.
Proof.
  intros f c i [_ L] I H. apply names_in in I. destruct I as [l I]. assert (E := L c l I).
  destruct (nth_error l i) as [v|] eqn:N; [exists v, l; auto|]. apply nth_error_None in N. lia.
Qed.
Lemma holds_fun : forall f c i v w, wf f -> holds f c i v -> holds f c i w -> v = w.
Proof. intros f c i v w [N _] [l [A B]] [l' [A' B']]. assert (l = l') by exact (unique_col _ _ _ _ N A A'). congruence. Qed.
Lemma holds_range : forall f c i v, wf f -> holds f c i v -> (i < rows f)%nat.
Proof. intros f c i v [_ L] [l [A B]]. rewrite <- (L c l A). apply nth_error_Some. congruence. Qed.

(** ** drop and assign *)
Lemma drop_cols : forall c f c' l, In (c', l) (f_cols (drop c f)) <-> c' <> c /\ In (c', l) (f_cols f).
Proof.
  intros c f c' l. unfold drop. cbn [f_cols]. rewrite filter_In. cbn [fst]. rewrite Bool.negb_true_iff, String.eqb_neq. tauto.
Qed.
Lemma drop_names : forall c f c', In c' (names (drop c f)) <-> c' <> c /\ In c' (names f).
Proof.
  intros c f c'. split.
  - intros I. apply names_in in I. destruct I as [l I]. apply drop_cols in I. destruct I as [A I]. split; [exact A|]. exact (in_names _ _ _ I).
  - intros [A I]. apply names_in in I. destruct I as [l I]. apply in_names with (l := l). apply drop_cols. auto.
Qed.
Lemma drop_holds : forall c f c' i v, holds (drop c f) c' i v <-> c' <> c /\ holds f c' i v.
Proof.
  intros c f c' i v. unfold holds. split.
  - intros [l [I E]]. apply drop_cols in I. destruct I as [A I]. split; [exact A|]. exists l. auto.
  - intros [A [l [I E]]]. exists l. split; [apply drop_cols; auto|exact E].
Qed.
Lemma NoDup_map_filter : forall {A B} (g : A -> B) (P : A -> bool) l, NoDup (map g l) -> NoDup (map g (filter P l)).
Proof.
  intros A B g P l. induction l as [|x l IH]; cbn; [intros; constructor|]. intros N. inversion N as [|? ? NI N']; subst.
  destruct (P x); cbn; [|exact (IH N')]. constructor; [|exact (IH N')]. intros I. apply NI. apply in_map_iff in I. destruct I as [y [E I]].
  apply filter_In in I. apply in_map_iff. exists y. tauto.
Qed.
Lemma drop_wf : forall c f, wf f -> wf (drop c f).
Proof.
  intros c f [N L]. split.
  - unfold names, drop. cbn [f_cols]. apply NoDup_map_filter. exact N.
  - intros c' l I. apply drop_cols in I. destruct I as [_ I]. exact (L c' l I).
Qed.
Lemma drop_rows : forall c f, rows (drop c f) = rows f.
Proof. reflexivity. Qed.
Lemma drop_absent : forall c f, ~ In c (names f) -> drop c f = f.
Proof.
  intros c [ix cs] N. unfold drop, names in *. cbn [f_cols f_index] in *. f_equal. induction cs as [|[c' l] cs IH]; [reflexivity|]. cbn in N |- *.
  destruct (String.eqb_spec c' c) as [->|D]; [destruct N; auto|]. cbn. f_equal. apply IH. tauto.
Qed.
Lemma drop_comm : forall c d f, drop c (drop d f) = drop d (drop c f).
Proof.
  intros c d [ix cs]. unfold drop. cbn [f_cols f_index]. f_equal. induction cs as [|[c' l] cs IH]; [reflexivity|]. cbn.
  destruct (String.eqb c' d) eqn:E1, (String.eqb c' c) eqn:E2; cbn; rewrite ?E1, ?E2; cbn; congruence.
Qed.
Lemma assign_names : forall c v f c', In c' (names (assign c v f)) <-> c' = c \/ In c' (names f).
Proof.
  intros c v f c'. unfold names, assign. cbn [f_cols]. rewrite map_app, in_app_iff. cbn. firstorder congruence.
Qed.
Lemma assign_holds : forall c v f c' i w, holds (assign c v f) c' i w <-> holds f c' i w \/ c' = c /\ nth_error v i = Some w.
Proof.
  intros c v f c' i w. unfold holds, assign. cbn [f_cols]. split.
  - intros [l [I E]]. apply in_app_iff in I. destruct I as [I|[I|[]]]; [left; exists l; auto|]. inversion I; subst. auto.
  - intros [[l [I E]]|[-> E]].
    + exists l. split; [apply in_app_iff; auto|exact E].
    + exists v. split; [apply in_app_iff; right; left; reflexivity|exact E].
Qed.
Lemma assign_wf : forall c v f, wf f -> ~ In c (names f) -> length v = rows f -> wf (assign c v f).
Proof.
  intros c v f [N L] NI E. split.
  - unfold names, assign. cbn [f_cols]. rewrite map_app. cbn. apply NoDup_rev in N. apply (NoDup_Add (a := c) (l := map fst (f_cols f))).
    + rewrite <- (app_nil_r (map fst (f_cols f))) at 1. apply Add_app.
    + split; [apply NoDup_rev in N; rewrite rev_involutive in N; exact N|exact NI].
  - intros c' l I. unfold assign in I. cbn [f_cols] in I. apply in_app_iff in I. destruct I as [I|[I|[]]]; [exact (L c' l I)|]. inversion I; subst. exact E.
Qed.

(** ** fill *)
Lemma fill_wf : forall c v f, wf f -> length v = rows f -> wf (fill c v f).
Proof.
  intros c v f W E. unfold fill. destruct (has c f) eqn:H; [exact W|]. apply assign_wf; [exact W| |exact E]. apply has_not. exact H.
Qed.
Lemma fill_rows : forall c v f, rows (fill c v f) = rows f.
Proof. intros c v f. unfold fill. destruct (has c f); reflexivity. Qed.
Lemma fill_index : forall c v f, f_index (fill c v f) = f_index f.
Proof. intros c v f. unfold fill. destruct (has c f); reflexivity. Qed.
Lemma fill_names : forall c v f c', In c' (names (fill c v f)) <-> c' = c \/ In c' (names f).
Proof.
  intros c v f c'. unfold fill. destruct (has c f) eqn:H; [|apply assign_names]. apply has_in in H. split; [auto|]. intros [->|I]; assumption.
Qed.
Lemma fill_holds : forall c v f c' i w,
  holds (fill c v f) c' i w <-> holds f c' i w \/ c' = c /\ ~ In c (names f) /\ nth_error v i = Some w.
Proof.
  intros c v f c' i w. unfold fill. destruct (has c f) eqn:H.
  - apply has_in in H. tauto.
  - apply has_not in H. rewrite assign_holds. tauto.
Qed.
Lemma fill_present : forall c v f, In c (names f) -> fill c v f = f.
Proof. intros c v f I. unfold fill. apply has_in in I. rewrite I. reflexivity. Qed.
Lemma count_length : forall n, length (count n) = n.
Proof. intros n. unfold count. rewrite map_length, seq_length. reflexivity. Qed.
Lemma nth_count : forall n i, (i < n)%nat -> nth_error (count n) i = Some (Z.of_nat i).
Proof.
  intros n i H. unfold count. rewrite nth_error_map. rewrite (nth_error_nth' _ 0%nat) by (rewrite seq_length; exact H). cbn. rewrite seq_nth by exact H.
  reflexivity.
Qed.
Lemma nth_repeat_some : forall {A} (x : A) n i y, nth_error (repeat x n) i = Some y <-> (i < n)%nat /\ y = x.
Proof.
  intros A x n. induction n as [|n IH]; intros i y; cbn.
  - destruct i; cbn; split; try discriminate; lia.
  - destruct i as [|i]; cbn; [split; [intros E; injection E as <-; split; [lia|reflexivity]|intros [_ ->]; reflexivity]|].
    rewrite IH. split; intros [A1 A2]; split; auto; lia.
Qed.

(** ** the defaults *)
Definition default_value (c : string) (i : nat) (v : cell) : Prop :=
  (c = "obj_id" /\ v = Num (INR i) \/ c = "H" /\ v = Num 20 \/ c = "g" /\ v = Num 0.15)%string.
Lemma defaults_wf : forall f, wf f -> wf (defaults f) /\ rows (defaults f) = rows f /\ f_index (defaults f) = f_index f.
Proof.
  intros f W. unfold defaults. rewrite !fill_rows, !fill_index. split; [|split; reflexivity].
  apply fill_wf; [|rewrite repeat_length, !fill_rows; reflexivity]. apply fill_wf; [|rewrite repeat_length, fill_rows; reflexivity].
  apply fill_wf; [exact W|]. rewrite map_length, count_length. reflexivity.
Qed.
Lemma defaults_names : forall f c, In c (names (defaults f)) <-> (c = "obj_id" \/ c = "H" \/ c = "g")%string \/ In c (names f).
Proof. intros f c. unfold defaults. rewrite !fill_names. tauto. Qed.
Lemma defaults_holds : forall f c i v, wf f ->
  (holds (defaults f) c i v <-> holds f c i v \/ ~ In c (names f) /\ (i < rows f)%nat /\ default_value c i v).
Proof.
  intros f c i v W. unfold defaults. rewrite !fill_holds, !fill_names, !nth_repeat_some. unfold default_value.
  assert (E : nth_error (map (fun j => Num (IZR j)) (count (rows f))) i = Some v <-> (i < rows f)%nat /\ v = Num (INR i)).
  { rewrite nth_error_map. destruct (Nat.lt_ge_cases i (rows f)) as [L|L].
    - rewrite nth_count by exact L. cbn. rewrite <- INR_IZR_INZ. split; [intros X; injection X as <-; auto|intros [_ ->]; reflexivity].
    - assert (N : nth_error (count (rows f)) i = None) by (apply nth_error_None; rewrite count_length; exact L). rewrite N. cbn. split; [discriminate|lia]. }
  rewrite E. split.
  - intros [[[H|[-> [A [B C]]]]|[-> [A [B C]]]]|[-> [A [B C]]]]; [left; exact H|right|right|right]; (split; [|split; [exact B|tauto]]); tauto.
  - intros [H|[A [B [[-> C]|[[-> C]|[-> C]]]]]]; [left; left; left; exact H| | |].
    + left; left; right. tauto.
    + left; right. split; [reflexivity|]. split; [|tauto]. intros [X|X]; [discriminate|contradiction].
    + right. split; [reflexivity|]. split; [|tauto]. intros [X|[X|X]]; [discriminate|discriminate|contradiction].
Qed.
Lemma defaults_id : forall f, In "obj_id"%string (names f) -> In "H"%string (names f) -> In "g"%string (names f) -> defaults f = f.
Proof. intros f A B C. unfold defaults. rewrite (fill_present "obj_id") by exact A. rewrite (fill_present "H") by exact B. apply fill_present. exact C. Qed.

(** ** spectra *)
Lemma all_ok_length : forall {A} (l : list (result A)) r, all_ok l = Ok r -> length r = length l.
Proof.
  intros A l. induction l as [|x l IH]; intros r H; cbn in H; [injection H as <-; reflexivity|].
  destruct x as [x|]; [|discriminate]. cbn in H. destruct (all_ok l) as [y|] eqn:E; [|discriminate]. cbn in H. injection H as <-. cbn. f_equal. exact (IH y eq_refl).
Qed.
Lemma all_ok_nth : forall {A} (l : list (result A)) r, all_ok l = Ok r -> forall i x, nth_error r i = Some x <-> nth_error l i = Some (Ok x).
Proof.
  intros A l. induction l as [|y l IH]; intros r H; cbn in H; [injection H as <-; intros i x; destruct i; cbn; split; discriminate|].
  destruct y as [y|]; [|discriminate]. cbn in H. destruct (all_ok l) as [z|] eqn:E; [|discriminate]. cbn in H. injection H as <-. intros i x.
  destruct i as [|i]; cbn; [split; intros X; [injection X as <-; reflexivity|injection X as <-; reflexivity]|]. exact (IH z eq_refl i x).
Qed.
Lemma all_ok_all : forall {A} (l : list (result A)), (forall r, In r l -> exists x, r = Ok x) -> exists r, all_ok l = Ok r.
Proof.
  intros A l. induction l as [|y l IH]; intros H; cbn; [exists []; reflexivity|].
  destruct (H y (or_introl eq_refl)) as [x ->]. cbn. destruct IH as [r ->]; [intros r I; apply H; right; exact I|]. cbn. eexists. reflexivity.
Qed.
Lemma number_ok : forall c, (forall s, c <> Txt s) -> exists x, number c = Ok x.
Proof. intros c N. destruct c as [x|s|]; cbn; [eexists; reflexivity|destruct (N s eq_refl)|eexists; reflexivity]. Qed.
Lemma col_numeric : forall f c l, wf f -> numeric f c -> In (c, l) (f_cols f) -> forall v, In v l -> forall s, v <> Txt s.
Proof.
  intros f c l W N I v J s ->. apply In_nth_error in J. destruct J as [i J]. apply (N i s). exists l. auto.
Qed.
Lemma axes_ok : forall f, wf f -> numeric_elements f ->
  (In "a"%string (names f) \/ In "q"%string (names f) /\ In "e"%string (names f) \/
   In "x"%string (names f) /\ In "y"%string (names f) /\ In "z"%string (names f) /\ ~ In "q"%string (names f)) ->
  exists a, axes f = Ok a.
Proof.
  intros f W N H. unfold axes. destruct (has "a" f) eqn:A.
  - apply has_in in A. destruct (column_has f _ A) as [l E]. rewrite E. cbn [bind]. apply column_ok in E; [|exact W].
    apply all_ok_all. intros r I. apply in_map_iff in I. destruct I as [c [<- I]]. unfold axis_a.
    destruct (number_ok c) as [x ->]; [|cbn; eexists; reflexivity]. refine (col_numeric f "a" l W _ E c I). apply N. cbn. tauto.
  - apply has_not in A. destruct (has "q" f) eqn:Q.
    + apply has_in in Q. assert (EE : In "e"%string (names f)) by tauto. destruct (column_has f _ Q) as [l E]. destruct (column_has f _ EE) as [l' E'].
      rewrite E, E'. cbn [bind]. apply column_ok in E; [|exact W]. apply column_ok in E'; [|exact W].
      apply all_ok_all. intros r I. apply in_map_iff in I. destruct I as [[c c'] [<- I]]. cbn [fst snd]. unfold axis_q.
      destruct (number_ok c) as [x ->]; [refine (col_numeric f "q" l W _ E c _); [apply N; cbn; tauto|exact (in_combine_l _ _ _ _ I)]|]. cbn [bind].
      destruct (number_ok c') as [y ->]; [refine (col_numeric f "e" l' W _ E' c' _); [apply N; cbn; tauto|exact (in_combine_r _ _ _ _ I)]|].
      cbn. eexists. reflexivity.
    + apply has_not in Q. assert (X : has "x" f = true) by (apply has_in; tauto). rewrite X. apply has_in in X.
      assert (Y : In "y"%string (names f)) by tauto. assert (Z : In "z"%string (names f)) by tauto.
      destruct (column_has f _ X) as [l E]. destruct (column_has f _ Y) as [l' E']. destruct (column_has f _ Z) as [l'' E'']. rewrite E, E', E''. cbn [bind].
      apply column_ok in E; [|exact W]. apply column_ok in E'; [|exact W]. apply column_ok in E''; [|exact W].
      apply all_ok_all. intros r I. apply in_map_iff in I. destruct I as [[[c c'] c''] [<- I]]. cbn [fst snd]. unfold axis_x.
      assert (I' := in_combine_l _ _ _ _ I). assert (I'' := in_combine_r _ _ _ _ I).
      destruct (number_ok c) as [x ->]; [refine (col_numeric f "x" l W _ E c _); [apply N; cbn; tauto|exact (in_combine_l _ _ _ _ I')]|]. cbn [bind].
      destruct (number_ok c') as [y ->]; [refine (col_numeric f "y" l' W _ E' c' _); [apply N; cbn; tauto|exact (in_combine_r _ _ _ _ I')]|]. cbn [bind].
      destruct (number_ok c'') as [z ->]; [refine (col_numeric f "z" l'' W _ E'' c'' _); [apply N; cbn; tauto|exact I'']|]. cbn. eexists. reflexivity.
Qed.
Lemma axes_length : forall f a, wf f -> axes f = Ok a -> length a = rows f.
Proof.
  intros f a W. unfold axes. destruct (has "a" f).
  - destruct (column f "a") as [l|] eqn:E; [|discriminate]. cbn [bind]. intros H. apply all_ok_length in H. rewrite map_length in H.
    apply column_ok in E; [|exact W]. rewrite H. exact (proj2 W _ _ E).
  - destruct (has "q" f).
    + destruct (column f "q") as [l|] eqn:E; [|discriminate]. cbn [bind]. destruct (column f "e") as [l'|] eqn:E'; [|discriminate]. cbn [bind].
      intros H. apply all_ok_length in H. rewrite map_length, combine_length in H. apply column_ok in E; [|exact W]. apply column_ok in E'; [|exact W].
      rewrite (proj2 W _ _ E), (proj2 W _ _ E') in H. lia.
    + destruct (has "x" f); [|discriminate].
      destruct (column f "x") as [l|] eqn:E; [|discriminate]. cbn [bind]. destruct (column f "y") as [l'|] eqn:E'; [|discriminate]. cbn [bind].
      destruct (column f "z") as [l''|] eqn:E''; [|discriminate]. cbn [bind].
      intros H. apply all_ok_length in H. rewrite map_length, !combine_length in H. apply column_ok in E; [|exact W]. apply column_ok in E'; [|exact W].
      apply column_ok in E''; [|exact W]. rewrite (proj2 W _ _ E), (proj2 W _ _ E'), (proj2 W _ _ E'') in H. lia.
Qed.
Lemma sed_values : forall draws k f a i v, wf f -> axes f = Ok a ->
  (nth_error (map (fun p => sed_of (fst p) (snd p)) (combine (map draws (seq k (rows f))) a)) i = Some v <->
   exists x, nth_error a i = Some x /\ v = sed_of (draws (k + i)%nat) x).
Proof.
  intros draws k f a i v W E. assert (L := axes_length f a W E). rewrite nth_error_map.
  destruct (nth_error a i) as [x|] eqn:A.
  - assert (Hi : (i < length a)%nat) by (apply nth_error_Some; congruence).
    assert (C : nth_error (combine (map draws (seq k (rows f))) a) i = Some (draws (k + i)%nat, x)).
    { rewrite (nth_error_nth' _ (0, x)) by (rewrite combine_length, map_length, seq_length; lia). rewrite combine_nth by (rewrite map_length, seq_length; lia).
      f_equal. f_equal; [|apply nth_error_nth; exact A]. rewrite (nth_indep _ 0 (draws 0%nat)) by (rewrite map_length, seq_length; lia).
      rewrite map_nth. rewrite seq_nth by lia. reflexivity. }
    rewrite C. cbn. split; [intros X; injection X as <-; exists x; auto|intros [y [X ->]]; injection X as <-; reflexivity].
  - assert (N : nth_error (combine (map draws (seq k (rows f))) a) i = None).
    { apply nth_error_None. apply nth_error_None in A. rewrite combine_length. lia. }
    rewrite N. cbn. split; [discriminate|intros [x [X _]]; discriminate].
Qed.
Lemma fill_sed_ok : forall draws k f f2 k2, wf f -> fill_sed draws k f = Ok (f2, k2) ->
  wf f2 /\ rows f2 = rows f /\ f_index f2 = f_index f /\
  (forall c, In c (names f2) <-> c = "sed_filename"%string \/ In c (names f)) /\
  (In "sed_filename"%string (names f) -> f2 = f /\ k2 = k) /\
  (~ In "sed_filename"%string (names f) -> k2 = (k + rows f)%nat /\ exists a, axes f = Ok a /\
     forall c i v, holds f2 c i v <-> holds f c i v \/ c = "sed_filename"%string /\ exists x, nth_error a i = Some x /\ v = sed_of (draws (k + i)%nat) x).
Proof.
  intros draws k f f2 k2 W H. unfold fill_sed in H. destruct (has "sed_filename" f) eqn:S.
  - injection H as <- <-. apply has_in in S. split; [exact W|]. split; [reflexivity|]. split; [reflexivity|].
    split; [intros c; split; [auto|intros [->|I]; assumption]|]. split; [auto|tauto].
  - apply has_not in S. unfold assign_sed in H. destruct (axes f) as [a|] eqn:A; [|discriminate]. cbn [bind fst snd] in H. injection H as <- <-.
    split.
    { apply assign_wf; [exact W|exact S|]. rewrite map_length, combine_length, map_length, seq_length. rewrite (axes_length f a W A). lia. }
    split; [reflexivity|]. split; [reflexivity|]. split; [intros c; apply assign_names|]. split; [tauto|]. intros _. split; [reflexivity|].
    exists a. split; [reflexivity|]. intros c i v. rewrite assign_holds, sed_values by assumption. reflexivity.
Qed.
