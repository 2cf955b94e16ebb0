(** The order of texts and of metrics, np.unique and selections. *)
From Coq Require Import String Ascii ZArith List Bool Lia Permutation Sorted NArith.
From Verif Require Import Base Web_Spec Web_Model.
Import ListNotations.
Open Scope Z_scope.

Lemma code_N c : Code c = N.to_nat (N_of_ascii c).
Proof. reflexivity. Qed.
Lemma compare_lt : forall s t, String.compare s t = Lt <-> TextLt s t.
Proof.
  induction s as [|c s IH]; intros [|d t]; cbn; split; intro H; try discriminate; try (inversion H; fail); try (apply TL_end); auto.
  - unfold Ascii.compare in H. destruct (N.compare_spec (N_of_ascii c) (N_of_ascii d)) as [E|E|E]; [|apply TL_here; rewrite !code_N; lia|discriminate].
    assert (c = d) by (rewrite <- (ascii_N_embedding c), <- (ascii_N_embedding d), E; reflexivity). subst. apply TL_later, IH, H.
  - inversion H as [|c' d' s' t' L|c' s' t' L]; subst; unfold Ascii.compare.
    + rewrite !code_N in L. rewrite (proj2 (N.compare_lt_iff _ _)) by lia. reflexivity.
    + rewrite N.compare_refl. apply IH, L.
Qed.
Lemma textlt_trans : forall s t, TextLt s t -> forall u, TextLt t u -> TextLt s u.
Proof.
  induction 1; intros u H'; inversion H'; subst; try (constructor; fail); try (apply TL_here; assumption || lia); try (apply TL_later; auto).
Qed.
Lemma textlt_irrefl s : ~ TextLt s s.
Proof. induction s as [|c s IH]; intro H; inversion H; subst; [lia|auto]. Qed.
Lemma compare_gt s t : String.compare s t = Gt <-> TextLt t s.
Proof. rewrite <- compare_lt, (String.compare_antisym s t). destruct (String.compare t s); cbn; split; congruence. Qed.
Lemma compare_eq s t : String.compare s t = Eq <-> s = t.
Proof. split; intro H; [apply String.compare_eq_iff, H|subst]. destruct (String.compare t t) eqn:E; auto; exfalso; [apply compare_lt in E|apply compare_gt in E]; apply (textlt_irrefl _ E). Qed.

(** sorted lists and positions *)
Lemma sorted_order {A} (R : A -> A -> Prop) l : StronglySorted R l -> InOrder R l.
Proof.
  induction 1 as [|x l S IH F]; intros i j a b L Ei Ej; [destruct i; discriminate|].
  destruct j as [|j]; [lia|]. cbn in Ej. destruct i as [|i]; cbn in Ei; [|apply (IH i j); auto; lia].
  injection Ei as <-. rewrite Forall_forall in F. apply F. apply (nth_error_In l j Ej).
Qed.
Lemma sorted_same {A} (R : A -> A -> Prop) : (forall x, ~ R x x) -> (forall x y z, R x y -> R y z -> R x z) ->
  forall l l', StronglySorted R l -> StronglySorted R l' -> (forall x, In x l <-> In x l') -> l = l'.
Proof.
  intros I T; induction l as [|x l IH]; intros [|y l'] S S' E; auto.
  - exfalso. apply (proj2 (E y)). left; auto.
  - exfalso. apply (proj1 (E x)). left; auto.
  - inversion S as [|? ? S1 F]; inversion S' as [|? ? S1' F']; subst. rewrite Forall_forall in F, F'.
    assert (x = y).
    { destruct (proj1 (E x) (or_introl eq_refl)) as [<-|H]; auto. destruct (proj2 (E y) (or_introl eq_refl)) as [->|H']; auto.
      exfalso. apply (I x). apply (T x y x); auto. }
    subst. f_equal. apply IH; auto. intro z. split; intro H.
    + destruct (proj1 (E z) (or_intror H)) as [<-|]; auto. exfalso. apply (I y), F, H.
    + destruct (proj2 (E z) (or_intror H)) as [<-|]; auto. exfalso. apply (I y), F', H.
Qed.

(** np.unique *)
Lemma put_in x y l : In y (put x l) <-> y = x \/ In y l.
Proof.
  induction l as [|z t IH]; cbn; [intuition|]. destruct (String.compare x z) eqn:E; cbn.
  - apply compare_eq in E. subst. intuition.
  - intuition.
  - rewrite IH. intuition.
Qed.
Lemma put_sorted x l : StronglySorted TextLt l -> StronglySorted TextLt (put x l).
Proof.
  induction 1 as [|z t S IH F]; cbn; [repeat constructor|]. destruct (String.compare x z) eqn:E.
  - constructor; auto.
  - apply compare_lt in E. constructor; [constructor; auto|]. constructor; auto. eapply Forall_impl; [|apply F]. intros a H. eapply textlt_trans; eauto.
  - apply compare_gt in E. constructor; auto. apply Forall_forall. intros y Iy. apply put_in in Iy as [->|Iy]; auto. rewrite Forall_forall in F. auto.
Qed.
Lemma unique_in l x : In x (unique l) <-> In x l.
Proof. induction l as [|y t IH]; cbn; [tauto|]. rewrite put_in, IH. intuition. Qed.
Lemma unique_sorted l : StronglySorted TextLt (unique l).
Proof. induction l as [|y t IH]; cbn; [constructor|apply put_sorted, IH]. Qed.
Lemma sorted_nodup {A} (R : A -> A -> Prop) (l : list A) : (forall x, ~ R x x) -> StronglySorted R l -> NoDup l.
Proof. intro I. induction 1 as [|x l S IH F]; constructor; auto. intro H. rewrite Forall_forall in F. apply (I x), F, H. Qed.
Lemma unique_nodup l : NoDup (unique l).
Proof. apply (sorted_nodup TextLt); [apply textlt_irrefl|apply unique_sorted]. Qed.
Lemma has_in l x : has l x = true <-> In x l.
Proof. unfold has. rewrite existsb_exists. split; [intros (y & H & E); apply String.eqb_eq in E; subst; auto|exists x; split; auto; apply String.eqb_refl]. Qed.
Lemma has_id_in l x : has_id l x = true <-> In x l.
Proof. unfold has_id. rewrite existsb_exists. split; [intros (y & H & E); apply Z.eqb_eq in E; subst; auto|exists x; split; auto; apply Z.eqb_refl]. Qed.
Lemma has_not l x : has l x = false <-> ~ In x l.
Proof. rewrite <- has_in. destruct (has l x); split; congruence. Qed.
Lemma keeps_filter {A} (P : A -> Prop) f (l : list A) : (forall x, In x l -> (f x = true <-> P x)) -> Keeps P l (filter f l).
Proof.
  induction l as [|x l IH]; intro H; cbn; [constructor|]. destruct (f x) eqn:E.
  - constructor; [apply H; cbn; auto|apply IH; intros; apply H; cbn; auto].
  - constructor; [intro Q; apply H in Q; [congruence|cbn; auto]|apply IH; intros; apply H; cbn; auto].
Qed.
Lemma keeps_in {A} (P : A -> Prop) l o : Keeps P l o -> forall x, In x o <-> In x l /\ P x.
Proof. induction 1 as [|y l o Py K IH|y l o Py K IH]; intro x; cbn; [tauto| |]; rewrite IH; intuition (subst; tauto). Qed.

(** the order of metrics *)
Lemma key_eq a b : key_compare a b = Eq <-> a = b.
Proof. destruct a, b; cbn; try (split; congruence); [rewrite compare_eq|rewrite Z.compare_eq_iff]; split; congruence. Qed.
Lemma key_opp a b : key_compare b a = CompOpp (key_compare a b).
Proof. destruct a, b; cbn; auto; [apply String.compare_antisym|apply Z.compare_antisym]. Qed.
Lemma key_trans a b c : key_compare a b = Lt -> key_compare b c = Lt -> key_compare a c = Lt.
Proof.
  destruct a, b, c; cbn; try congruence; [|rewrite !Z.compare_lt_iff; lia]. rewrite !compare_lt. intros H H'. eapply textlt_trans; eauto.
Qed.
Lemma metric_opp cs a b : metric_compare cs b a = CompOpp (metric_compare cs a b).
Proof. induction cs as [|c t IH]; cbn; [apply Z.compare_antisym|]. rewrite key_opp. destruct (key_compare (cell c a) (cell c b)); cbn; auto. Qed.
Lemma metric_trans cs a b c : metric_compare cs a b = Lt -> metric_compare cs b c = Lt -> metric_compare cs a c = Lt.
Proof.
  induction cs as [|k t IH]; cbn; [rewrite !Z.compare_lt_iff; lia|].
  destruct (key_compare (cell k a) (cell k b)) eqn:E; destruct (key_compare (cell k b) (cell k c)) eqn:E'; try congruence; intros H H'.
  - apply key_eq in E. rewrite E, E'. auto.
  - apply key_eq in E. rewrite E, E'. auto.
  - apply key_eq in E'. rewrite <- E', E. auto.
  - rewrite (key_trans _ _ _ E E'). auto.
Qed.
Lemma metric_eq cs a b : metric_compare cs a b = Eq -> m_id a = m_id b.
Proof. induction cs as [|c t IH]; cbn; [apply Z.compare_eq|]. destruct (key_compare (cell c a) (cell c b)); congruence || auto. Qed.
Lemma metric_irrefl cs a : metric_compare cs a a <> Lt.
Proof. induction cs as [|c t IH]; cbn; [rewrite Z.compare_refl; discriminate|]. rewrite (proj2 (key_eq _ _) eq_refl). auto. Qed.
Definition Before cs a b : Prop := metric_compare cs a b = Lt.
Lemma insert_perm cs x l : Permutation (insert_metric cs x l) (x :: l).
Proof. induction l as [|y t IH]; cbn; auto. destruct (metric_compare cs x y); auto. rewrite IH. apply perm_swap. Qed.
Lemma sort_perm cs l : Permutation (sort_metrics cs l) l.
Proof. induction l as [|x t IH]; cbn; auto. rewrite insert_perm, IH. auto. Qed.
Lemma insert_sorted cs x l : ~ In (m_id x) (map m_id l) -> StronglySorted (Before cs) l -> StronglySorted (Before cs) (insert_metric cs x l).
Proof.
  intros N S. induction S as [|y t S IH F]; cbn; [repeat constructor|]. cbn in N.
  destruct (metric_compare cs x y) eqn:E.
  - exfalso. apply metric_eq in E. apply N. left; congruence.
  - constructor; [constructor; auto|]. constructor; [exact E|]. eapply Forall_impl; [|apply F]. intros a H. unfold Before in *. eapply metric_trans; eauto.
  - constructor; [apply IH; tauto|]. apply Forall_forall. intros z Iz. apply (Permutation_in _ (insert_perm cs x t)) in Iz. destruct Iz as [<-|Iz].
    + unfold Before. rewrite metric_opp, E. reflexivity.
    + rewrite Forall_forall in F. apply F, Iz.
Qed.
Lemma sort_sorted cs l : NoDup (map m_id l) -> StronglySorted (Before cs) (sort_metrics cs l).
Proof.
  induction l as [|x t IH]; cbn; intro N; [constructor|]. apply NoDup_cons_iff in N as (N & D). apply insert_sorted; auto.
  intro H. apply N. apply (Permutation_in _ (Permutation_map m_id (sort_perm cs t)) H).
Qed.
Lemma sort_same cs l l' : NoDup (map m_id l) -> Permutation l l' -> sort_metrics cs l = sort_metrics cs l'.
Proof.
  intros N P. apply (sorted_same (Before cs)).
  - apply metric_irrefl.
  - intros x y z. apply metric_trans.
  - apply sort_sorted, N.
  - apply sort_sorted. apply (Permutation_NoDup (Permutation_map m_id P) N).
  - intro x. split; intro H; eapply Permutation_in; try exact H; rewrite !sort_perm; [auto|apply Permutation_sym, P].
Qed.
(** a comparison by columns is one by the keys *)
Definition meaning (c : column) (x y : metric) : Prop * Prop :=
  match c with
  | CId => ByNumber m_id x y | CGroup => ByText m_group x y | CSub => ByText m_sub x y | CBase => ByText m_base x y
  | CSlicer => ByText m_slicer x y | COrder => ByNumber m_order x y | CLabel => ByText m_label x y
  end.
Lemma before_lex cs x y : Before cs x y -> Lex (map (fun c => meaning c x y) cs ++ [ByNumber m_id x y]).
Proof.
  unfold Before. induction cs as [|c t IH]; cbn.
  - rewrite Z.compare_lt_iff. auto.
  - destruct (key_compare (cell c x) (cell c y)) eqn:E; try discriminate; intro H.
    + apply key_eq in E. specialize (IH H). destruct c; cbn in *; injection E as E; auto.
    + destruct c; cbn in *; left; try (apply compare_lt, E); apply Z.compare_lt_iff, E.
Qed.
