From Verif Require Import Base MoSum_Model MoSum_Spec MoSum_Proofs.
From Coq Require Import QArith Qabs Lqa Lia.
Open Scope Q_scope.

(** * Counting *)
Lemma how_many_filter {A} (p : A -> bool) (P : A -> Prop) l : (forall x, p x = true <-> P x) -> how_many P l (length (filter p l)).
Proof.
  intros E. induction l as [|x l IH]; cbn; [constructor|]. destruct (p x) eqn:H; cbn; constructor; [apply E, H|exact IH| |exact IH].
  intros C. apply E in C. congruence.
Qed.
Lemma how_many_fun {A} (P : A -> Prop) l n m : how_many P l n -> how_many P l m -> n = m.
Proof. intros H. revert m. induction H; intros m' H'; inversion H'; subst; try contradiction; [reflexivity|f_equal; auto|auto]. Qed.
Lemma how_many_le {A} (P P' : A -> Prop) l n m : (forall x, In x l -> P x -> P' x) -> how_many P l n -> how_many P' l m -> (n <= m)%nat.
Proof.
  intros I H. revert m I. induction H; intros m I H'; inversion H'; subst; try lia.
  - apply le_n_S. apply IHhow_many; [intros; apply I; [right|]; assumption|assumption].
  - exfalso. match goal with C : ~ P' x |- _ => apply C end. apply I; [left; reflexivity|assumption].
  - apply le_S. apply IHhow_many; [intros; apply I; [right|]; assumption|assumption].
  - apply IHhow_many; [intros; apply I; [right|]; assumption|assumption].
Qed.
Lemma how_many_len {A} (P : A -> Prop) l n : how_many P l n -> (n <= length l)%nat.
Proof. intros H. induction H; cbn; lia. Qed.
Lemma len_pos {A} (l : list A) : l <> [] -> 0 < inject_Z (Z.of_nat (length l)).
Proof. intros H. destruct l; [congruence|]. unfold Qlt. cbn [length Qnum Qden inject_Z]. lia. Qed.
Lemma inj_le a b : (a <= b)%nat -> inject_Z (Z.of_nat a) <= inject_Z (Z.of_nat b).
Proof. intros H. rewrite <- Zle_Qle. lia. Qed.
Lemma fraction_bounds {A} (P : A -> Prop) l q : l <> [] -> fraction P l q -> 0 <= q <= 1.
Proof.
  intros N (n & H & E). pose proof (len_pos l N) as Hp. apply how_many_len in H. pose proof (inj_le _ _ H) as H1. pose proof (inj_le 0 n ltac:(lia)) as H2.
  rewrite <- E in H1, H2. cbn in H2. split; apply (Qmult_le_r _ _ _ Hp); [rewrite Qmult_0_l; exact H2|rewrite Qmult_1_l; exact H1].
Qed.
Lemma fraction_le {A} (P P' : A -> Prop) l q q' : l <> [] -> (forall x, In x l -> P x -> P' x) -> fraction P l q -> fraction P' l q' -> q <= q'.
Proof.
  intros N I (n & H & E) (m & H' & E'). pose proof (len_pos l N) as Hp. pose proof (inj_le _ _ (how_many_le _ _ _ _ _ I H H')) as L.
  rewrite <- E, <- E' in L. apply (Qmult_le_r _ _ _ Hp). exact L.
Qed.
Lemma fraction_compat {A} (P : A -> Prop) l q q' : q == q' -> fraction P l q -> fraction P l q'.
Proof. intros E (n & H & F). exists n. split; [exact H|]. rewrite <- E. exact F. Qed.
Lemma fraction_count {A} (p : A -> bool) (P : A -> Prop) l : l <> [] -> (forall x, p x = true <-> P x) -> fraction P l (count_q p l / inject_Z (Z.of_nat (length l))).
Proof.
  intros N E. exists (length (filter p l)). split; [apply how_many_filter, E|]. unfold count_q. field. pose proof (len_pos l N). lra.
Qed.

(** * Completeness of a cloned population *)
Lemma map_seq_nth (f : nat -> Q) n i : (i < n)%nat -> nth i (map f (seq 0 n)) 0 = f i.
Proof. intros H. rewrite (nth_indep _ 0 (f O)) by (rewrite map_length, seq_length; exact H). rewrite map_nth, seq_nth by exact H. reflexivity. Qed.
Lemma cloned_fraction t rows n i : rows <> [] -> (i < n)%nat ->
  fraction (fun r => t <= filled0 (nth i r None)) rows (at_ (completeness_cloned t rows n) i).
Proof.
  intros N Hi. unfold completeness_cloned, at_. rewrite map_seq_nth by exact Hi. apply fraction_count; [exact N|]. intros r. apply Qle_bool_iff.
Qed.

(** * Histograms *)
Lemma filter_or {A} (p q : A -> bool) l : (forall x, In x l -> p x && q x = false) -> (length (filter p l) + length (filter q l) = length (filter (fun x => p x || q x) l))%nat.
Proof.
  intros D. induction l as [|x l IH]; [reflexivity|]. specialize (IH ltac:(intros; apply D; right; assumption)). pose proof (D x (or_introl eq_refl)).
  cbn. destruct (p x), (q x); cbn in *; try discriminate; lia.
Qed.
Lemma count_or {A} (p q : A -> bool) l : (forall x, In x l -> p x && q x = false) -> count_q p l + count_q q l == count_q (fun x => p x || q x) l.
Proof. intros D. unfold count_q. rewrite <- (filter_or p q l D), Nat2Z.inj_add, inject_Z_plus. reflexivity. Qed.
Lemma count_ext_q {A} (p q : A -> bool) l : (forall x, In x l -> p x = q x) -> count_q p l = count_q q l.
Proof. intros H. unfold count_q. do 3 f_equal. apply filter_ext_in. exact H. Qed.
(** a time before edge k, or up to it when it is the last edge *)
Definition below (edges : list Q) (k : nat) (x : Q) : bool :=
  Qle_bool (nth 0 edges 0) x && (negb (Qle_bool (nth k edges 0) x) || (Nat.eqb (S k) (length edges) && Qeq_bool x (nth k edges 0))).
Lemma qle_true a b : Qle_bool a b = true <-> a <= b.
Proof. apply Qle_bool_iff. Qed.
Lemma qle_false a b : Qle_bool a b = false <-> b < a.
Proof. split; intros H. - apply Qnot_le_lt. intros C. apply Qle_bool_iff in C. congruence. - destruct (Qle_bool a b) eqn:E; [|reflexivity]. apply Qle_bool_iff in E. exfalso. exact (Qlt_not_le _ _ H E). Qed.
Lemma qeq_true a b : Qeq_bool a b = true <-> a == b.
Proof. apply Qeq_bool_iff. Qed.
Lemma qle_spec a b : {Qle_bool a b = true /\ a <= b} + {Qle_bool a b = false /\ b < a}.
Proof. destruct (Qle_bool a b) eqn:E; [left|right]; split; try reflexivity; [apply qle_true|apply qle_false]; exact E. Qed.
Lemma qeq_spec a b : {Qeq_bool a b = true /\ a == b} + {Qeq_bool a b = false /\ ~ a == b}.
Proof. destruct (Qeq_bool a b) eqn:E; [left|right]; split; try reflexivity; [apply Qeq_bool_iff, E|apply Qeq_bool_neq, E]. Qed.
Lemma below_step edges k x : nondecreasing edges -> (S (S k) < length edges)%nat ->
  below edges (S k) x && in_bin_q edges (S k) x = false /\ below edges (S k) x || in_bin_q edges (S k) x = below edges (S (S k)) x.
Proof.
  intros M L. unfold below, in_bin_q. pose proof (M O (S k) ltac:(lia)) as M1. pose proof (M (S k) (S (S k)) ltac:(lia)) as M2. unfold at_ in M1, M2.
  replace (Nat.eqb (S (S k)) (length edges)) with false by (symmetry; apply Nat.eqb_neq; lia). cbn [andb orb].
  destruct (Nat.eqb (S (S (S k))) (length edges));
  destruct (qle_spec (nth 0 edges 0) x) as [[-> H1]|[-> H1]]; destruct (qle_spec (nth (S k) edges 0) x) as [[-> H2]|[-> H2]]; destruct (qle_spec (nth (S (S k)) edges 0) x) as [[-> H3]|[-> H3]];
    destruct (qeq_spec x (nth (S (S k)) edges 0)) as [[-> H5]|[-> H5]]; cbn; try (split; reflexivity); exfalso; try lra; apply H5; lra.
Qed.
Lemma hist_cumsum edges l k : nondecreasing edges -> (S k < length edges)%nat ->
  sum_to (at_ (histogram edges l)) k == count_q (below edges (S k)) l.
Proof.
  intros M. induction k as [|k IH]; intros L.
  - cbn [sum_to]. unfold at_, histogram. rewrite map_seq_nth by lia. reflexivity.
  - cbn [sum_to]. rewrite IH by lia. unfold at_, histogram. rewrite map_seq_nth by lia. rewrite count_or by (intros x _; apply (below_step edges k x M L)).
    apply eq_subrelation; [typeclasses eauto|]. apply count_ext_q. intros x _. apply (below_step edges k x M L).
Qed.
Definition compressed (col : list (option Q)) : list Q := flat_map (fun v => match v with Some x => [x] | None => [] end) col.
Lemma compressed_count p col : count_q p (compressed col) = count_q (fun v => match v with Some x => p x | None => false end) col.
Proof.
  unfold count_q. do 2 f_equal. induction col as [|[x|] col IH]; [reflexivity| |exact IH]. change (compressed (Some x :: col)) with (x :: compressed col). cbn [filter]. destruct (p x); cbn [length]; rewrite IH; reflexivity.
Qed.
Lemma found_by_length times col : times <> [] -> length (found_by times col) = length times.
Proof. intros N. unfold found_by, cumsum_q. cbn [length]. rewrite cumsum_length. unfold histogram. rewrite map_length, seq_length. destruct times; [congruence|]. cbn. lia. Qed.
Lemma found_by_nth times col k : nondecreasing times -> (k < length times)%nat ->
  nth k (found_by times col) 0 == match k with O => 0 | _ => count_q (fun v => match v with Some x => below times k x | None => false end) col end.
Proof.
  intros M L. destruct k as [|k]; [reflexivity|]. unfold found_by. cbn [nth]. unfold cumsum_q. fold (compressed col).
  rewrite cumsum_nth by (unfold histogram; rewrite map_length, seq_length; lia). rewrite Qplus_0_l, hist_cumsum by assumption. rewrite compressed_count. reflexivity.
Qed.
Lemma found_fraction times (rows : list (list (option Q))) i k : rows <> [] -> nondecreasing times -> (k < length times)%nat ->
  fraction (fun r => found_before times k (nth i r None)) rows (nth k (found_by times (map (fun r => nth i r None) rows)) 0 / inject_Z (Z.of_nat (length rows))).
Proof.
  intros N M L. destruct k as [|k].
  - exists O. split; [|cbn [found_by nth]; unfold Qdiv; rewrite !Qmult_0_l; reflexivity]. clear N. induction rows as [|r rows IH]; constructor; [|exact IH]. intros (x & _ & H & _). lia.
  - pose (p := fun r : list (option Q) => match nth i r None with Some x => below times (S k) x | None => false end).
    apply (fraction_compat _ _ (count_q p rows / inject_Z (Z.of_nat (length rows)))).
    + rewrite found_by_nth by assumption. unfold Qdiv. apply Qmult_comp; [|reflexivity]. apply eq_subrelation; [typeclasses eauto|]. unfold count_q. do 2 f_equal.
      clear. induction rows as [|r rows IH]; [reflexivity|]. cbn [map filter]. unfold p at 1. destruct (nth i r None) as [x|]; [destruct (below times (S k) x)|]; cbn [length]; congruence.
    + apply fraction_count; [exact N|]. intros r. unfold p, found_before. destruct (nth i r None) as [x|]; [|split; [discriminate|intros (x & C & _); discriminate]].
      unfold below, at_. rewrite andb_true_iff, orb_true_iff, andb_true_iff, negb_true_iff, qle_true, qle_false, Nat.eqb_eq, qeq_true. split.
      * intros (H1 & H2). exists x. repeat split; [lia|exact H1|]. destruct H2 as [H2|[H2 H3]]; [left; exact H2|right; split; assumption].
      * intros (y & E & _ & H1 & H2). injection E as <-. split; [exact H1|]. destruct H2 as [H2|[H2 H3]]; [left; exact H2|right; split; assumption].
Qed.
