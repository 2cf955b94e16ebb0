(** Lemmas for the small metrics. *)
From Coq Require Import Reals ZArith Lra Lia Psatz List Permutation Sorted Morphisms.
From Verif Require Import Base Small_Model Small_Spec.
Open Scope R_scope.

(** ** Sorting *)
Lemma rinsert_perm x l : Permutation (rinsert x l) (x :: l).
Proof.
  induction l as [|y t IH]; cbn [rinsert]; [reflexivity|].
  destruct (Rle_dec x y); [reflexivity|].
  rewrite IH. apply perm_swap.
Qed.
Lemma rsort_perm l : Permutation (rsort l) l.
Proof. induction l as [|x t IH]; [reflexivity|]. cbn. rewrite rinsert_perm. now constructor. Qed.
Lemma rinsert_sorted x l : StronglySorted Rle l -> StronglySorted Rle (rinsert x l).
Proof.
  induction l as [|y t IH]; intro H; cbn [rinsert].
  - repeat constructor.
  - inversion H as [|? ? H1 H2]; subst. destruct (Rle_dec x y) as [L|L].
    + constructor; [assumption|]. constructor; [assumption|].
      eapply Forall_impl; [|exact H2]. intros; cbn in *; lra.
    + constructor; [now apply IH|].
      apply (Permutation_Forall (Permutation_sym (rinsert_perm x t))). constructor; [lra|assumption].
Qed.
Lemma rsort_sorted l : StronglySorted Rle (rsort l).
Proof. induction l; [constructor|]. cbn. now apply rinsert_sorted. Qed.

Lemma sorted_unique l : forall m, StronglySorted Rle l -> StronglySorted Rle m -> Permutation l m -> l = m.
Proof.
  induction l as [|x t IH]; intros m Hl Hm P.
  - apply Permutation_nil in P. now subst.
  - destruct m as [|y s]; [apply Permutation_sym in P; now apply Permutation_nil in P|].
    inversion Hl as [|? ? H1 H2]; subst. inversion Hm as [|? ? H3 H4]; subst.
    assert (x = y).
    { assert (A : In x (y :: s)) by (eapply Permutation_in; [exact P|now left]).
      assert (B : In y (x :: t)) by (eapply Permutation_in; [apply Permutation_sym; exact P|now left]).
      destruct A as [->|A]; [reflexivity|]. destruct B as [->|B]; [reflexivity|].
      rewrite Forall_forall in H2, H4. apply Rle_antisym; auto. }
    subst y. f_equal. apply IH; auto. now apply Permutation_cons_inv in P.
Qed.

Lemma rsort_perm_eq l m : Permutation l m -> rsort l = rsort m.
Proof.
  intro P. apply sorted_unique; try apply rsort_sorted.
  rewrite !rsort_perm. exact P.
Qed.

Lemma sorted_app_le (l m : list R) : StronglySorted Rle (l ++ m) -> forall x y, In x l -> In y m -> x <= y.
Proof.
  induction l as [|a t IH]; cbn; [easy|].
  intros H x y [->|Hx] Hy; inversion H as [|? ? H1 H2]; subst.
  - rewrite Forall_forall in H2. apply H2, in_or_app. now right.
  - now apply IH.
Qed.

(** ** Minimum and maximum *)
Lemma fold_min_le l : forall a, fold_left Rmin l a <= a /\ (forall x, In x l -> fold_left Rmin l a <= x).
Proof.
  induction l as [|y t IH]; intro a; cbn; [split; [lra|easy]|].
  destruct (IH (Rmin a y)) as [A B]. split.
  - pose proof (Rmin_l a y). lra.
  - intros x [->|H]; [pose proof (Rmin_r a x); lra|auto].
Qed.
Lemma fold_min_in l : forall a, In (fold_left Rmin l a) (a :: l).
Proof.
  induction l as [|y t IH]; intro a; cbn [fold_left]; [now left|].
  destruct (IH (Rmin a y)) as [E|E].
  - rewrite <- E. unfold Rmin. destruct (Rle_dec a y); cbn; auto.
  - right. now right.
Qed.
Lemma fold_max_le l : forall a, a <= fold_left Rmax l a /\ (forall x, In x l -> x <= fold_left Rmax l a).
Proof.
  induction l as [|y t IH]; intro a; cbn; [split; [lra|easy]|].
  destruct (IH (Rmax a y)) as [A B]. split.
  - pose proof (Rmax_l a y). lra.
  - intros x [->|H]; [pose proof (Rmax_r a x); lra|auto].
Qed.
Lemma fold_max_in l : forall a, In (fold_left Rmax l a) (a :: l).
Proof.
  induction l as [|y t IH]; intro a; cbn [fold_left]; [now left|].
  destruct (IH (Rmax a y)) as [E|E].
  - rewrite <- E. unfold Rmax. destruct (Rle_dec a y); cbn; auto.
  - right. now right.
Qed.

Definition is_min (m : R) (l : list R) := In m l /\ forall x, In x l -> m <= x.
Definition is_max (m : R) (l : list R) := In m l /\ forall x, In x l -> x <= m.
Lemma np_min_is l m : np_min l = Ok m <-> is_min m l.
Proof.
  destruct l as [|a t]; cbn; [split; [discriminate|intros [[] _]]|].
  pose proof (fold_min_le t a) as [A B]. pose proof (fold_min_in t a) as C.
  split.
  - intro E; injection E as <-. split; [exact C|]. intros x [<-|H]; auto.
  - intros [I L]. f_equal. apply Rle_antisym; [|apply L; exact C]. destruct I as [<-|I]; auto.
Qed.
Lemma np_max_is l m : np_max l = Ok m <-> is_max m l.
Proof.
  destruct l as [|a t]; cbn; [split; [discriminate|intros [[] _]]|].
  pose proof (fold_max_le t a) as [A B]. pose proof (fold_max_in t a) as C.
  split.
  - intro E; injection E as <-. split; [exact C|]. intros x [<-|H]; auto.
  - intros [I L]. f_equal. apply Rle_antisym; [apply L; exact C|]. destruct I as [<-|I]; auto.
Qed.
Lemma np_min_some l : l <> [] -> exists m, np_min l = Ok m.
Proof. destruct l; [easy|]. cbn. eauto. Qed.
Lemma np_max_some l : l <> [] -> exists m, np_max l = Ok m.
Proof. destruct l; [easy|]. cbn. eauto. Qed.

(** ** Counting *)
Lemma count_filter {A} (P : A -> Prop) (p : A -> bool) l :
  (forall x, In x l -> (p x = true <-> P x)) -> CountIs P l (length (filter p l)).
Proof.
  induction l as [|x t IH]; intro H; [constructor|].
  cbn [filter]. destruct (p x) eqn:E.
  - cbn. apply count_yes; [apply H; cbn; auto|apply IH; intros; apply H; cbn; auto].
  - apply count_no; [|apply IH; intros; apply H; cbn; auto].
    intro K. apply (proj2 (H x (or_introl eq_refl))) in K. congruence.
Qed.
Lemma count_unique {A} (P : A -> Prop) l : forall n m, CountIs P l n -> CountIs P l m -> n = m.
Proof.
  induction l; intros n m H K; inversion H; inversion K; subst; try easy; try congruence.
  - f_equal. eauto.
  - eauto.
Qed.
Lemma count_le {A} (P : A -> Prop) l n : CountIs P l n -> (n <= length l)%nat.
Proof. induction 1; cbn; lia. Qed.
Lemma count_mono {A} (P Q : A -> Prop) l : forall n m, (forall x, In x l -> P x -> Q x) ->
  CountIs P l n -> CountIs Q l m -> (n <= m)%nat.
Proof.
  induction l; intros n m S H K; inversion H; inversion K; subst; try lia.
  - apply le_n_S. eapply IHl; eauto. intros; apply S; cbn; auto.
  - exfalso. match goal with N : ~ Q _ |- _ => apply N end. apply S; cbn; auto.
  - apply le_S. eapply IHl; eauto. intros; apply S; cbn; auto.
  - eapply IHl; eauto. intros; apply S; cbn; auto.
Qed.
Lemma count_ext {A} (P Q : A -> Prop) l n : (forall x, In x l -> (P x <-> Q x)) -> CountIs P l n -> CountIs Q l n.
Proof.
  intros H K. revert H. induction K; intro H1; [constructor| |].
  - apply count_yes; [apply H1; cbn; auto|apply IHK; intros; apply H1; cbn; auto].
  - apply count_no; [rewrite <- H1; cbn; auto|apply IHK; intros; apply H1; cbn; auto].
Qed.
Lemma filter_length_perm {A} (p : A -> bool) l m : Permutation l m -> length (filter p l) = length (filter p m).
Proof. induction 1; cbn; try lia; repeat (destruct (p _)); cbn; lia. Qed.

Lemma filter_length_le {A} (p : A -> bool) l : (length (filter p l) <= length l)%nat.
Proof. induction l; cbn; [lia|]. destruct (p a); cbn; lia. Qed.

(** ** Area *)
Lemma in_finite v data : In v (finite data) <-> In (Some v) data.
Proof.
  unfold finite. rewrite in_flat_map. split.
  - intros [[x|] [H K]]; cbn in K; [|easy]. destruct K as [->|[]]. exact H.
  - intro H. exists (Some v). cbn. auto.
Qed.
Lemma ceil_bounds x : x <= IZR (ceil x) < x + 1.
Proof.
  unfold ceil. rewrite opp_IZR. pose proof (base_Int_part (- x)). lra.
Qed.
Lemma needed_bounds x : 0 < x -> x <= INR (Z.to_nat (ceil x)) < x + 1.
Proof.
  intro H. pose proof (ceil_bounds x) as [A B].
  assert (0 < ceil x)%Z by (apply lt_IZR; eapply Rlt_le_trans; [exact H|exact A]).
  rewrite INR_IZR_INZ, Z2Nat.id by (apply Z.lt_le_incl; assumption). lra.
Qed.
Lemma sky_pos : 0 < sky.
Proof.
  unfold sky. pose proof PI_RGT_0.
  assert (D : 0 < 180 / PI) by (apply Rdiv_lt_0_compat; lra).
  apply Rmult_lt_0_compat; [apply Rmult_lt_0_compat; [lra|exact D]|exact D].
Qed.
Lemma pix_area_sky n : pix_area n = sky / INR n.
Proof. reflexivity. Qed.
Lemma pix_area_pos n : (0 < n)%nat -> 0 < pix_area n.
Proof. intro H. rewrite pix_area_sky. apply Rdiv_lt_0_compat; [apply sky_pos|now apply lt_0_INR]. Qed.

Lemma count_split (p q : R -> bool) a b v :
  In v a -> (forall x, In x a -> p x = true) -> q v = false -> (forall y, In y b -> q y = false) ->
  (length a <= length (filter p (a ++ b)))%nat /\ (length (filter q (a ++ b)) < length a)%nat.
Proof.
  intros Hv Ha Hq Hb. rewrite !filter_app, !app_length. split.
  - assert (E : filter p a = a).
    { clear - Ha. induction a; [reflexivity|]. cbn. rewrite Ha by (cbn; auto). f_equal. apply IHa. intros; apply Ha; cbn; auto. }
    rewrite E. lia.
  - assert (E : filter q b = []).
    { clear - Hb. induction b; [reflexivity|]. cbn. rewrite Hb by (cbn; auto). apply IHb. intros; apply Hb; cbn; auto. }
    rewrite E. cbn. rewrite Nat.add_0_r. clear - Hv Hq.
    induction a as [|x t IH]; [easy|]. cbn. destruct Hv as [->|Hv].
    + rewrite Hq. pose proof (filter_length_le q t). lia.
    + specialize (IH Hv). destruct (q x); cbn; lia.
Qed.

Lemma Rle_b x y : (if Rle_dec x y then true else false) = true <-> x <= y.
Proof. destruct (Rle_dec x y); split; intro; auto; try discriminate; contradiction. Qed.
Lemma Rlt_b x y : (if Rlt_dec x y then true else false) = true <-> x < y.
Proof. destruct (Rlt_dec x y); split; intro; auto; try discriminate; contradiction. Qed.
Lemma Rlt_b_false x y : (if Rlt_dec x y then true else false) = false <-> y <= x.
Proof. destruct (Rlt_dec x y); split; intro; auto; try discriminate; lra. Qed.

Definition at_least (dec : bool) (v x : R) : bool := if dec then (if Rle_dec v x then true else false) else (if Rle_dec x v then true else false).
Definition strictly (dec : bool) (v x : R) : bool := if dec then (if Rlt_dec v x then true else false) else (if Rlt_dec x v then true else false).

Lemma strongly_app_rev (l : list R) : StronglySorted Rle l -> forall k x y,
  In x (firstn k (rev l)) -> In y (skipn k (rev l)) -> y <= x.
Proof.
  intros H k x y Hx Hy.
  assert (E : l = rev (skipn k (rev l)) ++ rev (firstn k (rev l))).
  { rewrite <- rev_app_distr, firstn_skipn, rev_involutive. reflexivity. }
  rewrite E in H. eapply sorted_app_le; [exact H| |]; rewrite <- in_rev; assumption.
Qed.

Lemma best_area (dec : bool) n l v :
  (if dec then np_min else np_max) (firstn n (if dec then rev (rsort l) else rsort l)) = Ok v ->
  In v l
  /\ (min n (length l) <= length (filter (at_least dec v) l))%nat
  /\ (length (filter (strictly dec v) l) < n)%nat.
Proof.
  intro H. set (s := if dec then rev (rsort l) else rsort l) in *.
  assert (P : Permutation l s).
  { unfold s. destruct dec; [rewrite <- Permutation_rev|]; now rewrite rsort_perm. }
  rewrite (filter_length_perm (at_least dec v) _ _ P), (filter_length_perm (strictly dec v) _ _ P).
  rewrite (Permutation_length P), <- (firstn_length n s).
  assert (Q : In v (firstn n s) /\ (forall x, In x (firstn n s) -> at_least dec v x = true)
              /\ (forall y, In y (skipn n s) -> strictly dec v y = false) /\ strictly dec v v = false).
  { destruct dec.
    - apply np_min_is in H as [A B]. repeat split; auto.
      + intros. apply Rle_b. auto.
      + intros y Hy. apply Rlt_b_false. eapply strongly_app_rev; [apply rsort_sorted|exact A|exact Hy].
      + apply Rlt_b_false. lra.
    - apply np_max_is in H as [A B]. repeat split; auto.
      + intros. apply Rle_b. auto.
      + intros y Hy. apply Rlt_b_false. eapply sorted_app_le; [|exact A|exact Hy]. rewrite firstn_skipn. apply rsort_sorted.
      + apply Rlt_b_false. lra. }
  destruct Q as (Q1 & Q2 & Q3 & Q4).
  destruct (count_split (at_least dec v) (strictly dec v) _ _ v Q1 Q2 Q4 Q3) as [C D].
  rewrite firstn_skipn in C, D. repeat split.
  - eapply Permutation_in; [symmetry; exact P|].
    rewrite <- (firstn_skipn n s). apply in_or_app. now left.
  - exact C.
  - eapply Nat.lt_le_trans; [exact D|]. rewrite firstn_length. lia.
Qed.

Lemma finite_filter (p : R -> bool) data :
  length (filter (fun o => match o with Some x => p x | None => false end) data) = length (filter p (finite data)).
Proof.
  unfold finite. induction data as [|[x|] t IH]; cbn; [reflexivity| |exact IH].
  destruct (p x); cbn; now rewrite IH.
Qed.
