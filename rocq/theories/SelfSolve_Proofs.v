(** Proofs: cleaning the observations. *)
From Coq Require Import Reals Permutation Sorted Lia.
From Verif Require Import Base Technical_Model SelfSolve_Model SelfSolve_Spec.
Open Scope Z_scope.

(** * Positions *)
Lemma seq_nth_map : forall {A} (d : A) l, map (fun i => nth i l d) (seq 0 (length l)) = l.
Proof.
  intros A d l. induction l as [|x t IH]; [reflexivity|]. cbn [length seq map nth]. f_equal.
  rewrite <- seq_shift, map_map. exact IH.
Qed.
Lemma filter_map : forall {A B} (g : A -> B) f l, filter f (map g l) = map g (filter (fun x => f (g x)) l).
Proof. intros A B g f l. induction l as [|x t IH]; [reflexivity|]. cbn. destruct (f (g x)); cbn; rewrite IH; reflexivity. Qed.
Lemma combine_map2 : forall {A B C} (f : A -> B) (g : A -> C) l, combine (map f l) (map g l) = map (fun x => (f x, g x)) l.
Proof. intros A B C f g l. induction l as [|x t IH]; [reflexivity|]. cbn. rewrite IH. reflexivity. Qed.
Definition prev (n i : nat) : nat := match i with O => (n - 1)%nat | S j => j end.
Definition next (n i : nat) : nat := if Nat.eqb (S i) n then O else S i.
Lemma roll_fwd_at : forall (l : list Z), roll_fwd l = map (fun i => nth (prev (length l) i) l 0) (seq 0 (length l)).
Proof.
  intros l. destruct (rev l) as [|x t] eqn:E.
  - apply (f_equal (@rev Z)) in E. rewrite rev_involutive in E. subst. reflexivity.
  - unfold roll_fwd. rewrite E. apply (f_equal (@rev Z)) in E. rewrite rev_involutive in E. cbn [rev] in E. subst l.
    rewrite app_length. cbn [length]. rewrite Nat.add_1_r. cbn [seq map prev]. f_equal.
    + rewrite app_nth2; [|lia]. replace (S (length (rev t)) - 1 - length (rev t))%nat with O by lia. reflexivity.
    + rewrite <- seq_shift, map_map. cbn [prev].
      rewrite <- (seq_nth_map 0 (rev t)) at 1. apply map_ext_in. intros i I. apply in_seq in I. rewrite app_nth1; [reflexivity|lia].
Qed.
Lemma roll_back_at : forall (l : list Z), roll_back l = map (fun i => nth (next (length l) i) l 0) (seq 0 (length l)).
Proof.
  intros l. destruct l as [|x t]; [reflexivity|]. unfold roll_back. cbn [length].
  rewrite seq_S, map_app. f_equal.
  - rewrite <- (seq_nth_map 0 t) at 1. apply map_ext_in. intros i I. apply in_seq in I. unfold next.
    destruct (Nat.eqb_spec (S i) (S (length t))); [lia|]. reflexivity.
  - cbn [map]. unfold next. rewrite Nat.add_0_l, Nat.eqb_refl. reflexivity.
Qed.
Definition d0 : obs := {| o_id := 0; o_patch := 0; o_mag := 0%R; o_unc := 0%R |}.
(** rows of which the key occurs twice *)
Definition twin (key : obs -> Z) (l : list obs) (o : obs) : bool := Nat.leb 2 (length (filter (fun p => key p =? key o) l)).

Lemma sorted_nth : forall (key : obs -> Z) l, StronglySorted (fun a b => key a <= key b) l ->
  forall i j, (i <= j)%nat -> (j < length l)%nat -> key (nth i l d0) <= key (nth j l d0).
Proof.
  intros key l S. induction S as [|x t S IH F]; intros i j L J; [cbn in J; lia|].
  destruct i as [|i], j as [|j]; cbn [nth]; try lia.
  - rewrite Forall_forall in F. apply F. apply nth_In. cbn in J. lia.
  - apply IH; cbn in J; lia.
Qed.
Lemma twin_split : forall key pre o post, twin key (pre ++ o :: post) o = true <-> exists p, In p (pre ++ post) /\ key p = key o.
Proof.
  intros key pre o post. unfold twin. rewrite Nat.leb_le, filter_app. cbn [filter]. rewrite Z.eqb_refl, app_length. cbn [length].
  split.
  - intros H. destruct (filter (fun p => key p =? key o) (pre ++ post)) as [|p q] eqn:E.
    + rewrite filter_app in E. apply (f_equal (@length obs)) in E. rewrite app_length in E. cbn [length] in E. lia.
    + exists p. assert (I : In p (filter (fun p => key p =? key o) (pre ++ post))) by (rewrite E; left; reflexivity).
      apply filter_In in I. destruct I as [I K]. split; [exact I|apply Z.eqb_eq; exact K].
  - intros [p [I K]]. assert (X : In p (filter (fun p => key p =? key o) (pre ++ post))) by (apply filter_In; split; [exact I|apply Z.eqb_eq; exact K]).
    rewrite filter_app in X. apply in_split in X. destruct X as [u [v E]]. apply (f_equal (@length obs)) in E. rewrite !app_length in E. cbn [length] in E. lia.
Qed.
Lemma split_at : forall {A} (d : A) l i, (i < length l)%nat -> exists pre post, l = pre ++ nth i l d :: post /\ length pre = i.
Proof. intros A d l i H. destruct (nth_split l d H) as [p [q [E L]]]. exists p, q. split; assumption. Qed.
Lemma twin_at : forall key l i, (i < length l)%nat ->
  (twin key l (nth i l d0) = true <-> exists j, (j < length l)%nat /\ j <> i /\ key (nth j l d0) = key (nth i l d0)).
Proof.
  intros key l i H. destruct (split_at d0 l i H) as [pre [post [E L]]].
  assert (T : twin key l (nth i l d0) = twin key (pre ++ nth i l d0 :: post) (nth i l d0)) by (rewrite <- E; reflexivity).
  rewrite T. clear T. set (o := nth i l d0) in *. clearbody o. rewrite twin_split. subst l.
  rewrite app_length in *. cbn [length] in *. split.
  - intros [p [I K]]. apply in_app_iff in I. destruct I as [I|I]; apply (In_nth _ _ d0) in I; destruct I as [j [J N]].
    + exists j. split; [lia|]. split; [lia|]. rewrite app_nth1 by lia. rewrite N. exact K.
    + exists (S (length pre + j)). split; [lia|]. split; [lia|]. rewrite app_nth2 by lia.
      replace (S (length pre + j) - length pre)%nat with (S j) by lia. cbn [nth]. rewrite N. exact K.
  - intros [j [J [D K]]]. exists (nth j (pre ++ o :: post) d0). split; [|exact K]. apply in_app_iff.
    destruct (Nat.lt_ge_cases j (length pre)) as [B|B].
    + left. rewrite app_nth1 by exact B. apply nth_In. exact B.
    + right. rewrite app_nth2 by exact B. destruct (j - length pre)%nat as [|m] eqn:M; [lia|]. cbn [nth]. apply nth_In. lia.
Qed.
Lemma int64_zero_iff : forall a b, Z.abs a < 2 ^ 32 -> Z.abs b < 2 ^ 32 -> (int64_zero (a * b) = true <-> a = 0 \/ b = 0).
Proof.
  intros a b A B. unfold int64_zero. rewrite Z.eqb_eq. split.
  - intros H. apply Z.eq_mul_0. apply Z.mod_divide in H; [|discriminate]. destruct H as [k K].
    destruct (Z.eq_dec k 0) as [->|N]; [lia|]. exfalso.
    assert (X : Z.abs (a * b) < 2 ^ 64).
    { rewrite Z.abs_mul. change (2 ^ 64) with (2 ^ 32 * 2 ^ 32). apply Z.mul_lt_mono_nonneg; lia. }
    rewrite K, Z.abs_mul in X. change (Z.abs (2 ^ 64)) with (2 ^ 64) in X.
    assert (Y : 1 * 2 ^ 64 <= Z.abs k * 2 ^ 64) by (apply Z.mul_le_mono_nonneg_r; lia). lia.
  - intros [-> | ->]; [|rewrite Z.mul_0_r]; reflexivity.
Qed.
Lemma bool_iff : forall a b : bool, (a = true <-> b = true) -> a = b.
Proof. intros a b H. destruct a, b; try reflexivity; destruct H as [H H']; [symmetry; apply H|apply H']; reflexivity. Qed.

Lemma keep_sorted : forall key l, StronglySorted (fun a b => key a <= key b) l -> near key l -> length l <> 1%nat ->
  keep key l = filter (twin key l) l.
Proof.
  intros key l S N L. unfold keep. set (n := length l).
  assert (E : combine l (combine (roll_fwd (map key l)) (roll_back (map key l))) =
              map (fun i => (nth i l d0, (nth (prev n i) (map key l) 0, nth (next n i) (map key l) 0))) (seq 0 n)).
  { rewrite roll_fwd_at, roll_back_at, map_length, combine_map2. fold n. rewrite <- (seq_nth_map d0 l) at 1. fold n. rewrite combine_map2. reflexivity. }
  cbv zeta. rewrite E, filter_map, map_map. cbn [fst snd]. clear E.
  transitivity (map (fun i => nth i l d0) (filter (fun i => twin key l (nth i l d0)) (seq 0 n))).
  - f_equal. apply filter_ext_in. intros i I. apply in_seq in I. destruct I as [_ I]. rewrite Nat.add_0_l in I.
    assert (P : (prev n i < n)%nat) by (unfold prev; destruct i; lia).
    assert (Q : (next n i < n)%nat) by (unfold next; destruct (Nat.eqb_spec (Datatypes.S i) n); lia).
    assert (K : forall j, (j < n)%nat -> nth j (map key l) 0 = key (nth j l d0)).
    { intros j J. rewrite (nth_indep _ 0 (key d0)); [apply map_nth|rewrite map_length; exact J]. }
    rewrite !K by assumption. apply bool_iff.
    assert (W : forall j, (j < n)%nat -> In (nth j l d0) l) by (intros j J; apply nth_In; exact J).
    rewrite int64_zero_iff by (apply N; apply W; assumption). rewrite twin_at by exact I. split.
    + intros [H|H].
      * exists (prev n i). split; [exact P|]. split; [unfold prev; destruct i; lia|lia].
      * exists (next n i). split; [exact Q|]. split; [unfold next; destruct (Nat.eqb_spec (Datatypes.S i) n); lia|lia].
    + intros [j [J [D H]]]. fold n in J.
      assert (M : forall a b, (a <= b)%nat -> (b < n)%nat -> key (nth a l d0) <= key (nth b l d0)) by (intros a b; apply sorted_nth; exact S).
      destruct (Nat.lt_ge_cases j i) as [B|B].
      * left. destruct i as [|i]; [lia|]. cbn [prev]. assert (U := M j i). assert (V := M i (Datatypes.S i)). lia.
      * right. assert (F : (i < j)%nat) by lia. unfold next. destruct (Nat.eqb_spec (Datatypes.S i) n); [lia|].
        assert (U := M i (Datatypes.S i)). assert (V := M (Datatypes.S i) j). lia.
  - rewrite <- (filter_map (fun i => nth i l d0) (twin key l)). unfold n. rewrite seq_nth_map. reflexivity.
Qed.

(** * Parts *)
Lemma filter_perm : forall {A} (f : A -> bool) l l', Permutation l l' -> Permutation (filter f l) (filter f l').
Proof.
  intros A f l l' P. induction P as [|x a b P IH|x y a|a b c P1 IH1 P2 IH2]; cbn.
  - constructor.
  - destruct (f x); [constructor; exact IH|exact IH].
  - destruct (f x), (f y); try apply Permutation_refl. apply perm_swap.
  - eapply Permutation_trans; eassumption.
Qed.
Lemma filter_both : forall {A} (f : A -> bool) l, Permutation l (filter f l ++ filter (fun x => negb (f x)) l).
Proof.
  intros A f l. induction l as [|x t IH]; [constructor|]. cbn. destruct (f x); cbn.
  - constructor. exact IH.
  - eapply Permutation_trans; [apply perm_skip; exact IH|]. apply Permutation_middle.
Qed.
Lemma filter_all : forall {A} (f : A -> bool) l, (forall x, In x l -> f x = true) -> filter f l = l.
Proof.
  intros A f l H. induction l as [|x t IH]; [reflexivity|]. cbn. rewrite H by (left; reflexivity). f_equal. apply IH. intros y I. apply H. right. exact I.
Qed.
Lemma filter_same_length : forall {A} (f : A -> bool) l, length (filter f l) = length l -> filter f l = l.
Proof.
  intros A f l. induction l as [|x t IH]; [reflexivity|]. cbn. destruct (f x); cbn; intros H; [f_equal; apply IH; lia|].
  assert (X : (length (filter f t) <= length t)%nat) by (clear; induction t as [|y s K]; [cbn; lia|cbn; destruct (f y); cbn; lia]). lia.
Qed.
Lemma filter_short : forall {A} (f : A -> bool) l, (length (filter f l) <= length l)%nat.
Proof. intros A f t. induction t as [|y s K]; [cbn; lia|cbn; destruct (f y); cbn; lia]. Qed.
Lemma twin_perm : forall key l l' o, Permutation l l' -> twin key l o = twin key l' o.
Proof. intros key l l' o P. unfold twin. rewrite (Permutation_length (filter_perm _ _ _ P)). reflexivity. Qed.
Lemma part_refl : forall l, part_of l l.
Proof. intros l. exists []. rewrite app_nil_r. apply Permutation_refl. Qed.
Lemma part_trans : forall a b c, part_of a b -> part_of b c -> part_of a c.
Proof.
  intros a b c [r P] [s Q]. exists (r ++ s). eapply Permutation_trans; [exact Q|]. rewrite app_assoc. apply Permutation_app_tail. exact P.
Qed.
Lemma part_perm : forall a b b', Permutation b b' -> part_of a b -> part_of a b'.
Proof. intros a b b' P [r Q]. exists r. eapply Permutation_trans; [apply Permutation_sym; exact P|exact Q]. Qed.
Lemma part_in : forall a b x, part_of a b -> In x a -> In x b.
Proof. intros a b x [r P] I. apply (Permutation_in x (Permutation_sym P)). apply in_app_iff. left. exact I. Qed.
Lemma part_filter : forall f l, part_of (filter f l) l.
Proof. intros f l. exists (filter (fun x => negb (f x)) l). apply filter_both. Qed.
Lemma near_part : forall key a b, part_of a b -> near key b -> near key a.
Proof. intros key a b P N o p I J. apply N; apply (part_in _ _ _ P); assumption. Qed.
Lemma twice_twin : forall l, seen_twice l <-> forall o, In o l -> twin o_id l o = true /\ twin o_patch l o = true.
Proof.
  intros l. split.
  - intros T o I. apply in_split in I. destruct I as [p [q ->]]. destruct (T p o q eq_refl) as [A B]. split; apply twin_split; assumption.
  - intros H p o q ->. destruct (H o) as [A B]; [apply in_app_iff; right; left; reflexivity|]. split; apply twin_split; assumption.
Qed.
Lemma twin_part : forall key a b o, part_of a b -> twin key a o = true -> twin key b o = true.
Proof.
  intros key a b o [r P]. unfold twin. rewrite !Nat.leb_le. intros H. rewrite (Permutation_length (filter_perm _ _ _ P)), filter_app, app_length. lia.
Qed.
(** a part in which everything has a twin survives *)
Lemma part_survives : forall key m l, part_of m l -> (forall o, In o m -> twin key m o = true) -> part_of m (filter (twin key l) l).
Proof.
  intros key m l P T. pose proof P as Q. destruct Q as [r Q]. exists (filter (twin key l) r).
  eapply Permutation_trans; [apply (filter_perm (twin key l) _ _ Q)|]. rewrite filter_app.
  rewrite (filter_all _ m); [apply Permutation_refl|]. intros o I. apply (twin_part key m); [exact P|apply T; exact I].
Qed.
Lemma filter_twin_not_one : forall key l, length (filter (twin key l) l) <> 1%nat.
Proof.
  intros key l H. destruct (filter (twin key l) l) as [|o [|? ?]] eqn:E; try discriminate H.
  assert (I : In o (filter (twin key l) l)) by (rewrite E; left; reflexivity). apply filter_In in I. destruct I as [_ T].
  pose proof T as T0. unfold twin in T. apply Nat.leb_le in T.
  assert (X : filter (fun p => key p =? key o) (filter (twin key l) l) = filter (fun p => key p =? key o) l).
  { assert (G : forall w v, twin key w o = true -> filter (fun p => key p =? key o) (filter (twin key w) v) = filter (fun p => key p =? key o) v);
      [|apply G; exact T0]. clear. intros w l T0.
    induction l as [|p t IH]; [reflexivity|]. cbn [filter]. destruct (key p =? key o) eqn:K.
    - assert (TP : twin key w p = true) by (apply Z.eqb_eq in K; unfold twin in *; rewrite K; exact T0).
      rewrite TP. cbn [filter]. rewrite K. f_equal. exact IH.
    - destruct (twin key w p); cbn [filter]; [rewrite K|]; exact IH. }
  rewrite E in X. cbn in X. rewrite Z.eqb_refl in X. rewrite <- X in T. cbn in T. lia.
Qed.

(** * A pass and the loop *)
Section Clean.
  Context (sort : (obs -> Z) -> list obs -> list obs) (HS : sorts sort).
  Lemma sort_perm : forall key l, Permutation (sort key l) l.
  Proof. intros key l. apply HS. Qed.
  Lemma sort_sorted : forall key l, StronglySorted (fun a b => key a <= key b) (sort key l).
  Proof. intros key l. apply HS. Qed.
  Lemma sort_part : forall key l, part_of (sort key l) l.
  Proof. intros key l. exists []. rewrite app_nil_r. apply Permutation_sym, sort_perm. Qed.
  Lemma sort_keep : forall key l, near key l -> length l <> 1%nat -> keep key (sort key l) = filter (twin key l) (sort key l).
  Proof.
    intros key l N L. rewrite keep_sorted.
    - apply filter_ext. intros o. apply twin_perm, sort_perm.
    - apply sort_sorted.
    - apply (near_part key _ l); [apply sort_part|exact N].
    - rewrite (Permutation_length (sort_perm key l)). exact L.
  Qed.
  Lemma sort_keep_perm : forall key l, near key l -> length l <> 1%nat -> Permutation (keep key (sort key l)) (filter (twin key l) l).
  Proof. intros key l N L. rewrite sort_keep by assumption. apply filter_perm, sort_perm. Qed.
  Lemma pass_facts : forall l, near o_id l -> near o_patch l -> length l <> 1%nat ->
    let l1 := filter (twin o_id l) l in
    Permutation (one_pass sort l) (filter (twin o_patch l1) l1) /\ length (one_pass sort l) <> 1%nat.
  Proof.
    intros l NI NP L l1. unfold one_pass.
    assert (P1 := sort_keep_perm o_id l NI L). fold l1 in P1. set (k1 := keep o_id (sort o_id l)) in *. clearbody k1.
    assert (L1 : length k1 <> 1%nat) by (rewrite (Permutation_length P1); apply filter_twin_not_one).
    assert (PK : part_of k1 l).
    { apply (part_trans _ l1); [exists []; rewrite app_nil_r; apply Permutation_sym; exact P1|apply part_filter]. }
    assert (P2 := sort_keep_perm o_patch k1 (near_part _ _ _ PK NP) L1). split.
    - eapply Permutation_trans; [exact P2|]. eapply Permutation_trans; [apply (filter_perm _ _ _ P1)|].
      rewrite (filter_ext _ (twin o_patch l1)); [apply Permutation_refl|]. intros o. apply twin_perm. exact P1.
    - rewrite (Permutation_length P2). apply filter_twin_not_one.
  Qed.
  Lemma pass_part : forall l, near o_id l -> near o_patch l -> length l <> 1%nat -> part_of (one_pass sort l) l.
  Proof.
    intros l NI NP L. destruct (pass_facts l NI NP L) as [P _]. cbv zeta in P.
    apply (part_trans _ (filter (twin o_id l) l)); [|apply part_filter].
    apply (part_trans _ (filter (twin o_patch (filter (twin o_id l) l)) (filter (twin o_id l) l))); [|apply part_filter].
    exists []. rewrite app_nil_r. apply Permutation_sym. exact P.
  Qed.
  Lemma pass_survives : forall l m, near o_id l -> near o_patch l -> length l <> 1%nat -> part_of m l -> seen_twice m -> part_of m (one_pass sort l).
  Proof.
    intros l m NI NP L P T. destruct (pass_facts l NI NP L) as [Q _]. cbv zeta in Q. apply (part_perm _ _ _ (Permutation_sym Q)).
    rewrite twice_twin in T. apply part_survives; [|intros o I; apply T; exact I].
    apply part_survives; [exact P|intros o I; apply T; exact I].
  Qed.
  Lemma pass_fixed : forall l, near o_id l -> near o_patch l -> length l <> 1%nat -> length (one_pass sort l) = length l ->
    Permutation (one_pass sort l) l /\ seen_twice (one_pass sort l).
  Proof.
    intros l NI NP L E. destruct (pass_facts l NI NP L) as [Q _]. cbv zeta in Q. rewrite (Permutation_length Q) in E.
    assert (E1 : filter (twin o_id l) l = l).
    { apply filter_same_length. assert (A := filter_short (twin o_id l) l). assert (B := filter_short (twin o_patch (filter (twin o_id l) l)) (filter (twin o_id l) l)). lia. }
    rewrite E1 in E, Q. assert (E2 := filter_same_length _ _ E). rewrite E2 in Q. split; [exact Q|].
    apply twice_twin. intros o I. apply (Permutation_in o Q) in I. split.
    - rewrite (twin_perm _ _ _ _ Q). assert (J : In o (filter (twin o_id l) l)) by (rewrite E1; exact I). apply filter_In in J. tauto.
    - rewrite (twin_perm _ _ _ _ Q). assert (J : In o (filter (twin o_patch l) l)) by (rewrite E2; exact I). apply filter_In in J. tauto.
  Qed.
  Lemma loop_core : forall fuel l, (length l < fuel)%nat -> near o_id l -> near o_patch l -> length l <> 1%nat ->
    exists r, clean_loop sort fuel l = Some r /\ core l r.
  Proof.
    induction fuel as [|f IH]; intros l F NI NP L; [lia|]. cbn [clean_loop]. cbv zeta.
    assert (PP := pass_part l NI NP L). destruct (Nat.eqb_spec (length (one_pass sort l)) (length l)) as [E|E].
    - exists (one_pass sort l). split; [reflexivity|]. destruct (pass_fixed l NI NP L E) as [P T]. split; [exact PP|]. split; [exact T|].
      intros m M _. apply (part_perm _ _ _ (Permutation_sym P)). exact M.
    - destruct (IH (one_pass sort l)) as [r [R [C1 [C2 C3]]]].
      + destruct PP as [s P]. assert (X := Permutation_length P). rewrite app_length in X. lia.
      + apply (near_part _ _ _ PP NI).
      + apply (near_part _ _ _ PP NP).
      + apply (pass_facts l NI NP L).
      + exists r. split; [exact R|]. split; [apply (part_trans _ _ _ C1 PP)|]. split; [exact C2|].
        intros m M T. apply C3; [|exact T]. apply pass_survives; assumption.
  Qed.
  (** and always ends *)
  Lemma keep_short : forall key l, (length (keep key l) <= length l)%nat.
  Proof.
    intros key l. unfold keep. cbv zeta. rewrite map_length. etransitivity; [apply filter_short|]. rewrite combine_length. lia.
  Qed.
  Lemma pass_short : forall l, (length (one_pass sort l) <= length l)%nat.
  Proof.
    intros l. unfold one_pass. etransitivity; [apply keep_short|]. rewrite (Permutation_length (sort_perm _ _)).
    etransitivity; [apply keep_short|]. rewrite (Permutation_length (sort_perm _ _)). lia.
  Qed.
  Lemma loop_ends : forall fuel l, (length l < fuel)%nat -> clean_loop sort fuel l <> None.
  Proof.
    induction fuel as [|f IH]; intros l F; [lia|]. cbn [clean_loop]. cbv zeta.
    destruct (Nat.eqb_spec (length (one_pass sort l)) (length l)) as [E|E]; [discriminate|]. apply IH. assert (X := pass_short l). lia.
  Qed.
End Clean.
