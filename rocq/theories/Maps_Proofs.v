(** Lemmas about the maps. *)
From Coq Require Import String Ascii Reals ZArith List Lra Lia Bool.
From Verif Require Import Base Depth_Model Template_Model Sky_Proofs Maps_Model Maps_Spec.
Import ListNotations.
Open Scope R_scope.

Lemma take_spec {A} (l : list A) ix out : take l ix = Ok out <-> ValuesAt l ix out.
Proof.
  revert out. induction ix as [|i t IH]; intros out; simpl.
  - split; intro H; [injection H as <-; constructor | inversion H; reflexivity].
  - unfold arr_get. destruct (nth_error l i) as [x|] eqn:E; simpl.
    + destruct (take l t) as [r|e] eqn:Et; simpl.
      * split; intro H.
        -- injection H as <-. constructor; [exact E | now apply IH].
        -- inversion H; subst. assert (x = y) by congruence. subst. apply IH in H4. now injection H4 as ->.
      * split; intro H; [discriminate|]. inversion H; subst. now apply IH in H4.
    + split; intro H; [discriminate|]. inversion H; subst. congruence.
Qed.
Lemma take_err {A} (l : list A) ix e : take l ix = Err e -> e = IndexError.
Proof.
  induction ix as [|i t IH]; simpl; [discriminate|]. unfold arr_get. destruct (nth_error l i); simpl; [|congruence].
  destruct (take l t); simpl; [discriminate|]. intro H. injection H as <-. now apply IH.
Qed.
Lemma take_dec {A} (l : list A) ix : (exists out, take l ix = Ok out) \/ take l ix = Err IndexError.
Proof. destruct (take l ix) as [o|e] eqn:E; [left; eauto | right; now rewrite (take_err _ _ _ E)]. Qed.
Lemma values_length {A} (l : list A) ix out : ValuesAt l ix out -> length out = length ix.
Proof. induction 1; simpl; auto. Qed.
Lemma values_nth {A} (l : list A) ix out k : ValuesAt l ix out -> nth_error out k = match nth_error ix k with Some i => nth_error l i | None => None end.
Proof.
  intro H. revert k. induction H; intros [|k]; simpl; auto.
Qed.
Lemma values_all {A} (l : list A) : ValuesAt l (seq 0 (length l)) l.
Proof.
  assert (H : forall pre, Forall2 (fun i x => nth_error (pre ++ l) i = Some x) (seq (length pre) (length l)) l).
  { induction l as [|x t IH]; intro pre; simpl; constructor.
    - rewrite nth_error_app2 by lia. now rewrite Nat.sub_diag.
    - specialize (IH (pre ++ [x])). rewrite app_length in IH. simpl in IH. rewrite Nat.add_1_r in IH.
      now rewrite <- app_assoc in IH. }
  exact (H []).
Qed.

Lemma dget_dset_same {V} (d : list (string * V)) k v : dget String.eqb (dset String.eqb d k v) k = Some v.
Proof.
  induction d as [|[k' v'] t IH]; simpl; [now rewrite String.eqb_refl|].
  destruct (String.eqb k k') eqn:E; simpl; rewrite E; auto.
Qed.
Lemma dget_dset_other {V} (d : list (string * V)) k k2 v : k2 <> k -> dget String.eqb (dset String.eqb d k v) k2 = dget String.eqb d k2.
Proof.
  intro N. induction d as [|[k' v'] t IH]; simpl.
  - apply String.eqb_neq in N. now rewrite N.
  - destruct (String.eqb k k') eqn:E; simpl.
    + apply String.eqb_eq in E. subst. apply String.eqb_neq in N. now rewrite N.
    + destruct (String.eqb k2 k'); auto.
Qed.

(** sums with weights *)
Lemma wsum_rsum m ws v : WSum m ws v -> v = rsum (map (fun n => snd n * nth (fst n) m 0) ws).
Proof.
  induction 1; simpl; [reflexivity|]. rewrite IHWSum. f_equal. f_equal.
  symmetry. now apply nth_error_nth.
Qed.
Lemma wsum_exists m ws : Forall (fun w => (fst w < length m)%nat) ws -> WSum m ws (rsum (map (fun n => snd n * nth (fst n) m 0) ws)).
Proof.
  induction 1 as [|[i w] ws L _ IH]; simpl; constructor; auto. simpl in L.
  apply nth_error_nth' with (d := 0) in L. exact L.
Qed.
Lemma wsum_bounds m ws v lo hi : (forall x, In x m -> lo <= x <= hi) -> Forall (fun w => 0 <= snd w) ws ->
  forall s, Sum (map snd ws) s -> WSum m ws v -> s * lo <= v <= s * hi.
Proof.
  intros B F s HS HW. revert s HS. induction HW as [|i w x ws v E W IH]; intros s HS; simpl in HS.
  - inversion HS; lra.
  - inversion HS as [|? ? s' HS']; subst. inversion F as [|? ? P F']; subst. simpl in P.
    specialize (IH F' _ HS'). pose proof (B _ (nth_error_In _ _ E)) as [B1 B2].
    assert (w * lo <= w * x) by (apply Rmult_le_compat_l; lra).
    assert (w * x <= w * hi) by (apply Rmult_le_compat_l; lra). lra.
Qed.

(** the nearest entry *)
Lemma argmin_from_spec l : forall pre best at_, nth_error pre at_ = Some best ->
  (forall j b, nth_error pre j = Some b -> best <= b) -> (forall j b, (j < at_)%nat -> nth_error pre j = Some b -> best < b) ->
  exists a, nth_error (pre ++ l) (argmin_from best at_ (length pre) l) = Some a
    /\ (forall j b, nth_error (pre ++ l) j = Some b -> a <= b)
    /\ (forall j b, (j < argmin_from best at_ (length pre) l)%nat -> nth_error (pre ++ l) j = Some b -> a < b).
Proof.
  induction l as [|x t IH]; intros pre best at_ E H1 H2; simpl.
  - rewrite app_nil_r. exists best. auto.
  - assert (P : pre ++ x :: t = (pre ++ [x]) ++ t) by now rewrite <- app_assoc.
    assert (L : (at_ < length pre)%nat) by (apply nth_error_Some; congruence).
    assert (SL : S (length pre) = length (pre ++ [x])) by (rewrite app_length; simpl; lia).
    rewrite P, SL. destruct (rltb x best) eqn:Ex.
    + apply rltb_true in Ex. apply (IH (pre ++ [x]) x (length pre)).
      * rewrite nth_error_app2 by lia. now rewrite Nat.sub_diag.
      * intros j b. destruct (lt_dec j (length pre)) as [Lj|Lj].
        -- rewrite nth_error_app1 by lia. intro Hj. specialize (H1 _ _ Hj). lra.
        -- rewrite nth_error_app2 by lia. destruct (j - length pre)%nat as [|k]; simpl; [|destruct k; discriminate].
           intro Hj. injection Hj as ->. lra.
      * intros j b Lj. rewrite nth_error_app1 by lia. intro Hj. specialize (H1 _ _ Hj). lra.
    + apply rltb_false in Ex. apply (IH (pre ++ [x]) best at_).
      * now rewrite nth_error_app1 by lia.
      * intros j b. destruct (lt_dec j (length pre)) as [Lj|Lj].
        -- rewrite nth_error_app1 by lia. apply H1.
        -- rewrite nth_error_app2 by lia. destruct (j - length pre)%nat as [|k]; simpl; [|destruct k; discriminate].
           intro Hj. injection Hj as ->. exact Ex.
      * intros j b Lj. rewrite nth_error_app1 by lia. now apply H2.
Qed.
Lemma argmin_spec l i : argmin l = Ok i ->
  exists a, nth_error l i = Some a /\ (forall j b, nth_error l j = Some b -> a <= b)
    /\ (forall j b, (j < i)%nat -> nth_error l j = Some b -> a < b).
Proof.
  destruct l as [|x t]; simpl; [discriminate|]. intro H. injection H as <-.
  apply (argmin_from_spec t [x] x 0).
  - reflexivity.
  - intros [|j] b; simpl; [intro H; injection H as ->; lra | destruct j; discriminate].
  - intros j b L. lia.
Qed.
Lemma argmin_nearest x goal i : argmin (map (fun v => Rabs (v - goal)) x) = Ok i -> FirstNearest x goal i.
Proof.
  intro H. destruct (argmin_spec _ _ H) as (a & E & M & F). rewrite nth_error_map in E.
  destruct (nth_error x i) as [y|] eqn:Ey; [|discriminate]. simpl in E. injection E as <-.
  exists y. split; [exact Ey|]. split.
  - intros j b Hj. apply (M j). now rewrite nth_error_map, Hj.
  - intros j b L Hj. apply (F j); auto. now rewrite nth_error_map, Hj.
Qed.
Lemma argmin_some l : l <> [] -> exists i, argmin l = Ok i.
Proof. destruct l; [now intro H|]. simpl. eauto. Qed.
Lemma first_nearest_unique x goal i j : FirstNearest x goal i -> FirstNearest x goal j -> i = j.
Proof.
  intros (a & Ea & Ma & Fa) (b & Eb & Mb & Fb).
  destruct (lt_eq_lt_dec i j) as [[L|L]|L]; auto.
  - specialize (Fb _ _ L Ea). specialize (Ma _ _ Eb). lra.
  - specialize (Fa _ _ L Eb). specialize (Mb _ _ Ea). lra.
Qed.
Lemma nearest_spec x y goal a b : nearest x y goal = Ok (a, b) <->
  exists i, FirstNearest x goal i /\ nth_error x i = Some a /\ nth_error y i = Some b.
Proof.
  unfold nearest. split.
  - destruct (argmin _) as [i|e] eqn:E; simpl; [|discriminate]. unfold arr_get.
    destruct (nth_error x i) as [u|] eqn:Ex; simpl; [|discriminate].
    destruct (nth_error y i) as [v|] eqn:Ey; simpl; [|discriminate]. intro H. injection H as <- <-.
    exists i. split; [now apply argmin_nearest | auto].
  - intros (i & F & Ea & Eb). destruct (argmin_some (map (fun v => Rabs (v - goal)) x)) as [j Ej].
    { destruct x; [destruct i; discriminate | discriminate]. }
    pose proof (first_nearest_unique _ _ _ _ F (argmin_nearest _ _ _ Ej)) as <-.
    rewrite Ej. simpl. unfold arr_get. now rewrite Ea, Eb.
Qed.
Lemma nearest_exists x y goal : x <> [] -> length y = length x -> exists p, nearest x y goal = Ok p.
Proof.
  intros N L. destruct (argmin_some (map (fun v => Rabs (v - goal)) x)) as [i Ei]; [destruct x; [congruence | discriminate]|].
  destruct (argmin_nearest _ _ _ Ei) as (a & Ea & _).
  assert (exists b, nth_error y i = Some b) as [b Eb].
  { assert (i < length y)%nat by (rewrite L; apply nth_error_Some; congruence). destruct (nth_error y i) eqn:E; eauto.
    apply nth_error_None in E. lia. }
  exists (a, b). unfold nearest. rewrite Ei. simpl. unfold arr_get. now rewrite Ea, Eb.
Qed.

Lemma fold_rmax l a : forall x, In x (a :: l) -> x <= fold_left Rmax l a.
Proof.
  revert a. induction l as [|y t IH]; simpl; intros a x H.
  - destruct H as [<-|[]]. lra.
  - destruct H as [<-|H].
    + eapply Rle_trans; [apply Rmax_l|]. apply IH. now left.
    + destruct H as [<-|H]; [eapply Rle_trans; [apply Rmax_r|]; apply IH; now left | apply IH; now right].
Qed.
Lemma fold_rmax_in l a : In (fold_left Rmax l a) (a :: l).
Proof.
  revert a. induction l as [|y t IH]; simpl; intros a; [now left|].
  destruct (IH (Rmax a y)) as [H|H]; [|right; now right].
  rewrite <- H. unfold Rmax. destruct (Rle_dec a y); [right; now left | now left].
Qed.
