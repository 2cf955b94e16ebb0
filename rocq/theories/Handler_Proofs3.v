(** What bundles share, and how texts are cut. *)
From Coq Require Import Ascii String Permutation Lia.
From Verif Require Import Base Maps_Model Handler_Model Handler_Spec Handler_Proofs.
Import List. Import ListNotations.
Open Scope string_scope.

Lemma mem_in : forall s l, mem s l = true <-> In s l.
Proof. intros s l. unfold mem. rewrite existsb_exists. split; [intros (x & I & E); apply String.eqb_eq in E; now subst | intro I; exists s; split; [exact I | apply String.eqb_refl]]. Qed.
Lemma mem_out : forall s l, mem s l = false <-> ~ In s l.
Proof. intros. rewrite <- mem_in. destruct (mem s l); intuition congruence. Qed.
Section Iter.
  Variable iter : list string -> list string.
  Hypothesis perm : forall l, Permutation (iter l) l.
  Lemma iter_in : forall x l, In x (iter l) <-> In x l.
  Proof. intros x l. split; apply Permutation_in; [|symmetry]; apply perm. Qed.
  Lemma iter_nil : iter [] = [].
  Proof. apply Permutation_nil. symmetry. apply perm. Qed.
  Lemma iter_one : forall x, iter [x] = [x].
  Proof. intro x. apply Permutation_length_1_inv. symmetry. apply perm. Qed.
  Lemma set_in : forall x l, In x (iter (as_set l)) <-> In x l.
  Proof. intros. rewrite iter_in. apply nodup_In. Qed.
  Lemma set_nodup : forall l, NoDup (iter (as_set l)).
  Proof. intro l. apply (Permutation_NoDup (l := as_set l)); [symmetry; apply perm | apply NoDup_nodup]. Qed.
  Lemma set_one : forall {A} (f : A -> string) bs x, Shared f bs x -> iter (as_set (map f bs)) = [x].
  Proof.
    intros A f bs x [N H]. pose proof (set_nodup (map f bs)) as D. pose proof (fun y => set_in y (map f bs)) as I.
    destruct (iter (as_set (map f bs))) as [|a [|b t]].
    - destruct bs as [|c t]; [easy|]. exfalso. apply (I (f c)). now left.
    - f_equal. assert (In a (map f bs)) as Q by (apply I; now left). apply in_map_iff in Q. destruct Q as (c & <- & Ic). now apply H.
    - exfalso. inversion D; subst. apply H2. left. assert (In a (map f bs)) as Q by (apply I; now left). assert (In b (map f bs)) as Q' by (apply I; right; now left).
      apply in_map_iff in Q, Q'. destruct Q as (c & <- & Ic), Q' as (d & <- & Id). now rewrite (H c), (H d).
  Qed.
  Lemma set_many : forall {A} (f : A -> string) bs, Varies f bs -> exists a b t, iter (as_set (map f bs)) = a :: b :: t.
  Proof.
    intros A f bs (c & d & Ic & Id & N). pose proof (fun y => set_in y (map f bs)) as I.
    pose proof (proj2 (I (f c)) (in_map f _ _ Ic)) as Jc. pose proof (proj2 (I (f d)) (in_map f _ _ Id)) as Jd.
    destruct (iter (as_set (map f bs))) as [|a [|b t]]; [easy | cbn in Jc, Jd; exfalso; intuition congruence | eauto].
  Qed.
  Lemma shared_or_varies : forall {A} (f : A -> string) (bs : list A), bs <> [] -> (exists x, Shared f bs x) \/ Varies f bs.
  Proof.
    intros A f bs N. destruct bs as [|a t]; [easy|]. clear N. induction t as [|b t IH].
    - left. exists (f a). split; [easy|]. now intros ? [<- | []].
    - destruct (string_dec (f b) (f a)) as [E|E].
      + destruct IH as [(x & _ & H) | (c & d & Ic & Id & D)].
        * left. exists x. split; [easy|]. intros y [<- | [<- | Iy]]; [apply H; now left | rewrite E; apply H; now left | apply H; now right].
        * right. exists c, d. cbn in *. tauto.
      + right. exists b, a. cbn. auto.
  Qed.
End Iter.

(* ----- selections of an order ----- *)
Lemma selected_filter : forall l order sel, Selected l order sel <-> sel = filter (fun f => mem f l) order.
Proof.
  induction order as [|x o IH]; intro sel; cbn; split.
  - now inversion 1.
  - intros ->. constructor.
  - inversion 1; subst.
    + rewrite (proj2 (mem_in x l) H2). f_equal. now apply IH.
    + rewrite (proj2 (mem_out x l) H2). now apply IH.
  - destruct (mem x l) eqn:M; intros ->; [apply S_in; [now apply mem_in | now apply IH] | apply S_out; [now apply mem_out | now apply IH]].
Qed.
Lemma filter_same : forall l m order, (forall x, In x l <-> In x m) -> filter (fun f => mem f l) order = filter (fun f => mem f m) order.
Proof.
  intros l m order H. apply filter_ext. intro x. destruct (mem x l) eqn:A, (mem x m) eqn:B; try reflexivity; [apply mem_in in A; apply mem_out in B | apply mem_in in B; apply mem_out in A]; exfalso; firstorder.
Qed.
Lemma band_cases : forall f (P : string -> Prop), In f Bands -> (forall g, In g ["u"; "g"; "r"; "i"; "z"; "y"] -> P g) -> P f.
Proof. intros f P I H. apply H. exact I. Qed.
Lemma band_phrases : forall f, In f Bands -> phrases f = [f] /\ as_set (words f) = [f].
Proof. intros f I. cbn in I. decompose [or] I; subst; try easy; split; reflexivity. Qed.

(* ----- cutting at a text ----- *)
Lemma length_append : forall a b, String.length (a ++ b) = String.length a + String.length b.
Proof. induction a; cbn; intros; auto. Qed.
Lemma prefix_append : forall a b, String.prefix a b = true <-> exists r, b = a ++ r.
Proof.
  induction a as [|x a IH]; intros b.
  - split; [intros _; now exists b | intros _; now destruct b].
  - destruct b as [|y b]; [split; [easy | now intros [r E]]|]. change (String.prefix (String x a) (String y b)) with (if ascii_dec x y then String.prefix a b else false).
    destruct (ascii_dec x y) as [->|N].
    + rewrite IH. split; intros [r E]; exists r; [now rewrite E | now injection E].
    + split; [easy|]. intros [r E]. injection E. congruence.
Qed.
Lemma longer : forall a b c d, a ++ b = c ++ d -> String.length c <= String.length a -> exists r, a = c ++ r.
Proof.
  intros a b c. revert a. induction c as [|x c IH]; intros a d E L; [now exists a|]. destruct a as [|y a]; [cbn in L; lia|].
  cbn in E. injection E as -> E. destruct (IH a d E) as [r ->]; [cbn in L; lia | now exists r].
Qed.
Lemma contains_inside : forall w s, contains w s = true <-> Inside w s.
Proof.
  intros w s. induction s as [|c s IH]; cbn [contains]; rewrite orb_true_iff, prefix_append.
  - split; [intros [[r E] | ?]; [now exists "", r | easy] | intros (a & b & E); left; destruct a; [now exists b | discriminate]].
  - rewrite IH. split.
    + intros [[r E] | (a & b & ->)]; [now exists "", r | now exists (String c a), b].
    + intros (a & b & E). destruct a as [|x a]; [left; now exists b | right; injection E as -> ->; now exists a, b].
Qed.
Lemma split_skip : forall sep a b, split_from sep (String.length a) (a ++ b) = split_from sep 0 b.
Proof. induction a as [|x a IH]; intro b; cbn [String.length append split_from]; auto. Qed.
Lemma split_on_first : forall c sep m rest, ~ Inside (sep ++ String c "") (m ++ sep) ->
  split_on (sep ++ String c "") (m ++ (sep ++ String c "") ++ rest) = m :: split_on (sep ++ String c "") rest.
Proof.
  intros c sep m rest. set (S := sep ++ String c ""). unfold split_on. induction m as [|x m IH]; intro N.
  - cbn [append]. destruct S as [|y S'] eqn:ES; [destruct sep; discriminate|]. cbn [append split_from].
    assert (P : String.prefix (String y S') (String y (S' ++ rest)) = true) by (apply prefix_append; now exists rest). rewrite P.
    replace (String.length (String y S') - 1) with (String.length S') by (cbn; lia). now rewrite split_skip.
  - cbn [append split_from].
    assert (P : String.prefix S (String x (m ++ S ++ rest)) = false).
    { apply not_true_iff_false. rewrite prefix_append. intros [r E]. apply N.
      assert (E2 : (String x m ++ sep) ++ (String c "" ++ rest) = S ++ r).
      { rewrite <- E. unfold S. cbn [append]. f_equal. now rewrite !append_assoc'. }
      destruct (longer _ _ _ _ E2) as [q Q]; [unfold S; rewrite !length_append; cbn; lia|]. exists "", q. exact Q. }
    rewrite P. rewrite IH; [reflexivity|]. intros (a & b & E). apply N. exists (String x a), b. cbn. now rewrite E.
Qed.
Lemma reverse_app : forall a acc b, reverse acc (a ++ b) = reverse (reverse acc a) b.
Proof. induction a; cbn; intros; auto. Qed.
Lemma reverse_acc : forall s acc, reverse acc s = reverse "" s ++ acc.
Proof.
  induction s as [|c s IH]; intro acc; cbn; [reflexivity|]. rewrite IH, (IH (String c "")), append_assoc'. reflexivity.
Qed.
Lemma reverse_reverse : forall s, reverse "" (reverse "" s) = s.
Proof. induction s as [|c s IH]; [reflexivity|]. cbn. rewrite (reverse_acc s (String c "")), reverse_app, IH. reflexivity. Qed.
Lemma lstrip_same : forall s, (forall r, s <> String " " r) -> lstrip s = s.
Proof. intros [|c s] H; [reflexivity|]. destruct (ascii_dec c " ") as [->|N]; [now contradiction (H s)|]. destruct c as [[] [] [] [] [] [] [] []]; try reflexivity. now contradiction N. Qed.
Lemma strip_same : forall s, (forall r, s <> String " " r) -> (forall r, s <> r ++ " ") -> strip s = s.
Proof.
  intros s A B. unfold strip. rewrite (lstrip_same s A), lstrip_same; [apply reverse_reverse|].
  intros r E. apply (B (reverse "" r)). rewrite <- (reverse_reverse s), E. cbn. now rewrite reverse_acc.
Qed.
