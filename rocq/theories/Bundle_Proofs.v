From Verif Require Import Base Bundle_Model Bundle_Spec.
From Coq Require Import Lia Permutation.

(** * Lists *)
Lemma set_nth_length {A} (l : list A) i x : length (set_nth l i x) = length l.
Proof. revert i; induction l as [|h t IH]; intros [|i]; simpl; auto. Qed.

Lemma set_nth_same {A} (l : list A) i x : i < length l -> nth_error (set_nth l i x) i = Some x.
Proof. revert i; induction l as [|h t IH]; intros [|i]; simpl; intros H; try lia; auto. apply IH; lia. Qed.

Lemma set_nth_other {A} (l : list A) i j x : i <> j -> nth_error (set_nth l i x) j = nth_error l j.
Proof.
  revert i j; induction l as [|h t IH]; intros [|i] [|j]; simpl; intros H; auto; try lia.
Qed.

Lemma arr_set_ok {A} (l : list A) i x l' :
  arr_set l i x = Ok l' -> i < length l /\ l' = set_nth l i x.
Proof.
  unfold arr_set. destruct (Nat.ltb_spec i (length l)); intros H0; inversion H0; auto.
Qed.

(** * Compatibility *)
Lemma stacker_eqb_spec s1 s2 :
  stacker_eqb s1 s2 = true <-> st_class s1 = st_class s2 /\ st_attrs s1 = st_attrs s2.
Proof.
  unfold stacker_eqb. destruct (String.eqb_spec (st_class s1) (st_class s2)); simpl.
  - rewrite Z.eqb_eq. tauto.
  - split; [discriminate | tauto].
Qed.

Lemma check_compatible_spec b1 b2 :
  check_compatible b1 b2 = true <-> compatible_bundles b1 b2.
Proof.
  unfold check_compatible, compatible_bundles.
  destruct (String.eqb_spec (b_constraint b1) (b_constraint b2)) as [Hc|Hc]; simpl;
    [|split; [discriminate|tauto]].
  destruct (Nat.eqb_spec (b_slicer b1) (b_slicer b2)) as [Hs|Hs]; simpl;
    [|split; [discriminate|tauto]].
  match goal with |- (if ?e then _ else _) = true <-> _ => destruct e eqn:He end.
  - split; [discriminate|]. intros (_ & _ & Hn). exfalso. apply Hn.
    apply existsb_exists in He as (s1 & Hs1 & He).
    apply existsb_exists in He as (s2 & Hs2 & He).
    apply andb_true_iff in He as [He1 He2].
    apply String.eqb_eq in He1.
    exists s1, s2. repeat split; auto.
    intros Ha. unfold stacker_neb in He2.
    assert (stacker_eqb s1 s2 = true) as Hq by (apply stacker_eqb_spec; auto).
    rewrite Hq in He2. discriminate.
  - split; [intros _ | auto]. repeat split; auto.
    intros (s1 & s2 & H1 & H2 & Hcl & Ha).
    rewrite <- not_true_iff_false in He. apply He.
    apply existsb_exists. exists s1; split; auto.
    apply existsb_exists. exists s2; split; auto.
    rewrite Hcl, String.eqb_refl. simpl. unfold stacker_neb.
    destruct (stacker_eqb s1 s2) eqn:E; auto.
    apply stacker_eqb_spec in E. tauto.
Qed.

(** * Grouping *)
Section Grouping.
  Context {K B : Type}.
  Variable check : B -> B -> bool.

  Definition hits (lists : list (list (K * B))) (kb : K * B) : nat :=
    length (filter snd (map (fun cl => try_list (K:=K) check cl kb) lists)).

  Lemma try_list_perm lists kb :
    Permutation (concat (map fst (map (fun cl => try_list (K:=K) check cl kb) lists)))
                (concat lists ++ repeat kb (hits lists kb)).
  Proof.
    unfold hits. induction lists as [|cl ls IH]; simpl; auto.
    destruct cl as [|h t]; simpl.
    - exact IH.
    - destruct (check (snd h) (snd kb)); simpl.
      + rewrite IH. constructor. rewrite <- !app_assoc. apply Permutation_app_head.
        simpl. apply Permutation_middle.
      + rewrite IH. rewrite <- app_assoc. reflexivity.
  Qed.

  Lemma existsb_hits lists kb :
    existsb snd (map (fun cl => try_list (K:=K) check cl kb) lists) = true <-> 0 < hits lists kb.
  Proof.
    unfold hits. induction (map (fun cl => try_list (K:=K) check cl kb) lists) as [|x l IH]; simpl.
    - split; [discriminate|lia].
    - destruct (snd x); simpl; [split; [lia|auto]|exact IH].
  Qed.

  Lemma add_bundle_perm lists kb :
    Permutation (concat (add_bundle (K:=K) check lists kb))
                (concat lists ++ repeat kb (Nat.max 1 (hits lists kb))).
  Proof.
    unfold add_bundle.
    destruct (existsb snd (map (fun cl => try_list (K:=K) check cl kb) lists)) eqn:E.
    - apply existsb_hits in E. rewrite try_list_perm.
      replace (Nat.max 1 (hits lists kb)) with (hits lists kb) by lia. reflexivity.
    - assert (hits lists kb = 0) as H0.
      { destruct (hits lists kb) eqn:Eh; auto.
        assert (0 < hits lists kb) as Hp by lia. apply existsb_hits in Hp. congruence. }
      rewrite concat_app. rewrite try_list_perm, H0. simpl. rewrite app_nil_r. reflexivity.
  Qed.

  Lemma add_bundle_In lists kb x :
    In x (concat (add_bundle (K:=K) check lists kb)) <-> In x (concat lists) \/ x = kb.
  Proof.
    rewrite (add_bundle_perm lists kb). rewrite in_app_iff.
    split; intros [H|H]; auto.
    - apply repeat_spec in H. auto.
    - right. subst. destruct (Nat.max 1 (hits lists kb)) eqn:E; [lia|]. simpl; auto.
  Qed.

  Lemma find_compatible_In_gen cur lists x :
    In x (concat (fold_left (add_bundle (K:=K) check) cur lists)) <-> In x (concat lists) \/ In x cur.
  Proof.
    revert lists; induction cur as [|kb cur IH]; intros lists; simpl.
    - tauto.
    - rewrite IH, add_bundle_In. intuition.
  Qed.

  Lemma find_compatible_In cur x :
    In x (concat (find_compatible_lists (K:=K) check cur)) <-> In x cur.
  Proof. unfold find_compatible_lists. rewrite find_compatible_In_gen. simpl. tauto. Qed.

  (** heads are compatible with the rest *)
  Definition head_ok (g : list (K * B)) : Prop :=
    match g with [] => False | h :: t => forall x, In x t -> check (snd h) (snd x) = true end.

  Lemma add_bundle_head lists kb :
    (forall g, In g lists -> head_ok g) -> forall g, In g (add_bundle (K:=K) check lists kb) -> head_ok g.
  Proof.
    intros H g Hg. unfold add_bundle in Hg.
    assert (forall g, In g (map fst (map (fun cl => try_list (K:=K) check cl kb) lists)) -> head_ok g) as Ht.
    { clear g Hg. intros g Hg. rewrite map_map in Hg. apply in_map_iff in Hg as (cl & E & Hcl).
      specialize (H cl Hcl). destruct cl as [|h t]; simpl in *; [tauto|].
      destruct (check (snd h) (snd kb)) eqn:Ec; simpl in E; subst g; simpl.
      - intros x Hx. apply in_app_iff in Hx as [Hx|[Hx|[]]]; subst; auto.
      - auto. }
    destruct (existsb snd (map (fun cl => try_list (K:=K) check cl kb) lists)).
    - auto.
    - apply in_app_iff in Hg as [Hg|[Hg|[]]]; auto. subst g. simpl. tauto.
  Qed.

  Lemma find_compatible_head cur g :
    In g (find_compatible_lists (K:=K) check cur) -> head_ok g.
  Proof.
    unfold find_compatible_lists.
    assert (forall lists, (forall g, In g lists -> head_ok g) ->
              forall g, In g (fold_left (add_bundle (K:=K) check) cur lists) -> head_ok g) as H.
    { induction cur as [|kb cur IH]; simpl; intros lists Hl g' Hg'; auto.
      eapply IH; [|exact Hg']. apply add_bundle_head; auto. }
    intros Hg. eapply H; [|exact Hg]. simpl; tauto.
  Qed.

  (** ** Partition when the compatibility test is an equivalence on the bundles at hand *)
  Section Equiv.
    Variable D : list (K * B).
    Variable R : B -> B -> Prop.
    Hypothesis R_sym : forall a b, R a b -> R b a.
    Hypothesis R_trans : forall a b c, R a b -> R b c -> R a c.
    Hypothesis R_check : forall x y, In x D -> In y D -> (check (snd x) (snd y) = true <-> R (snd x) (snd y)).

    Definition sep (l1 l2 : list (K * B)) : Prop :=
      match l1, l2 with h1 :: _, h2 :: _ => ~ R (snd h1) (snd h2) | _, _ => True end.

    Inductive seps : list (list (K * B)) -> Prop :=
    | seps_nil : seps []
    | seps_cons l ls : Forall (sep l) ls -> seps ls -> seps (l :: ls).

    Definition inD (lists : list (list (K * B))) := forall x, In x (concat lists) -> In x D.

    Lemma hits_le1 lists kb : In kb D -> inD lists -> (forall g, In g lists -> head_ok g) -> seps lists ->
      hits lists kb <= 1.
    Proof.
      intros HkD HD Hh Hs. unfold hits. induction Hs as [|l ls Hf Hs IH]; simpl; [lia|].
      assert (inD ls) as HDl by (intros x Hx; apply HD; simpl; apply in_app_iff; auto).
      assert (forall g, In g ls -> head_ok g) as Hhl by (intros g Hg; apply Hh; simpl; auto).
      specialize (IH HDl Hhl).
      destruct l as [|h t]; simpl; [exact IH|].
      destruct (check (snd h) (snd kb)) eqn:E; simpl; [|exact IH].
      assert (In h D) as HhD by (apply HD; simpl; auto).
      apply R_check in E; auto.
      assert (length (filter snd (map (fun cl => try_list (K:=K) check cl kb) ls)) = 0) as ->; [|lia].
      clear IH Hs Hh Hhl. induction ls as [|l' ls IH]; simpl; auto.
      inversion Hf as [|? ? Hs1 Hs2]; subst.
      destruct l' as [|h' t']; simpl.
      - apply IH; auto.
      - destruct (check (snd h') (snd kb)) eqn:E'; simpl.
        + exfalso. assert (In h' D) by (apply HDl; simpl; auto).
          apply R_check in E'; auto. simpl in Hs1. apply Hs1. eapply R_trans; [exact E|]. apply R_sym; auto.
        + apply IH; auto.
          * intros x Hx. apply HD. simpl in Hx |- *. rewrite ?in_app_iff in *. simpl. rewrite ?in_app_iff. tauto.
          * intros x Hx. apply HDl. simpl. right. apply in_app_iff; auto.
    Qed.

    Lemma try_list_head l kb : fst (try_list (K:=K) check l kb) = l \/
       exists h t, l = h :: t /\ fst (try_list (K:=K) check l kb) = h :: t ++ [kb].
    Proof.
      destruct l as [|h t]; simpl; auto. destruct (check (snd h) (snd kb)); simpl; auto.
      right. eauto.
    Qed.

    Lemma sep_try l1 l2 kb : sep l1 l2 -> sep (fst (try_list (K:=K) check l1 kb)) (fst (try_list (K:=K) check l2 kb)).
    Proof.
      intros H. destruct (try_list_head l1 kb) as [E1|(h1 & t1 & -> & E1)];
      destruct (try_list_head l2 kb) as [E2|(h2 & t2 & -> & E2)]; rewrite E1, E2; auto.
    Qed.

    Lemma seps_try lists kb : seps lists -> seps (map fst (map (fun cl => try_list (K:=K) check cl kb) lists)).
    Proof.
      induction 1 as [|l ls Hf Hs IH]; simpl; constructor; auto.
      rewrite map_map. apply Forall_forall. intros x Hx. apply in_map_iff in Hx as (l' & <- & Hl').
      apply sep_try. rewrite Forall_forall in Hf. auto.
    Qed.

    Lemma seps_snoc ls l : seps ls -> Forall (fun x => sep x l) ls -> seps (ls ++ [l]).
    Proof.
      induction 1 as [|a ls Hf Hs IH]; simpl; intros H.
      - repeat constructor.
      - inversion H; subst. constructor; auto. apply Forall_app; auto.
    Qed.

    Lemma add_bundle_seps lists kb : In kb D -> inD lists -> (forall g, In g lists -> head_ok g) ->
      seps lists -> seps (add_bundle (K:=K) check lists kb).
    Proof.
      intros HkD HD Hh Hs. unfold add_bundle.
      destruct (existsb snd (map (fun cl => try_list (K:=K) check cl kb) lists)) eqn:E.
      - apply seps_try; auto.
      - apply seps_snoc; [apply seps_try; auto|].
        rewrite map_map. apply Forall_forall. intros x Hx. apply in_map_iff in Hx as (l & <- & Hl).
        specialize (Hh l Hl).
        assert (snd (try_list (K:=K) check l kb) = false) as E1.
        { destruct (snd (try_list (K:=K) check l kb)) eqn:E1; auto.
          rewrite <- not_true_iff_false in E. exfalso; apply E. apply existsb_exists.
          exists (try_list (K:=K) check l kb). split; auto. apply in_map_iff. eauto. }
        destruct l as [|h t]; simpl in *; [tauto|].
        destruct (check (snd h) (snd kb)) eqn:Ec; simpl in *; [discriminate|].
        intros HR. assert (In h D) as HhD.
        { apply HD. apply in_concat. exists (h :: t). simpl; auto. }
        apply (R_check h kb HhD HkD) in HR. congruence.
    Qed.

    Lemma fold_partition cur lists proc :
      incl cur D -> inD lists -> (forall g, In g lists -> head_ok g) -> seps lists ->
      Permutation (concat lists) proc ->
      Permutation (concat (fold_left (add_bundle (K:=K) check) cur lists)) (proc ++ cur).
    Proof.
      revert lists proc; induction cur as [|kb cur IH]; intros lists proc Hc HD Hh Hs Hp; simpl.
      - rewrite app_nil_r. auto.
      - assert (In kb D) as HkD by (apply Hc; simpl; auto).
        replace (proc ++ kb :: cur) with ((proc ++ [kb]) ++ cur) by (rewrite <- app_assoc; auto).
        apply IH.
        + intros x Hx; apply Hc; simpl; auto.
        + intros x Hx. apply add_bundle_In in Hx as [Hx|Hx]; subst; auto.
        + apply add_bundle_head; auto.
        + apply add_bundle_seps; auto.
        + rewrite add_bundle_perm.
          pose proof (hits_le1 lists kb HkD HD Hh Hs) as Hle.
          replace (Nat.max 1 (hits lists kb)) with 1 by lia. simpl. rewrite Hp. reflexivity.
    Qed.

    Lemma find_compatible_partition cur : incl cur D ->
      Permutation (concat (find_compatible_lists (K:=K) check cur)) cur.
    Proof.
      intros Hc. unfold find_compatible_lists.
      change cur with ([] ++ cur) at 2. apply fold_partition; auto.
      - intros x [].
      - simpl; tauto.
      - constructor.
    Qed.
  End Equiv.
End Grouping.

Lemma compatible_refl_no_conflict b1 b2 :
  ~ stackers_conflict b1 b2 ->
  (check_compatible b1 b2 = true <-> b_constraint b1 = b_constraint b2 /\ b_slicer b1 = b_slicer b2).
Proof. intros H. rewrite check_compatible_spec. unfold compatible_bundles. tauto. Qed.

Lemma groups_partition_no_conflict {K} (d : list (K * bundle)) :
  (forall x y, In x d -> In y d -> ~ stackers_conflict (snd x) (snd y)) ->
  Permutation (concat (find_compatible_lists check_compatible d)) d.
Proof.
  intros H.
  apply find_compatible_partition with (D := d)
    (R := fun b1 b2 => b_constraint b1 = b_constraint b2 /\ b_slicer b1 = b_slicer b2).
  - intros a b [H1 H2]; auto.
  - intros a b c [H1 H2] [H3 H4]; split; congruence.
  - intros x y Hx Hy. apply compatible_refl_no_conflict; auto.
  - apply incl_refl.
Qed.

Lemma groups_pairwise {K} (d : list (K * bundle)) g x y :
  In g (find_compatible_lists check_compatible d) -> In x g -> In y g ->
  b_constraint (snd x) = b_constraint (snd y) /\ b_slicer (snd x) = b_slicer (snd y).
Proof.
  intros Hg Hx Hy. apply find_compatible_head in Hg.
  destruct g as [|h t]; simpl in *; [tauto|].
  assert (forall z, h = z \/ In z t -> b_constraint (snd h) = b_constraint (snd z) /\ b_slicer (snd h) = b_slicer (snd z)) as Ha.
  { intros z [->|Hz]; auto. specialize (Hg z Hz). apply check_compatible_spec in Hg.
    destruct Hg as (H1 & H2 & _). auto. }
  destruct (Ha x Hx) as [A1 A2]. destruct (Ha y Hy) as [B1 B2]. split; congruence.
Qed.

Lemma groups_first {K} (d : list (K * bundle)) h t x :
  In (h :: t) (find_compatible_lists check_compatible d) -> In x t ->
  compatible_bundles (snd h) (snd x).
Proof.
  intros Hg Hx. apply find_compatible_head in Hg. simpl in Hg. apply check_compatible_spec. auto.
Qed.

Lemma run_all_groups_In {K} (d : list (K * bundle)) cs : is_constraint_list d cs ->
  forall x, In x d <-> exists g, In g (run_all_groups d cs) /\ In x g.
Proof.
  intros [Hnd Hcs] x. unfold run_all_groups. split.
  - intros Hx.
    assert (In x (set_current (b_constraint (snd x)) d)) as Hs.
    { unfold set_current. apply filter_In. split; auto. apply String.eqb_refl. }
    apply (find_compatible_In check_compatible) in Hs. apply in_concat in Hs as (g & Hg & Hxg).
    exists g; split; auto. apply in_flat_map. exists (b_constraint (snd x)). split; auto.
    apply Hcs. apply in_map_iff. eauto.
  - intros (g & Hg & Hxg). apply in_flat_map in Hg as (c & Hc & Hg).
    assert (In x (set_current c d)) as Hs.
    { apply (find_compatible_In check_compatible). apply in_concat. eauto. }
    unfold set_current in Hs. apply filter_In in Hs. tauto.
Qed.

Lemma run_all_groups_constraint {K} (d : list (K * bundle)) c g x :
  In g (find_compatible_lists check_compatible (set_current c d)) -> In x g -> b_constraint (snd x) = c.
Proof.
  intros Hg Hx. assert (In x (set_current c d)) as Hs.
  { apply (find_compatible_In check_compatible). apply in_concat. eauto. }
  unfold set_current in Hs. apply filter_In in Hs as [_ Hs]. apply String.eqb_eq in Hs. auto.
Qed.

(** * make_bundles_dict_from_list *)
Section MakeDictProofs.
  Context {B : Type} (froot : B -> string).

  Lemma dget_In_none (d : list (string * B)) k :
    dget String.eqb d k = None <-> ~ In k (map fst d).
  Proof.
    induction d as [|[k' v] t IH]; simpl; [tauto|].
    destruct (String.eqb_spec k k') as [->|Hn].
    - split; [discriminate|tauto].
    - rewrite IH. split; [intros H [H1|H1]; [congruence|tauto]|tauto].
  Qed.

  Lemma dmem_In (d : list (string * B)) k : dmem String.eqb d k = true <-> In k (map fst d).
  Proof.
    unfold dmem. destruct (dget String.eqb d k) eqn:E.
    - split; auto. intros _. destruct (in_dec string_dec k (map fst d)); auto.
      apply dget_In_none in n. congruence.
    - apply dget_In_none in E. split; [discriminate|tauto].
  Qed.

  Lemma dset_fresh (d : list (string * B)) k v : ~ In k (map fst d) -> dset String.eqb d k v = d ++ [(k, v)].
  Proof.
    induction d as [|[k' v'] t IH]; simpl; intros H; auto.
    destruct (String.eqb_spec k k') as [->|Hn]; [tauto|]. rewrite IH; tauto.
  Qed.

  Lemma make_loop_ok l d : NoDup (map fst d ++ map froot l) ->
    make_bundles_dict_loop froot l d = Ok (d ++ map (fun b => (froot b, b)) l).
  Proof.
    revert d; induction l as [|b t IH]; intros d H; simpl.
    - rewrite app_nil_r; auto.
    - simpl in H. assert (~ In (froot b) (map fst d)) as Hn.
      { apply NoDup_remove_2 in H. rewrite in_app_iff in H. tauto. }
      destruct (dmem String.eqb d (froot b)) eqn:E.
      { apply dmem_In in E. tauto. }
      rewrite dset_fresh by auto. rewrite IH.
      + rewrite <- app_assoc. reflexivity.
      + rewrite map_app. simpl. rewrite <- app_assoc. simpl. exact H.
  Qed.

  Lemma make_loop_err l d : NoDup (map fst d) -> ~ NoDup (map fst d ++ map froot l) ->
    make_bundles_dict_loop froot l d = Err NameError.
  Proof.
    revert d; induction l as [|b t IH]; intros d Hd H; simpl in *.
    - rewrite app_nil_r in H. tauto.
    - destruct (dmem String.eqb d (froot b)) eqn:E; auto.
      assert (~ In (froot b) (map fst d)) as Hn by (rewrite <- dmem_In; congruence).
      rewrite dset_fresh by auto. apply IH.
      + rewrite map_app. simpl. rewrite (Permutation_app_comm). simpl. constructor; auto.
      + rewrite map_app. simpl. rewrite <- app_assoc. simpl. exact H.
  Qed.

  Lemma make_dict_spec l :
    (NoDup (map froot l) -> make_bundles_dict_from_list froot l = Ok (map (fun b => (froot b, b)) l)) /\
    (~ NoDup (map froot l) -> make_bundles_dict_from_list froot l = Err NameError).
  Proof.
    unfold make_bundles_dict_from_list. split; intros H.
    - rewrite make_loop_ok; auto.
    - apply make_loop_err; auto. constructor.
  Qed.
End MakeDictProofs.

(** * The slice loop *)

  Lemma memb_In x l : memb x l = true <-> In x l.
  Proof.
    unfold memb. rewrite existsb_exists. split.
    - intros (y & Hy & E). apply Nat.eqb_eq in E. subst; auto.
    - intros H. exists x. split; auto. apply Nat.eqb_refl.
  Qed.

  Lemma fs_eqb_spec l1 l2 : fs_eqb l1 l2 = true <-> same_visits l1 l2.
  Proof.
    unfold fs_eqb, subsetb, same_visits. rewrite andb_true_iff, !forallb_forall. split.
    - intros [H1 H2] x. split; intros Hx; apply memb_In; auto.
    - intros H. split; intros x Hx; apply memb_In; apply H; auto.
  Qed.

  Lemma same_visits_sym l1 l2 : same_visits l1 l2 -> same_visits l2 l1.
  Proof. unfold same_visits; intros H x; specialize (H x); tauto. Qed.
  Lemma same_visits_trans l1 l2 l3 : same_visits l1 l2 -> same_visits l2 l3 -> same_visits l1 l3.
  Proof. unfold same_visits; intros H1 H2 x; specialize (H1 x); specialize (H2 x); tauto. Qed.
  Lemma same_visits_refl l : same_visits l l.
  Proof. intros x; tauto. Qed.

  Lemma dget_fs_some (c : cache) k v : dget fs_eqb c k = Some v ->
    exists k', In (k', v) c /\ same_visits k k'.
  Proof.
    induction c as [|[k' v'] t IH]; simpl; [discriminate|].
    destruct (fs_eqb k k') eqn:E; intros H.
    - inversion H; subst. exists k'. split; auto. apply fs_eqb_spec; auto.
    - destruct (IH H) as (k1 & H1 & H2). eauto.
  Qed.

  Lemma dget_fs_none (c : cache) k : dget fs_eqb c k = None ->
    forall k' v, In (k', v) c -> ~ same_visits k k'.
  Proof.
    induction c as [|[k1 v1] t IH]; simpl; [tauto|].
    destruct (fs_eqb k k1) eqn:E; [discriminate|]. intros H k' v [H1|H1] Hs.
    - inversion H1; subst. apply fs_eqb_spec in Hs. congruence.
    - eapply IH; eauto.
  Qed.

  Lemma ddel_In (c : cache) k e : In e (ddel fs_eqb c k) -> In e c.
  Proof.
    induction c as [|[k1 v1] t IH]; simpl; auto.
    destruct (fs_eqb k k1); simpl; intros H; auto. destruct H; auto.
  Qed.

  Lemma ddel_length (c : cache) k v : dget fs_eqb c k = Some v -> length c = S (length (ddel fs_eqb c k)).
  Proof.
    induction c as [|[k1 v1] t IH]; simpl; [discriminate|].
    destruct (fs_eqb k k1); simpl; auto.
  Qed.

Section SliceLoopProofs.
  Context {V : Type}.
  Variable metric : list nat -> nat -> result V.
  Variable is_bad : V -> bool.
  (** cache entries hold values of already calculated slices *)
  Definition cache_sound (done : list (@slice)) (a : marray V) (c : cache) : Prop :=
    forall k s, In (k, s) c ->
      k <> [] /\ exists sl v, In sl done /\ sid sl = s /\ same_visits (idxs sl) k /\
                              nth_error (m_data a) s = Some v /\ metric (idxs sl) s = Ok v.

  Lemma cache_sound_tl done a c : cache_sound done a c -> cache_sound done a (tl c).
  Proof. intros H k s Hi. apply H. destruct c; simpl in *; auto. Qed.

  Hypothesis Hm : depends_on_visits_only metric.

  Lemma step_cache_sim n done a c s a' :
    ~ In (sid s) (map sid done) -> cache_sound done a c ->
    step_nocache metric a s = a' ->
    match a' with
    | Err e => step_cache metric n (a, c) s = Err e
    | Ok a1 => exists c1, step_cache metric n (a, c) s = Ok (a1, c1) /\ cache_sound (done ++ [s]) a1 c1
    end.
  Proof.
    intros Hfresh Hcs <-. unfold step_nocache, step_cache.
    destruct (idxs s) as [|i0 it] eqn:Ei.
    - destruct (arr_set (m_mask a) (sid s) true) as [m|e] eqn:Em; simpl; auto.
      exists c. split; auto. intros k s0 Hi. destruct (Hcs k s0 Hi) as (Hne & sl & v & H1 & H2 & H3 & H4 & H5).
      split; auto. exists sl, v. simpl. rewrite in_app_iff. auto 10.
    - rewrite <- Ei in *.
      assert (forall v d, arr_set (m_data a) (sid s) v = Ok d -> forall k s0, In (k, s0) c ->
        k <> [] /\ exists sl v0, In sl (done ++ [s]) /\ sid sl = s0 /\ same_visits (idxs sl) k /\
          nth_error d s0 = Some v0 /\ metric (idxs sl) s0 = Ok v0) as Hkeep.
      { intros v d Hd k s0 Hi. destruct (Hcs k s0 Hi) as (Hne & sl & v0 & H1 & H2 & H3 & H4 & H5).
        split; auto. exists sl, v0. rewrite in_app_iff. apply arr_set_ok in Hd as [Hl ->].
        rewrite set_nth_other; auto 10. intros E. apply Hfresh. rewrite E. rewrite <- H2. apply in_map; auto. }
      destruct (dget fs_eqb c (idxs s)) as [cv|] eqn:Eg.
      + destruct (dget_fs_some _ _ _ Eg) as (k' & Hk' & Hs').
        destruct (Hcs k' cv Hk') as (Hne & sl & v & H1 & H2 & H3 & H4 & H5).
        assert (metric (idxs s) (sid s) = Ok v) as Hv.
        { rewrite <- H5. apply Hm; [rewrite Ei; discriminate|].
          eapply same_visits_trans; [exact Hs'|]. apply same_visits_sym; auto. }
        rewrite Hv. simpl. unfold arr_get. rewrite H4. simpl.
        destruct (arr_set (m_data a) (sid s) v) as [d|e] eqn:Ed; simpl; auto.
        eexists. split; [reflexivity|].
        assert (cache_sound (done ++ [s]) {| m_data := d; m_mask := m_mask a |}
                  (ddel fs_eqb c (idxs s) ++ [(idxs s, cv)])) as Hc1.
        { intros k s0 Hi. apply in_app_iff in Hi as [Hi|[Hi|[]]].
          - apply (Hkeep v d Ed). eapply ddel_In; eauto.
          - inversion Hi; subst k s0. split; [rewrite Ei; discriminate|].
            destruct (Hkeep v d Ed k' cv Hk') as (_ & sl' & v' & G1 & G2 & G3 & G4 & G5).
            exists sl', v'. repeat split; auto; try (apply G3; auto).
            + intros Hx. apply G3 in Hx. apply Hs'. auto.
            + intros Hx. apply G3. apply Hs'. auto. }
        destruct (Nat.ltb n (length (ddel fs_eqb c (idxs s) ++ [(idxs s, cv)]))); auto.
        apply cache_sound_tl; auto.
      + destruct (metric (idxs s) (sid s)) as [v|e] eqn:Ev; simpl; auto.
        destruct (arr_set (m_data a) (sid s) v) as [d|e] eqn:Ed; simpl; auto.
        eexists. split; [reflexivity|].
        assert (cache_sound (done ++ [s]) {| m_data := d; m_mask := m_mask a |}
                  (c ++ [(idxs s, sid s)])) as Hc1.
        { intros k s0 Hi. apply in_app_iff in Hi as [Hi|[Hi|[]]].
          - apply (Hkeep v d Ed). auto.
          - inversion Hi; subst k s0. split; [rewrite Ei; discriminate|].
            exists s, v. simpl. rewrite in_app_iff. pose proof (arr_set_ok _ _ _ _ Ed) as [Hl ->].
            repeat split; simpl; auto. apply set_nth_same; auto. }
        destruct (Nat.ltb n (length (c ++ [(idxs s, sid s)]))); auto.
        apply cache_sound_tl; auto.
  Qed.

  Lemma loop_cache_sim n sl done a c :
    NoDup (map sid (done ++ sl)) -> cache_sound done a c ->
    match loop_nocache metric sl a with
    | Err e => loop_cache metric n sl (a, c) = Err e
    | Ok a1 => exists c1, loop_cache metric n sl (a, c) = Ok (a1, c1) /\ cache_sound (done ++ sl) a1 c1
    end.
  Proof.
    revert done a c; induction sl as [|s sl IH]; intros done a c Hnd Hcs; cbn [loop_nocache loop_cache].
    - exists c. rewrite app_nil_r. auto.
    - assert (~ In (sid s) (map sid done)) as Hf.
      { rewrite map_app in Hnd. simpl in Hnd. apply NoDup_remove_2 in Hnd. rewrite in_app_iff in Hnd. tauto. }
      pose proof (step_cache_sim n done a c s _ Hf Hcs eq_refl) as Hst.
      destruct (step_nocache metric a s) as [a1|e].
      + destruct Hst as (c1 & E1 & Hc1). rewrite E1. cbn [bind].
        replace (done ++ s :: sl) with ((done ++ [s]) ++ sl) in * by (rewrite <- app_assoc; auto).
        apply IH; auto.
      + rewrite Hst. reflexivity.
  Qed.

  Lemma cache_transparent n sl a0 : NoDup (map sid sl) ->
    run_slices metric is_bad n sl a0 = run_slices metric is_bad 0 sl a0.
  Proof.
    intros Hnd. unfold run_slices.
    destruct (Nat.ltb 0 n); auto.
    assert (cache_sound [] a0 []) as H0 by (intros k s []).
    pose proof (loop_cache_sim n sl [] a0 [] Hnd H0) as H.
    change (Nat.ltb 0 0) with false. cbv iota. unfold cache in H.
    destruct (loop_nocache metric sl a0) as [a1|e].
    - destruct H as (c1 & H & _). rewrite H. reflexivity.
    - rewrite H. reflexivity.
  Qed.
End SliceLoopProofs.

(** size and key uniqueness do not need the hypothesis on the metric *)
Section CacheShape.
  Context {V : Type}.
  Variable metric : list nat -> nat -> result V.

  Inductive keys_distinct : cache -> Prop :=
  | kd_nil : keys_distinct []
  | kd_cons k s c : (forall k' s', In (k', s') c -> ~ same_visits k k') -> keys_distinct c ->
                    keys_distinct ((k, s) :: c).

  Lemma kd_tl c : keys_distinct c -> keys_distinct (tl c).
  Proof. destruct 1; simpl; auto. constructor. Qed.

  Lemma kd_snoc c k s : keys_distinct c -> (forall k' s', In (k', s') c -> ~ same_visits k k') ->
    keys_distinct (c ++ [(k, s)]).
  Proof.
    induction 1 as [|k1 s1 c H Hk IH]; simpl; intros Hn.
    - constructor; [simpl; tauto|constructor].
    - constructor.
      + intros k' s' Hi. apply in_app_iff in Hi as [Hi|[Hi|[]]]; [eapply H; eauto|].
        inversion Hi; subst. intros Hs. eapply Hn; [left; reflexivity|]. apply same_visits_sym; auto.
      + apply IH. intros k' s' Hi. eapply Hn; right; eauto.
  Qed.

  Lemma kd_ddel c k : keys_distinct c -> keys_distinct (ddel fs_eqb c k).
  Proof.
    induction 1 as [|k1 s1 c H Hk IH]; simpl; [constructor|].
    destruct (fs_eqb k k1); auto. constructor; auto.
    intros k' s' Hi. eapply H. eapply ddel_In; eauto.
  Qed.

  Lemma ddel_no_key c k v : keys_distinct c -> dget fs_eqb c k = Some v ->
    forall k' s', In (k', s') (ddel fs_eqb c k) -> ~ same_visits k k'.
  Proof.
    induction 1 as [|k1 s1 c H Hk IH]; simpl; [discriminate|].
    destruct (fs_eqb k k1) eqn:E; intros Hg k' s' Hi Hs.
    - apply fs_eqb_spec in E. eapply H; [exact Hi|]. eapply same_visits_trans; [|exact Hs].
      apply same_visits_sym; auto.
    - destruct Hi as [Hi|Hi].
      + inversion Hi; subst. apply fs_eqb_spec in Hs. congruence.
      + eapply IH; eauto.
  Qed.

  Definition cache_shape (n : nat) (c : cache) := length c <= n /\ keys_distinct c.

  Lemma tl_length {A} (l : list A) : length (tl l) = length l - 1.
  Proof. destruct l; simpl; lia. Qed.

  Lemma step_cache_shape n a c s a1 c1 : cache_shape n c ->
    step_cache metric n (a, c) s = Ok (a1, c1) -> cache_shape n c1.
  Proof.
    intros [Hl Hk] H. unfold step_cache in H. destruct (idxs s) as [|i0 it] eqn:Ei.
    - destruct (arr_set (m_mask a) (sid s) true); simpl in H; inversion H; subst. split; auto.
    - rewrite <- Ei in *. destruct (dget fs_eqb c (idxs s)) as [cv|] eqn:Eg.
      + destruct (arr_get (m_data a) cv) as [v|]; simpl in H; [|discriminate].
        destruct (arr_set (m_data a) (sid s) v) as [d|]; simpl in H; [|discriminate].
        inversion H; subst; clear H.
        assert (keys_distinct (ddel fs_eqb c (idxs s) ++ [(idxs s, cv)])) as Hk1.
        { apply kd_snoc; [apply kd_ddel; auto|]. eapply ddel_no_key; eauto. }
        pose proof (ddel_length c _ _ Eg) as Hlen.
        destruct (Nat.ltb_spec n (length (ddel fs_eqb c (idxs s) ++ [(idxs s, cv)]))) as [Hlt|Hge].
        * rewrite app_length in Hlt; simpl in Hlt. lia.
        * split; auto.
      + destruct (metric (idxs s) (sid s)) as [v|]; simpl in H; [|discriminate].
        destruct (arr_set (m_data a) (sid s) v) as [d|]; simpl in H; [|discriminate].
        inversion H; subst; clear H.
        assert (keys_distinct (c ++ [(idxs s, sid s)])) as Hk1.
        { apply kd_snoc; auto. eapply dget_fs_none; eauto. }
        destruct (Nat.ltb_spec n (length (c ++ [(idxs s, sid s)]))) as [Hlt|Hge].
        * split; [|apply kd_tl; auto]. rewrite tl_length, app_length. simpl. lia.
        * split; auto.
  Qed.

  Lemma loop_cache_shape n sl a c a1 c1 : cache_shape n c ->
    loop_cache metric n sl (a, c) = Ok (a1, c1) -> cache_shape n c1.
  Proof.
    revert a c; induction sl as [|s sl IH]; intros a c Hc H; cbn [loop_cache] in H.
    - inversion H; subst; auto.
    - destruct (step_cache metric n (a, c) s) as [[a2 c2]|] eqn:E; cbn [bind] in H; [|discriminate].
      eapply IH; [|exact H]. eapply step_cache_shape; eauto.
  Qed.

  (** provenance of the entries (no hypothesis on the metric) *)
  Definition cache_from (done : list (@slice)) (c : cache) : Prop :=
    forall k s, In (k, s) c -> k <> [] /\ exists sl, In sl done /\ sid sl = s /\ same_visits (idxs sl) k.

  Lemma cache_from_mono d1 d2 c : incl d1 d2 -> cache_from d1 c -> cache_from d2 c.
  Proof.
    intros Hi H k s Hin. destruct (H k s Hin) as (Hne & sl & H1 & H2 & H3). split; auto. exists sl; auto.
  Qed.

  Lemma step_cache_from n done a c s a1 c1 : cache_from done c ->
    step_cache metric n (a, c) s = Ok (a1, c1) -> cache_from (done ++ [s]) c1.
  Proof.
    intros Hf H. assert (cache_from (done ++ [s]) c) as Hf'.
    { eapply cache_from_mono; [|exact Hf]. apply incl_appl, incl_refl. }
    unfold step_cache in H. destruct (idxs s) as [|i0 it] eqn:Ei.
    - destruct (arr_set (m_mask a) (sid s) true); simpl in H; inversion H; subst; auto.
    - assert (idxs s <> []) as Hne by (rewrite Ei; discriminate). rewrite <- Ei in *.
      assert (forall c0, cache_from (done ++ [s]) c0 -> cache_from (done ++ [s]) (if Nat.ltb n (length c0) then tl c0 else c0)) as Htl.
      { intros c0 H0. destruct (Nat.ltb n (length c0)); auto. intros k s0 Hi. apply H0. destruct c0; simpl in *; auto. }
      destruct (dget fs_eqb c (idxs s)) as [cv|] eqn:Eg.
      + destruct (arr_get (m_data a) cv) as [v|]; simpl in H; [|discriminate].
        destruct (arr_set (m_data a) (sid s) v) as [d|]; simpl in H; [|discriminate].
        inversion H; subst; clear H. apply Htl.
        intros k s0 Hi. apply in_app_iff in Hi as [Hi|[Hi|[]]].
        * apply Hf'. eapply ddel_In; eauto.
        * inversion Hi; subst. split; auto. destruct (dget_fs_some _ _ _ Eg) as (k' & Hk' & Hs').
          destruct (Hf' k' s0 Hk') as (_ & sl & H1 & H2 & H3). exists sl. repeat split; auto.
          -- intros Hx. apply Hs'. apply H3. auto.
          -- intros Hx. apply H3. apply Hs'. auto.
      + destruct (metric (idxs s) (sid s)) as [v|]; simpl in H; [|discriminate].
        destruct (arr_set (m_data a) (sid s) v) as [d|]; simpl in H; [|discriminate].
        inversion H; subst; clear H. apply Htl.
        intros k s0 Hi. apply in_app_iff in Hi as [Hi|[Hi|[]]]; auto.
        inversion Hi; subst. split; auto. exists s. rewrite in_app_iff. simpl. repeat split; auto.
  Qed.

  Lemma loop_cache_from n sl done a c a1 c1 : cache_from done c ->
    loop_cache metric n sl (a, c) = Ok (a1, c1) -> cache_from (done ++ sl) c1.
  Proof.
    revert done a c; induction sl as [|s sl IH]; intros done a c Hc H; cbn [loop_cache] in H.
    - inversion H; subst. rewrite app_nil_r; auto.
    - destruct (step_cache metric n (a, c) s) as [[a2 c2]|] eqn:E; cbn [bind] in H; [|discriminate].
      replace (done ++ s :: sl) with ((done ++ [s]) ++ sl) by (rewrite <- app_assoc; auto).
      eapply IH; [|exact H]. eapply step_cache_from; eauto.
  Qed.
End CacheShape.

(** * Masking *)
Section Masking.
  Context {V : Type}.
  Variable metric : list nat -> nat -> result V.
  Variable is_bad : V -> bool.

  Lemma step_nocache_len a s a1 : step_nocache metric a s = Ok a1 ->
    length (m_data a1) = length (m_data a) /\ length (m_mask a1) = length (m_mask a).
  Proof.
    unfold step_nocache. destruct (idxs s).
    - destruct (arr_set (m_mask a) (sid s) true) eqn:E; simpl; intros H; inversion H; subst; simpl.
      apply arr_set_ok in E as [_ ->]. rewrite set_nth_length. auto.
    - destruct (metric (n :: l) (sid s)); simpl; [|discriminate].
      destruct (arr_set (m_data a) (sid s) a0) eqn:E; simpl; intros H; inversion H; subst; simpl.
      apply arr_set_ok in E as [_ ->]. rewrite set_nth_length. auto.
  Qed.

  Lemma step_nocache_other a s a1 i : step_nocache metric a s = Ok a1 -> i <> sid s ->
    nth_error (m_data a1) i = nth_error (m_data a) i /\ nth_error (m_mask a1) i = nth_error (m_mask a) i.
  Proof.
    unfold step_nocache. intros H Hi. destruct (idxs s).
    - destruct (arr_set (m_mask a) (sid s) true) eqn:E; simpl in H; inversion H; subst; simpl.
      apply arr_set_ok in E as [_ ->]. rewrite set_nth_other; auto.
    - destruct (metric (n :: l) (sid s)); simpl in H; [|discriminate].
      destruct (arr_set (m_data a) (sid s) a0) eqn:E; simpl in H; inversion H; subst; simpl.
      apply arr_set_ok in E as [_ ->]. rewrite set_nth_other; auto.
  Qed.

  Lemma loop_nocache_other sl a a1 i : loop_nocache metric sl a = Ok a1 -> ~ In i (map sid sl) ->
    nth_error (m_data a1) i = nth_error (m_data a) i /\ nth_error (m_mask a1) i = nth_error (m_mask a) i.
  Proof.
    revert a; induction sl as [|s sl IH]; intros a H Hi; cbn [loop_nocache] in H.
    - inversion H; auto.
    - destruct (step_nocache metric a s) as [a2|] eqn:E; cbn [bind] in H; [|discriminate].
      simpl in Hi. destruct (IH a2 H) as [H1 H2]; [tauto|].
      destruct (step_nocache_other a s a2 i E) as [H3 H4]; [intros ->; tauto|]. split; congruence.
  Qed.

  Lemma loop_nocache_len sl a a1 : loop_nocache metric sl a = Ok a1 ->
    length (m_data a1) = length (m_data a) /\ length (m_mask a1) = length (m_mask a).
  Proof.
    revert a; induction sl as [|s sl IH]; intros a H; cbn [loop_nocache] in H.
    - inversion H; auto.
    - destruct (step_nocache metric a s) as [a2|] eqn:E; cbn [bind] in H; [|discriminate].
      destruct (IH a2 H). destruct (step_nocache_len a s a2 E). split; congruence.
  Qed.

  Lemma loop_nocache_at sl a a1 s : loop_nocache metric sl a = Ok a1 -> NoDup (map sid sl) -> In s sl ->
    match idxs s with
    | [] => nth_error (m_mask a1) (sid s) = Some true
    | _ => (exists v, metric (idxs s) (sid s) = Ok v /\ nth_error (m_data a1) (sid s) = Some v) /\
           nth_error (m_mask a1) (sid s) = nth_error (m_mask a) (sid s)
    end.
  Proof.
    revert a; induction sl as [|s' sl IH]; intros a H Hnd Hin; [destruct Hin|].
    cbn [loop_nocache] in H. destruct (step_nocache metric a s') as [a2|] eqn:E; cbn [bind] in H; [|discriminate].
    inversion Hnd as [|? ? Hni Hnd']; subst. destruct Hin as [->|Hin].
    - destruct (loop_nocache_other sl a2 a1 (sid s) H Hni) as [Hd Hmk].
      unfold step_nocache in E. destruct (idxs s) as [|i0 it] eqn:Ei.
      + destruct (arr_set (m_mask a) (sid s) true) eqn:Ea; cbn [bind] in E; inversion E; subst; simpl in *.
        apply arr_set_ok in Ea as [Hl ->]. rewrite Hmk. apply set_nth_same; auto.
      + destruct (metric (i0 :: it) (sid s)) as [v|] eqn:Ev; cbn [bind] in E; [|discriminate].
        destruct (arr_set (m_data a) (sid s) v) eqn:Ea; cbn [bind] in E; inversion E; subst; simpl in *.
        apply arr_set_ok in Ea as [Hl ->]. split; auto. exists v. split; auto. rewrite Hd. apply set_nth_same; auto.
    - specialize (IH a2 H Hnd' Hin).
      assert (sid s <> sid s') as Hd. { intros Ed. apply Hni. rewrite <- Ed. apply in_map; auto. }
      destruct (step_nocache_other a s' a2 (sid s) E Hd) as [_ Hmk].
      destruct (idxs s); auto. rewrite Hmk in IH. auto.
  Qed.

  Lemma mask_bad_at a i m : length (m_data a) = length (m_mask a) ->
    nth_error (m_mask (mask_bad is_bad a)) i = Some m <->
    exists v m0, nth_error (m_data a) i = Some v /\ nth_error (m_mask a) i = Some m0 /\
                 m = (is_bad v || m0)%bool.
  Proof.
    destruct a as [d mk]; simpl. revert mk i; induction d as [|v d IH]; intros [|m0 mk] [|i]; simpl; intros Hl; try discriminate.
    - split; [discriminate|intros (?&?&?&?); discriminate].
    - split; [discriminate|intros (?&?&?&?); discriminate].
    - split.
      + intros H; inversion H. exists v, m0. split; [reflexivity|split; [reflexivity|]]. destruct (is_bad v); reflexivity.
      + intros (v' & m' & H1 & H2 & ->). inversion H1; inversion H2; subst. destruct (is_bad v'); auto.
    - apply IH. lia.
  Qed.

  Lemma run_nocache_spec sl d0 mk0 a :
    length d0 = length mk0 -> NoDup (map sid sl) ->
    run_slices metric is_bad 0 sl {| m_data := d0; m_mask := mk0 |} = Ok a ->
    length (m_data a) = length d0 /\
    forall s, In s sl -> sid s < length d0 ->
      exists v m, nth_error (m_data a) (sid s) = Some v /\ nth_error (m_mask a) (sid s) = Some m /\
        (idxs s <> [] -> metric (idxs s) (sid s) = Ok v) /\
        (m = true <-> idxs s = [] \/ is_bad v = true \/ nth_error mk0 (sid s) = Some true).
  Proof.
    intros Hlen Hnd H. unfold run_slices in H. simpl (Nat.ltb 0 0) in H. cbv iota in H.
    destruct (loop_nocache metric sl {| m_data := d0; m_mask := mk0 |}) as [a1|] eqn:E; cbn [bind] in H; [|discriminate].
    inversion H; subst; clear H. destruct (loop_nocache_len _ _ _ E) as [L1 L2]. simpl in L1, L2.
    split; [exact L1|]. intros s Hs Hlt.
    pose proof (loop_nocache_at _ _ _ s E Hnd Hs) as Hat.
    destruct (nth_error (m_data a1) (sid s)) as [v|] eqn:Ev.
    2:{ apply nth_error_None in Ev. lia. }
    destruct (nth_error (m_mask a1) (sid s)) as [m0|] eqn:Em.
    2:{ apply nth_error_None in Em. lia. }
    exists v, (is_bad v || m0)%bool. split; [exact Ev|]. split.
    { apply mask_bad_at; [lia|]. eauto. }
    destruct (idxs s) as [|i0 it] eqn:Ei.
    - inversion Hat; subst m0. split; [tauto|]. rewrite orb_true_r. tauto.
    - destruct Hat as [(v' & Hv' & Hn) Hmk]. simpl in Hmk. inversion Hn; subst v'.
      split; auto. rewrite <- Hmk. destruct (is_bad v); simpl; [tauto|].
      split; [intros ->; auto|]. intros [H|[H|H]]; try discriminate. inversion H; auto.
  Qed.

  Lemma loop_nocache_total sl a :
    (forall s, In s sl -> sid s < length (m_data a)) -> length (m_data a) = length (m_mask a) ->
    (forall s, In s sl -> idxs s <> [] -> exists v, metric (idxs s) (sid s) = Ok v) ->
    exists a1, loop_nocache metric sl a = Ok a1.
  Proof.
    revert a; induction sl as [|s sl IH]; intros a Hs Hl Hok; cbn [loop_nocache]; [eauto|].
    assert (exists a2, step_nocache metric a s = Ok a2) as (a2 & E).
    { unfold step_nocache. specialize (Hs s (or_introl eq_refl)). specialize (Hok s (or_introl eq_refl)).
      unfold arr_set. destruct (idxs s) as [|i0 it] eqn:Ei.
      - replace (Nat.ltb (sid s) (length (m_mask a))) with true by (symmetry; apply Nat.ltb_lt; lia). cbn [bind]. eauto.
      - destruct Hok as (v & Hv); [discriminate|]. rewrite Hv. cbn [bind].
        replace (Nat.ltb (sid s) (length (m_data a))) with true by (symmetry; apply Nat.ltb_lt; lia). cbn [bind]. eauto. }
    rewrite E. cbn [bind]. destruct (step_nocache_len _ _ _ E) as [L1 L2]. apply IH.
    - intros s' Hs'. rewrite L1. apply Hs. simpl; auto.
    - lia.
    - intros s' Hs'. apply Hok. simpl; auto.
  Qed.
End Masking.

(** * Witnesses for the statements the code does not satisfy *)
Definition bdl (sts : list stacker) (maps : list string) : bundle :=
  {| b_constraint := "night < 10"; b_slicer := 0; b_maps := maps; b_stackers := sts |}.
Definition cfg (n : Z) : stacker := {| st_class := "RandomDitherPerVisitStacker"; st_attrs := n |}.

(** plain, setting 1, setting 2: one group *)
Definition w_mixed : list (string * bundle) :=
  [("plain", bdl [] []); ("one", bdl [cfg 1] []); ("two", bdl [cfg 2] [])]%string.
(** setting 1, setting 2, plain: the last one is put into both groups *)
Definition w_twice : list (string * bundle) :=
  [("one", bdl [cfg 1] []); ("two", bdl [cfg 2] []); ("plain", bdl [] [])]%string.

Lemma groups_mutually_compatible_refuted :
  exists (d : list (string * bundle)) g x y,
    NoDup (map fst d) /\ In g (find_compatible_lists check_compatible d) /\
    In x g /\ In y g /\ stackers_conflict (snd x) (snd y).
Proof.
  exists w_mixed, w_mixed, ("one"%string, bdl [cfg 1] []), ("two"%string, bdl [cfg 2] []).
  split; [|split; [|split; [|split]]].
  - repeat constructor; simpl; intuition discriminate.
  - vm_compute. auto.
  - simpl; auto.
  - simpl; auto.
  - exists (cfg 1), (cfg 2). simpl. repeat split; auto. discriminate.
Qed.

Lemma calculated_once_refuted :
  exists (d : list (string * bundle)) k,
    NoDup (map fst d) /\ In k (map fst d) /\
    times_calculated k (find_compatible_lists check_compatible d) = 2.
Proof.
  exists w_twice, "plain"%string. split; [|split].
  - repeat constructor; simpl; intuition discriminate.
  - simpl; auto.
  - vm_compute. reflexivity.
Qed.

Lemma maps_ignored b1 b2 m1 m2 :
  check_compatible b1 b2 =
  check_compatible
    {| b_constraint := b_constraint b1; b_slicer := b_slicer b1; b_maps := m1; b_stackers := b_stackers b1 |}
    {| b_constraint := b_constraint b2; b_slicer := b_slicer b2; b_maps := m2; b_stackers := b_stackers b2 |}.
Proof. reflexivity. Qed.

Lemma maps_compared_refuted :
  exists (d : list (string * bundle)) g x y,
    NoDup (map fst d) /\ In g (find_compatible_lists check_compatible d) /\
    In x g /\ In y g /\ ~ same_maps (snd x) (snd y).
Proof.
  exists [("a", bdl [] ["DustMap"]); ("b", bdl [] [])]%string,
         [("a", bdl [] ["DustMap"]); ("b", bdl [] [])]%string,
         ("a", bdl [] ["DustMap"])%string, ("b", bdl [] [])%string.
  split; [|split; [|split; [|split]]].
  - repeat constructor; simpl; intuition discriminate.
  - vm_compute. auto.
  - simpl; auto.
  - simpl; auto.
  - intros H. specialize (H "DustMap"%string). simpl in H. tauto.
Qed.

Lemma count_occ_NoDup_1 (l : list string) k : NoDup l -> In k l -> count_occ string_dec l k = 1.
Proof. intros H Hi. apply (proj1 (NoDup_count_occ' string_dec l) H). auto. Qed.

Lemma calculated_once_no_conflict (d : list (string * bundle)) k :
  NoDup (map fst d) ->
  (forall x y, In x d -> In y d -> ~ stackers_conflict (snd x) (snd y)) ->
  In k (map fst d) -> times_calculated k (find_compatible_lists check_compatible d) = 1.
Proof.
  intros Hnd Hc Hk. unfold times_calculated.
  pose proof (groups_partition_no_conflict d Hc) as Hp.
  rewrite (proj1 (Permutation_count_occ string_dec _ _) (Permutation_map fst Hp) k).
  apply count_occ_NoDup_1; auto.
Qed.

(** cache with a metric that uses the slice point *)
Definition sp_metric (l : list nat) (i : nat) : result nat := Ok i.
Definition sp_slices := [{| sid := 0; idxs := [3; 5] |}; {| sid := 1; idxs := [5; 3] |}].
Lemma cache_slice_point_refuted :
  exists (metric : list nat -> nat -> result nat) is_bad n sl a0 a1 a2,
    NoDup (map sid sl) /\
    run_slices metric is_bad n sl a0 = Ok a1 /\ run_slices metric is_bad 0 sl a0 = Ok a2 /\
    m_data a1 <> m_data a2.
Proof.
  exists sp_metric, (fun _ => false), 2, sp_slices, {| m_data := [9; 9]; m_mask := [false; false] |},
    {| m_data := [0; 0]; m_mask := [false; false] |}, {| m_data := [0; 1]; m_mask := [false; false] |}.
  repeat split; try (vm_compute; reflexivity).
  - repeat constructor; simpl; intuition discriminate.
  - simpl. discriminate.
Qed.

(** a metric that depends on the order in which the visits are handed over *)
Definition hd_metric (l : list nat) (i : nat) : result nat := Ok (hd 0 l).
Lemma cache_order_refuted :
  exists (metric : list nat -> nat -> result nat) is_bad n sl a0 a1 a2,
    (forall l i j, metric l i = metric l j) /\ NoDup (map sid sl) /\
    run_slices metric is_bad n sl a0 = Ok a1 /\ run_slices metric is_bad 0 sl a0 = Ok a2 /\
    m_data a1 <> m_data a2.
Proof.
  exists hd_metric, (fun _ => false), 2, sp_slices, {| m_data := [9; 9]; m_mask := [false; false] |},
    {| m_data := [3; 3]; m_mask := [false; false] |}, {| m_data := [3; 5]; m_mask := [false; false] |}.
  repeat split; try (vm_compute; reflexivity).
  - repeat constructor; simpl; intuition discriminate.
  - simpl. discriminate.
Qed.

Lemma cache_invariant {V} (metric : list nat -> nat -> result V) n sl a0 a c :
  loop_cache metric n sl (a0, []) = Ok (a, c) ->
  length c <= n /\
  (forall i j ki kj si sj, nth_error c i = Some (ki, si) -> nth_error c j = Some (kj, sj) ->
     same_visits ki kj -> i = j) /\
  (forall k s, In (k, s) c -> k <> [] /\ exists sl0, In sl0 sl /\ sid sl0 = s /\ same_visits (idxs sl0) k).
Proof.
  intros H.
  assert (cache_shape n ([] : cache)) as H0 by (split; [simpl; lia|constructor]).
  destruct (loop_cache_shape metric n sl a0 [] a c H0 H) as [Hl Hk].
  split; auto. split.
  - clear -Hk. induction Hk as [|k s c Hf Hk IH]; intros [|i] [|j] ki kj si sj; simpl; try discriminate; auto.
    + intros E1 E2 Hs. inversion E1; subst. exfalso. apply nth_error_In in E2. eapply Hf; eauto.
    + intros E1 E2 Hs. inversion E2; subst. exfalso. apply nth_error_In in E1. eapply Hf; [exact E1|].
      apply same_visits_sym; auto.
    + intros E1 E2 Hs. f_equal. eapply IH; eauto.
  - assert (cache_from [] ([] : cache)) as Hf by (intros k s []).
    apply (loop_cache_from metric n sl [] a0 [] a c Hf H).
Qed.

Lemma cache_values {V} (metric : list nat -> nat -> result V) n sl a0 a c :
  depends_on_visits_only metric -> NoDup (map sid sl) ->
  loop_cache metric n sl (a0, []) = Ok (a, c) ->
  forall k s, In (k, s) c -> exists v, nth_error (m_data a) s = Some v /\ metric k s = Ok v.
Proof.
  intros Hm Hnd H k s Hi.
  assert (cache_sound metric [] a0 []) as H0 by (intros k' s' []).
  pose proof (loop_cache_sim metric Hm n sl [] a0 [] Hnd H0) as Hs.
  destruct (loop_nocache metric sl a0) as [a1|e].
  - destruct Hs as (c1 & E1 & Hc1). pose proof (eq_trans (eq_sym H) E1) as E2. inversion E2; subst.
    destruct (Hc1 k s Hi) as (Hne & sl0 & v & H1 & H2 & H3 & H4 & H5).
    exists v. split; auto. rewrite <- H5. apply Hm; auto. apply same_visits_sym; auto.
  - pose proof (eq_trans (eq_sym H) Hs) as E2. discriminate.
Qed.

Lemma masking_any_cache {V} (metric : list nat -> nat -> result V) is_bad n sl d0 mk0 a :
  (n = 0 \/ depends_on_visits_only metric) ->
  length d0 = length mk0 -> NoDup (map sid sl) ->
  run_slices metric is_bad n sl {| m_data := d0; m_mask := mk0 |} = Ok a ->
  length (m_data a) = length d0 /\
  forall s, In s sl -> sid s < length d0 ->
    exists v m, nth_error (m_data a) (sid s) = Some v /\ nth_error (m_mask a) (sid s) = Some m /\
      (idxs s <> [] -> metric (idxs s) (sid s) = Ok v) /\
      (m = true <-> idxs s = [] \/ is_bad v = true \/ nth_error mk0 (sid s) = Some true).
Proof.
  intros Hn Hl Hnd H. apply run_nocache_spec; auto.
  destruct Hn as [->|Hm]; auto. rewrite <- (cache_transparent metric is_bad Hm n); auto.
Qed.

Lemma run_slices_total {V} (metric : list nat -> nat -> result V) is_bad n sl d0 mk0 :
  (n = 0 \/ depends_on_visits_only metric) ->
  length d0 = length mk0 -> NoDup (map sid sl) -> (forall s, In s sl -> sid s < length d0) ->
  (forall s, In s sl -> idxs s <> [] -> exists v, metric (idxs s) (sid s) = Ok v) ->
  exists a, run_slices metric is_bad n sl {| m_data := d0; m_mask := mk0 |} = Ok a.
Proof.
  intros Hn Hl Hnd Hs Hok.
  assert (exists a, run_slices metric is_bad 0 sl {| m_data := d0; m_mask := mk0 |} = Ok a) as (a & E).
  { unfold run_slices. change (Nat.ltb 0 0) with false. cbv iota.
    destruct (loop_nocache_total metric sl {| m_data := d0; m_mask := mk0 |}) as (a1 & ->); auto.
    cbn [bind]. eauto. }
  exists a. destruct Hn as [->|Hm]; auto. rewrite (cache_transparent metric is_bad Hm n); auto.
Qed.
