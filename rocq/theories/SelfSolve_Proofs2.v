(** Proofs: running numbers, the matrix and the solution. *)
From Coq Require Import Reals Permutation Sorted Lia Lra.
From Verif Require Import Base Technical_Model Technical_Proofs3 SelfSolve_Model SelfSolve_Spec SelfSolve_Proofs.
Open Scope Z_scope.

(** * Slices of equal numbers *)
Lemma ss_le : forall k x, (ss_left k x <= ss_right k x)%nat.
Proof.
  intros k x. unfold ss_left, ss_right. induction k as [|y t IH]; [cbn; lia|]. cbn [filter].
  destruct (Z.ltb_spec y x), (Z.leb_spec y x); cbn [length]; lia.
Qed.
Lemma ss_zero : forall k x, (forall y, In y k -> x <= y) -> ss_left k x = 0%nat.
Proof.
  intros k x H. unfold ss_left. induction k as [|y t IH]; [reflexivity|]. cbn [filter].
  destruct (Z.ltb_spec y x) as [L|L]; [specialize (H y (or_introl eq_refl)); lia|]. apply IH. intros z I. apply H. right. exact I.
Qed.
Lemma ss_zero_r : forall k x, (forall y, In y k -> x < y) -> ss_right k x = 0%nat.
Proof.
  intros k x H. unfold ss_right. induction k as [|y t IH]; [reflexivity|]. cbn [filter].
  destruct (Z.leb_spec y x) as [L|L]; [specialize (H y (or_introl eq_refl)); lia|]. apply IH. intros z I. apply H. right. exact I.
Qed.
Lemma slice_iff : forall k x i, StronglySorted Z.le k -> (i < length k)%nat ->
  ((ss_left k x <= i < ss_right k x)%nat <-> nth i k 0 = x).
Proof.
  intros k x i S. revert i. induction S as [|y t S IH F]; intros i I; [cbn in I; lia|]. rewrite Forall_forall in F.
  assert (L : ss_left (y :: t) x = ((if (y <? x)%Z then 1 else 0) + ss_left t x)%nat) by (unfold ss_left; cbn [filter]; destruct (y <? x); reflexivity).
  assert (R : ss_right (y :: t) x = ((if (y <=? x)%Z then 1 else 0) + ss_right t x)%nat) by (unfold ss_right; cbn [filter]; destruct (y <=? x); reflexivity).
  rewrite L, R. cbn [length] in I. destruct (Z.ltb_spec y x) as [A|A].
  - destruct (Z.leb_spec y x) as [B|B]; [|lia]. destruct i as [|i]; cbn [nth]; [split; lia|]. rewrite <- (IH i) by lia. lia.
  - rewrite (ss_zero t x) by (intros z J; specialize (F z J); lia). destruct (Z.leb_spec y x) as [B|B].
    + assert (y = x) by lia. subst y. destruct i as [|i]; cbn [nth]; [lia|]. rewrite <- (IH i) by lia.
      rewrite (ss_zero t x) by (intros z J; specialize (F z J); lia). lia.
    + rewrite (ss_zero_r t x) by (intros z J; specialize (F z J); lia). destruct i as [|i]; cbn [nth]; [lia|].
      assert (J : In (nth i t 0) t) by (apply nth_In; lia). specialize (F _ J). lia.
Qed.
Fixpoint index (x : Z) (u : list Z) : nat := match u with [] => 0%nat | y :: t => if y =? x then 0%nat else S (index x t) end.
Lemma index_app : forall x u v, ~ In x u -> index x (u ++ x :: v) = length u.
Proof.
  intros x u v N. induction u as [|y t IH]; cbn [index app length]; [rewrite Z.eqb_refl; reflexivity|].
  destruct (Z.eqb_spec y x) as [->|D]; [destruct N; left; reflexivity|]. f_equal. apply IH. intros I. apply N. right. exact I.
Qed.
Lemma index_lt : forall x u, In x u -> (index x u < length u)%nat.
Proof.
  intros x u. induction u as [|y t IH]; intros I; [destruct I|]. cbn [index length]. destruct (Z.eqb_spec y x) as [|D]; [lia|].
  destruct I as [->|I]; [destruct D; reflexivity|]. specialize (IH I). lia.
Qed.
Lemma index_nth : forall x u d, In x u -> nth (index x u) u d = x.
Proof.
  intros x u d. induction u as [|y t IH]; intros I; [destruct I|]. cbn [index]. destruct (Z.eqb_spec y x) as [E|D]; [exact E|].
  destruct I as [->|I]; [destruct D; reflexivity|]. cbn [nth]. apply IH. exact I.
Qed.
Lemma index_of_nth : forall u i d, NoDup u -> (i < length u)%nat -> index (nth i u d) u = i.
Proof.
  intros u i d N. revert i. induction N as [|y t N1 N IH]; intros i I; [cbn in I; lia|]. destruct i as [|i]; cbn [nth index]; [rewrite Z.eqb_refl; reflexivity|].
  cbn [length] in I. destruct (Z.eqb_spec y (nth i t d)) as [E|E]; [destruct N1; rewrite E; apply nth_In; lia|]. f_equal. apply IH. lia.
Qed.
Lemma sorted_lt_nodup : forall l, StronglySorted Z.lt l -> NoDup l.
Proof.
  intros l S. induction S as [|x t S IH F]; constructor; [|exact IH]. intros I. rewrite Forall_forall in F. specialize (F x I). lia.
Qed.
Lemma map_sorted : forall key l, StronglySorted (fun a b : obs => key a <= key b) l -> StronglySorted Z.le (map key l).
Proof.
  intros key l S. induction S as [|x t S IH F]; [constructor|]. cbn [map]. constructor; [exact IH|].
  rewrite Forall_forall in *. intros y I. apply in_map_iff in I. destruct I as [z [<- I]]. apply F. exact I.
Qed.
Lemma assign_slice_seq : forall set (h : nat -> obs) n a b v,
  assign_slice set (map h (seq 0 n)) a b v = map (fun i => if (Nat.leb a i && Nat.ltb i b)%bool then set (h i) v else h i) (seq 0 n).
Proof.
  intros set h n a b v. unfold assign_slice. rewrite map_length, seq_length. rewrite <- (map_id (seq 0 n)) at 1. rewrite combine_map2, map_map. reflexivity.
Qed.
Lemma reindex_map : forall key set start l, StronglySorted (fun a b => key a <= key b) l ->
  reindex key set start l = map (fun o => set o (start + Z.of_nat (index (key o) (unique_z (map key l))))) l.
Proof.
  intros key set start l S. unfold reindex. cbv zeta. set (k := map key l). set (u := unique_z k).
  assert (NU : NoDup u) by (apply sorted_lt_nodup, unique_z_sorted).
  assert (SK : StronglySorted Z.le k) by (apply map_sorted; exact S).
  assert (LK : length k = length l) by apply map_length.
  assert (KN : forall i, (i < length l)%nat -> nth i k 0 = key (nth i l d0)).
  { intros i I. rewrite (nth_indep _ 0 (key d0)) by (rewrite LK; exact I). apply map_nth. }
  assert (G : forall v w, u = w ++ v ->
    fold_left (fun acc q => assign_slice set acc (ss_left k (snd q)) (ss_right k (snd q)) (start + Z.of_nat (fst q))) (combine (seq (length w) (length v)) v)
      (map (fun i => let o := nth i l d0 in if in_dec Z.eq_dec (key o) w then set o (start + Z.of_nat (index (key o) u)) else o) (seq 0 (length l))) =
    map (fun i => let o := nth i l d0 in if in_dec Z.eq_dec (key o) u then set o (start + Z.of_nat (index (key o) u)) else o) (seq 0 (length l))).
  { induction v as [|x v IH]; intros w E.
    - cbn [combine length seq fold_left]. rewrite app_nil_r in E. rewrite <- E. reflexivity.
    - cbn [length seq combine fold_left fst snd]. rewrite assign_slice_seq.
      match goal with |- fold_left _ _ ?m = _ => replace m with
        (map (fun i => let o := nth i l d0 in if in_dec Z.eq_dec (key o) (w ++ [x]) then set o (start + Z.of_nat (index (key o) u)) else o) (seq 0 (length l))) end.
      + etransitivity; [|apply (IH (w ++ [x])); rewrite <- app_assoc; exact E]. rewrite app_length. cbn [length]. rewrite Nat.add_1_r. reflexivity.
      + apply map_ext_in. intros i I. apply in_seq in I. destruct I as [_ I]. rewrite Nat.add_0_l in I. cbv zeta.
        set (o := nth i l d0). assert (SI := slice_iff k x i SK). rewrite LK in SI. specialize (SI I). rewrite (KN i I) in SI. fold o in SI.
        assert (XW : ~ In x w). { rewrite E in NU. apply NoDup_remove_2 in NU. intros J. apply NU. apply in_app_iff. left. exact J. }
        destruct (Z.eq_dec (key o) x) as [D|D].
        * assert (T : (Nat.leb (ss_left k x) i && Nat.ltb i (ss_right k x))%bool = true).
          { apply andb_true_intro. apply SI in D. split; [apply Nat.leb_le; lia|apply Nat.ltb_lt; lia]. }
          rewrite T. destruct (in_dec Z.eq_dec (key o) (w ++ [x])) as [J|J]; [|destruct J; apply in_app_iff; right; left; symmetry; exact D].
          destruct (in_dec Z.eq_dec (key o) w) as [J'|J']; [rewrite D in J'; contradiction|].
          rewrite D, E, index_app by exact XW. reflexivity.
        * assert (T : (Nat.leb (ss_left k x) i && Nat.ltb i (ss_right k x))%bool = false).
          { destruct (Nat.leb_spec (ss_left k x) i) as [P|P]; [|reflexivity]. destruct (Nat.ltb_spec i (ss_right k x)) as [Q|Q]; [|reflexivity].
            destruct D. apply SI. lia. }
          rewrite T. destruct (in_dec Z.eq_dec (key o) (w ++ [x])) as [J|J], (in_dec Z.eq_dec (key o) w) as [J'|J']; try reflexivity.
          -- apply in_app_iff in J. destruct J as [J|[J|[]]]; [contradiction|]. destruct D. symmetry. exact J.
          -- destruct J. apply in_app_iff. left. exact J'. }
  specialize (G u [] eq_refl). cbn [length] in G.
  match type of G with fold_left _ _ ?m = _ => replace m with l in G end.
  - rewrite G. transitivity (map (fun o => set o (start + Z.of_nat (index (key o) u))) (map (fun i => nth i l d0) (seq 0 (length l)))); [|rewrite seq_nth_map; reflexivity].
    rewrite map_map. apply map_ext_in. intros i I. apply in_seq in I. destruct I as [_ I]. rewrite Nat.add_0_l in I. cbv zeta.
    destruct (in_dec Z.eq_dec (key (nth i l d0)) u) as [J|J]; [reflexivity|]. destruct J. apply unique_z_in. apply in_map, nth_In. exact I.
  - symmetry. etransitivity; [|apply (seq_nth_map d0)]. apply map_ext. intros i. cbv zeta. destruct (in_dec Z.eq_dec (key (nth i l d0)) []) as [[]|]. reflexivity.
Qed.

(** * What clean_data gives *)
Definition renumber (ps ss : list Z) (o : obs) : obs :=
  {| o_id := 1 + Z.of_nat (index (o_id o) ss); o_patch := Z.of_nat (index (o_patch o) ps); o_mag := o_mag o; o_unc := o_unc o |}.
Lemma unique_ext : forall a b, (forall x, In x a <-> In x b) -> unique_z a = unique_z b.
Proof.
  assert (G : forall u v, StronglySorted Z.lt u -> StronglySorted Z.lt v -> (forall x, In x u <-> In x v) -> u = v).
  { induction u as [|x u IH]; intros v SU SV H.
    - destruct v as [|y v]; [reflexivity|]. destruct (proj2 (H y) (or_introl eq_refl)).
    - destruct v as [|y v]; [destruct (proj1 (H x) (or_introl eq_refl))|].
      inversion SU as [|? ? SU1 FU]; inversion SV as [|? ? SV1 FV]; subst. rewrite Forall_forall in FU, FV.
      assert (x = y).
      { destruct (proj1 (H x) (or_introl eq_refl)) as [E|I]; [congruence|]. destruct (proj2 (H y) (or_introl eq_refl)) as [E|J]; [congruence|].
        specialize (FU y J). specialize (FV x I). lia. }
      subst y. f_equal. apply IH; try assumption. intros z. split; intros I.
      + destruct (proj1 (H z) (or_intror I)) as [E|J]; [|exact J]. subst z. specialize (FU x I). lia.
      + destruct (proj2 (H z) (or_intror I)) as [E|J]; [|exact J]. subst z. specialize (FV x I). lia. }
  intros a b H. apply G; try apply unique_z_sorted. intros x. rewrite !unique_z_in. apply H.
Qed.
Lemma clean_form : forall sort l r, sorts sort -> clean_loop sort (S (length l)) l = Some r ->
  exists r' c, clean_data sort l = Some c /\ Permutation r' r /\
    c_patches c = unique_z (map o_patch r) /\ c_stars c = unique_z (map o_id r) /\
    c_obs c = map (renumber (c_patches c) (c_stars c)) r'.
Proof.
  intros sort l r HS E. unfold clean_data. rewrite E. cbv zeta.
  assert (P1 := sort_perm sort HS o_patch r). set (r1 := sort o_patch r) in *.
  assert (U1 : unique_z (map o_patch r1) = unique_z (map o_patch r)).
  { apply unique_ext. intros x. split; apply Permutation_in; [|apply Permutation_sym]; apply Permutation_map; exact P1. }
  assert (R1 := reindex_map o_patch set_patch 0 r1 (sort_sorted sort HS o_patch r)). rewrite R1, U1 in *. clear R1.
  set (ps := unique_z (map o_patch r)) in *. set (f := fun o => set_patch o (0 + Z.of_nat (index (o_patch o) ps))).
  assert (P2 := sort_perm sort HS o_id (map f r1)). assert (S2 := sort_sorted sort HS o_id (map f r1)). set (r2 := sort o_id (map f r1)) in *.
  destruct (Permutation_map_inv _ _ P2) as [r' [E2 P3]].
  assert (U2 : unique_z (map o_id r2) = unique_z (map o_id r)).
  { apply unique_ext. intros x. rewrite E2, map_map. change (fun x => o_id (f x)) with o_id.
    split; apply Permutation_in; apply Permutation_map.
    - eapply Permutation_trans; [apply Permutation_sym; exact P3|exact P1].
    - eapply Permutation_trans; [apply Permutation_sym; exact P1|exact P3]. }
  exists r'. eexists. split; [reflexivity|]. cbn [c_obs c_patches c_stars].
  split; [eapply Permutation_trans; [apply Permutation_sym; exact P3|exact P1]|]. split; [reflexivity|]. split; [exact U2|].
  rewrite reindex_map by exact S2. rewrite U2, E2, map_map. apply map_ext. intros o. reflexivity.
Qed.

(** * The matrix *)
Lemma fold_max_top : forall l x m, In m (x :: l) -> (forall y, In y (x :: l) -> y <= m) -> fold_left Z.max l x = m.
Proof.
  induction l as [|y t IH]; intros x m I H; cbn [fold_left].
  - destruct I as [->|[]]. reflexivity.
  - assert (X := H x (or_introl eq_refl)). assert (Y := H y (or_intror (or_introl eq_refl))). apply IH.
    + destruct I as [->|[->|I]]; [left; lia|left; lia|right; exact I].
    + intros z [<-|J]; [lia|]. apply H. right. right. exact J.
Qed.
Lemma combine_map_r : forall {A B C} (f : B -> C) (u : list A) l, combine u (map f l) = map (fun q => (fst q, f (snd q))) (combine u l).
Proof. intros A B C f u. induction u as [|x t IH]; intros l; [reflexivity|]. destruct l as [|y l]; [reflexivity|]. cbn [map combine fst snd]. rewrite IH. reflexivity. Qed.
Lemma build_form : forall c r', c_patches c = unique_z (map o_patch r') -> c_stars c = unique_z (map o_id r') ->
  c_obs c = map (renumber (c_patches c) (c_stars c)) r' -> r' <> [] ->
  let pi o := index (o_patch o) (c_patches c) in let si o := index (o_id o) (c_stars c) in
  build_matrix c = Ok ({| m_rows := length r'; m_cols := length (c_patches c) + length (c_stars c);
    m_entries := map (fun q => (fst q, Z.of_nat (pi (snd q)), (1 / o_unc (snd q))%R)) (combine (seq 0 (length r')) r') ++
                 map (fun q => (fst q, Z.of_nat (length (c_patches c) + si (snd q)), (1 / o_unc (snd q))%R)) (combine (seq 0 (length r')) r') |},
    map (fun o => (o_mag o / o_unc o)%R) r').
Proof.
  intros c r' EP ES EO N pi si. unfold build_matrix. set (np := length (c_patches c)). cbv zeta. rewrite EO, map_length, map_map. cbn [renumber o_patch].
  assert (PI : forall o, In o r' -> (pi o < np)%nat). { intros o I. apply index_lt. rewrite EP. apply unique_z_in. apply in_map. exact I. }
  assert (SI : forall o, In o r' -> (si o < length (c_stars c))%nat). { intros o I. apply index_lt. rewrite ES. apply unique_z_in. apply in_map. exact I. }
  assert (M : maximum (map (fun x => Z.of_nat (index (o_patch x) (c_patches c))) r') = Ok (Z.of_nat np - 1)).
  { destruct r' as [|o t]; [contradiction|]. unfold maximum. cbn [map]. f_equal.
    apply (fold_max_top (map (fun x => Z.of_nat (index (o_patch x) (c_patches c))) t)).
    - assert (NP : (0 < np)%nat) by (specialize (PI o (or_introl eq_refl)); lia).
      set (x := nth (np - 1) (c_patches c) 0). assert (J : In x (c_patches c)) by (apply nth_In; fold np; lia).
      rewrite EP in J. apply (proj1 (unique_z_in _ _)) in J. apply in_map_iff in J. destruct J as [p [PX IP]].
      change (In (Z.of_nat np - 1) (map (fun x => Z.of_nat (index (o_patch x) (c_patches c))) (o :: t))).
      apply in_map_iff. exists p. split; [|exact IP]. rewrite PX. unfold x. rewrite index_of_nth; [lia| |fold np; lia].
      rewrite EP. apply sorted_lt_nodup, unique_z_sorted.
    - intros y J. change (In y (map (fun x => Z.of_nat (index (o_patch x) (c_patches c))) (o :: t))) in J.
      apply in_map_iff in J. destruct J as [p [<- IP]]. specialize (PI p IP). unfold pi in PI. lia. }
  rewrite M. cbn [bind].
  assert (W : forall {B} (g : nat * obs -> B), map g (combine (seq 0 (length r')) (map (renumber (c_patches c) (c_stars c)) r')) =
              map (fun q => g (fst q, renumber (c_patches c) (c_stars c) (snd q))) (combine (seq 0 (length r')) r')).
  { intros B g. rewrite combine_map_r, map_map. reflexivity. }
  rewrite !W. cbn [fst snd renumber o_patch o_id o_unc]. unfold coo_matrix.
  assert (AR : forall o, 1 + Z.of_nat (index (o_id o) (c_stars c)) + (Z.of_nat np - 1) = Z.of_nat (np + si o)) by (intros o; unfold si; lia).
  rewrite (map_ext (fun q : nat * obs => (fst q, 1 + Z.of_nat (index (o_id (snd q)) (c_stars c)) + (Z.of_nat np - 1), (1 / o_unc (snd q))%R))
                   (fun q : nat * obs => (fst q, Z.of_nat (np + si (snd q)), (1 / o_unc (snd q))%R))) by (intros q; rewrite AR; reflexivity).
  match goal with |- context [forallb ?f ?l] => replace (forallb f l) with true end.
  - cbn [bind]. rewrite map_map. reflexivity.
  - symmetry. apply forallb_forall. intros q I. assert (IC : forall p, In p (combine (seq 0 (length r')) r') -> In (snd p) r').
    { intros [a b] J. apply in_combine_r in J. exact J. }
    apply in_app_iff in I. destruct I as [I|I]; apply in_map_iff in I; destruct I as [p [<- J]]; apply IC in J; cbn [fst snd].
    + specialize (PI _ J). unfold pi in PI. apply andb_true_intro. split; [apply Z.leb_le|apply Z.ltb_lt]; lia.
    + specialize (SI _ J). apply andb_true_intro. split; [apply Z.leb_le|apply Z.ltb_lt]; lia.
Qed.

Open Scope R_scope.
Lemma rsum_app : forall a b, rsum (a ++ b) = rsum a + rsum b.
Proof. intros a b. unfold rsum. induction a as [|x t IH]; cbn [app fold_right]; lra. Qed.
Lemma rsum_perm : forall a b, Permutation a b -> rsum a = rsum b.
Proof. intros a b P. induction P; unfold rsum in *; cbn [fold_right] in *; lra. Qed.
Lemma rsum_zero : forall {A} (f : A -> R) l, (forall x, In x l -> f x = 0) -> rsum (map f l) = 0.
Proof.
  intros A f l H. induction l as [|x t IH]; [reflexivity|]. unfold rsum in *. cbn [map fold_right]. rewrite H by (left; reflexivity).
  rewrite IH by (intros y I; apply H; right; exact I). lra.
Qed.
Lemma pick_row : forall (F : obs -> R) l a i, (a <= i < a + length l)%nat ->
  rsum (map (fun q => if Nat.eqb (fst q) i then F (snd q) else 0) (combine (seq a (length l)) l)) = F (nth (i - a) l d0).
Proof.
  intros F l. induction l as [|o t IH]; intros a i I; [cbn [length] in I; lia|]. cbn [length seq combine map fst snd].
  change (rsum (?x :: ?y)) with (x + rsum y). cbn [length] in I. destruct (Nat.eqb_spec a i) as [E|E].
  - subst i. rewrite Nat.sub_diag. cbn [nth]. rewrite rsum_zero; [lra|]. intros [j o'] J. apply in_combine_l in J. apply in_seq in J. cbn [fst].
    destruct (Nat.eqb_spec j a); [lia|reflexivity].
  - rewrite IH by lia. replace (i - a)%nat with (S (i - S a)) by lia. cbn [nth]. lra.
Qed.
(** the misfit of the vector of some zero points and magnitudes is their chi squared *)
Lemma misfit_chi2 : forall c r', c_patches c = unique_z (map o_patch r') -> c_stars c = unique_z (map o_id r') ->
  c_obs c = map (renumber (c_patches c) (c_stars c)) r' -> r' <> [] ->
  exists a b, build_matrix c = Ok (a, b) /\ m_cols a = (length (c_patches c) + length (c_stars c))%nat /\ length b = m_rows a /\
    forall zp mag, misfit a b (map zp (c_patches c) ++ map mag (c_stars c)) = chi2 zp mag r'.
Proof.
  intros c r' EP ES EO N. assert (B := build_form c r' EP ES EO N). cbv zeta in B. eexists. eexists. split; [exact B|]. split; [reflexivity|].
  split; [apply map_length|]. intros zp mag. unfold misfit, chi2. cbn [m_rows].
  transitivity (rsum (map (fun o => ((o_mag o - (zp (o_patch o) + mag (o_id o))) / o_unc o) ^ 2) (map (fun i => nth i r' d0) (seq 0 (length r'))))); [|rewrite seq_nth_map; reflexivity].
  rewrite map_map. f_equal. apply map_ext_in. intros i I. apply in_seq in I. destruct I as [_ I]. rewrite Nat.add_0_l in I.
  unfold row_times. cbn [m_entries]. rewrite map_app, rsum_app, !map_map. cbn [fst snd].
  set (x := map zp (c_patches c) ++ map mag (c_stars c)).
  assert (IN : In (nth i r' d0) r') by (apply nth_In; exact I).
  rewrite (pick_row (fun o => 1 / o_unc o * nth (Z.to_nat (Z.of_nat (index (o_patch o) (c_patches c)))) x 0)) by lia.
  rewrite (pick_row (fun o => 1 / o_unc o * nth (Z.to_nat (Z.of_nat (length (c_patches c) + index (o_id o) (c_stars c)))) x 0)) by lia.
  rewrite Nat.sub_0_r, !Nat2Z.id. set (o := nth i r' d0) in *.
  assert (JP : In (o_patch o) (c_patches c)) by (rewrite EP; apply unique_z_in, in_map; exact IN).
  assert (JS : In (o_id o) (c_stars c)) by (rewrite ES; apply unique_z_in, in_map; exact IN).
  replace (nth (index (o_patch o) (c_patches c)) x 0) with (zp (o_patch o)).
  2:{ unfold x. rewrite app_nth1 by (rewrite map_length; apply index_lt; exact JP).
      rewrite (nth_indep _ 0 (zp 0%Z)) by (rewrite map_length; apply index_lt; exact JP). rewrite map_nth, index_nth by exact JP. reflexivity. }
  replace (nth (length (c_patches c) + index (o_id o) (c_stars c)) x 0) with (mag (o_id o)).
  2:{ unfold x. rewrite app_nth2 by (rewrite map_length; lia). rewrite map_length.
      replace (length (c_patches c) + index (o_id o) (c_stars c) - length (c_patches c))%nat with (index (o_id o) (c_stars c)) by lia.
      rewrite (nth_indep _ 0 (mag 0%Z)) by (rewrite map_length; apply index_lt; exact JS). rewrite map_nth, index_nth by exact JS. reflexivity. }
  rewrite (nth_indep _ 0 (o_mag d0 / o_unc d0)) by (rewrite map_length; exact I).
  rewrite (map_nth (fun o => o_mag o / o_unc o)). fold o. unfold Rdiv. ring.
Qed.
Lemma chi2_perm : forall zp mag a b, Permutation a b -> chi2 zp mag a = chi2 zp mag b.
Proof. intros zp mag a b P. unfold chi2. apply rsum_perm, Permutation_map. exact P. Qed.
