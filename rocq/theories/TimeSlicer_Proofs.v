From Verif Require Import Base Slicer_Model Slicer_Spec Slicer_Proofs TimeSlicer_Model TimeSlicer_Spec.
From Coq Require Import Permutation Sorted Lia ZifyBool ZifyNat.
Open Scope Z_scope.

(** * TimeIntervalSlicer *)
Lemma count_le_arange lo step x m : 0 < step -> lo <= x ->
  length (filter (fun e => e <=? x) (map (fun k => lo + Z.of_nat k * step) (seq 0 m))) =
  Nat.min m (S (Z.to_nat ((x - lo) / step))).
Proof.
  intros Hs Hx. induction m as [|m IH]; [reflexivity|].
  rewrite seq_S, map_app, filter_app, app_length, IH. simpl.
  assert (0 <= (x - lo) / step) as Hq by (apply Z.div_pos; lia).
  pose proof (Z.mul_div_le (x - lo) step Hs) as H1.
  pose proof (Z.mul_succ_div_gt (x - lo) step Hs) as H2.
  set (q := (x - lo) / step) in *.
  destruct (Z.leb_spec (lo + Z.of_nat m * step) x) as [H|H]; simpl.
  - assert (Z.of_nat m <= q) by nia. lia.
  - assert (q < Z.of_nat m) by nia. lia.
Qed.

Lemma digitize_arange lo hi step x k : 0 < step -> lo <= x -> (S k < length (arange lo hi step))%nat ->
  (digitize (arange lo hi step) x = S k <-> lo + Z.of_nat k * step <= x < lo + Z.of_nat (S k) * step).
Proof.
  intros Hs Hx Hk. unfold digitize, arange in *. rewrite map_length, seq_length in Hk.
  rewrite count_le_arange by auto.
  assert (0 <= (x - lo) / step) as Hq by (apply Z.div_pos; lia).
  pose proof (Z.mul_div_le (x - lo) step Hs) as H1.
  pose proof (Z.mul_succ_div_gt (x - lo) step Hs) as H2.
  set (q := (x - lo) / step) in *. set (m := Z.to_nat _) in *.
  split; intros H.
  - assert (q = Z.of_nat k) by lia. nia.
  - assert (q = Z.of_nat k) by nia. lia.
Qed.

Lemma digitize_pos lo hi step x : 0 < step -> lo <= x -> (0 < length (arange lo hi step))%nat ->
  (0 < digitize (arange lo hi step) x)%nat.
Proof.
  intros Hs Hx Hk. unfold digitize, arange in *. rewrite map_length, seq_length in Hk.
  rewrite count_le_arange by auto. lia.
Qed.

Lemma arange_length_more lo hi step : 0 < step -> lo <= hi ->
  length (arange lo (hi + step) step) = S (length (arange lo hi step)).
Proof.
  intros Hs Hl. unfold arange. rewrite !map_length, !seq_length.
  replace (hi + step - lo + step - 1) with ((hi - lo + step - 1) + 1 * step) by lia.
  rewrite Z.div_add by lia. assert (0 <= (hi - lo + step - 1) / step) by (apply Z.div_pos; lia). lia.
Qed.

Lemma nth_error_arange0 lo hi step i t : nth_error (arange lo hi step) i = Some t -> t = lo + Z.of_nat i * step.
Proof.
  unfold arange. rewrite nth_error_map. intros H.
  set (n := Z.to_nat _) in *. destruct (nth_error (seq 0 n) i) eqn:E; [|discriminate].
  assert (i < n)%nat as Hl.
  { rewrite <- (seq_length n 0). apply nth_error_Some. congruence. }
  rewrite (nth_error_nth' _ 0%nat) in E by (rewrite seq_length; auto).
  rewrite seq_nth in E by auto. inversion E; subst. simpl in H. inversion H. lia.
Qed.

(** ** dictionaries *)
Lemma dget_dset (d : list (nat * list nat)) k v k' :
  dget Nat.eqb (dset Nat.eqb d k v) k' = if Nat.eqb k' k then Some v else dget Nat.eqb d k'.
Proof.
  induction d as [|[k1 v1] t IH]; simpl.
  - reflexivity.
  - destruct (Nat.eqb_spec k k1) as [->|Hn]; simpl.
    + destruct (Nat.eqb k' k1); auto.
    + rewrite IH. destruct (Nat.eqb_spec k' k1) as [->|Hn2]; auto.
      destruct (Nat.eqb_spec k1 k); auto. congruence.
Qed.

Lemma dget_dupdate new : forall d k, NoDup (map fst new) ->
  dget Nat.eqb (dupdate d new) k = match dget Nat.eqb new k with Some l => Some l | None => dget Nat.eqb d k end.
Proof.
  unfold dupdate. induction new as [|[k1 v1] t IH]; intros d k Hn; simpl; auto.
  inversion Hn as [|? ? Hni Hn']; subst. rewrite IH by auto. rewrite dget_dset.
  destruct (Nat.eqb_spec k k1) as [->|Hne]; auto.
  destruct (dget Nat.eqb t k1) eqn:E; auto. exfalso. apply Hni.
  clear -E. induction t as [|[k2 v2] t IH]; simpl in *; [discriminate|].
  destruct (Nat.eqb_spec k1 k2); auto.
Qed.

Lemma dget_group_by sids k :
  dget Nat.eqb (group_by sids) k =
  if in_dec Nat.eq_dec k sids
  then Some (map snd (filter (fun p => Nat.eqb (fst p) k) (combine sids (seq 0 (length sids)))))
  else None.
Proof.
  unfold group_by.
  assert (forall ks (g : nat -> list nat), dget Nat.eqb (map (fun k => (k, g k)) ks) k =
            if in_dec Nat.eq_dec k ks then Some (g k) else None) as H.
  { intros ks g. induction ks as [|k1 ks IH]; simpl; auto.
    destruct (Nat.eqb_spec k k1) as [->|Hn].
    - destruct (Nat.eq_dec k1 k1); [reflexivity|congruence].
    - destruct (Nat.eq_dec k1 k); [congruence|]. rewrite IH. destruct (in_dec Nat.eq_dec k ks); auto. }
  rewrite H. destruct (in_dec Nat.eq_dec k (nodup Nat.eq_dec sids)) as [Hi|Hi];
    destruct (in_dec Nat.eq_dec k sids) as [Hj|Hj]; auto; rewrite nodup_In in Hi; tauto.
Qed.

Lemma group_by_keys_NoDup sids : NoDup (map fst (group_by sids)).
Proof. unfold group_by. rewrite map_map. simpl. rewrite map_id. apply NoDup_nodup. Qed.

Lemma in_combine_seq {A} (l : list A) s a v : In (a, v) (combine l (seq s (length l))) <-> (s <= v)%nat /\ nth_error l (v - s) = Some a.
Proof.
  revert s; induction l as [|h t IH]; intros s; simpl.
  - split; [tauto|]. intros [_ H]. destruct (v - s)%nat; discriminate.
  - rewrite IH. split.
    + intros [H|[H1 H2]].
      * inversion H; subst. split; [lia|]. replace (v - v)%nat with 0%nat by lia. auto.
      * split; [lia|]. replace (v - s)%nat with (S (v - S s))%nat by lia. auto.
    + intros [H1 H2]. destruct (Nat.eq_dec v s) as [->|Hn].
      * left. replace (s - s)%nat with 0%nat in H2 by lia. inversion H2; auto.
      * right. split; [lia|]. replace (v - s)%nat with (S (v - S s))%nat in H2 by lia. auto.
Qed.

Lemma group_members sids k v :
  In v (map snd (filter (fun p => Nat.eqb (fst p) k) (combine sids (seq 0 (length sids))))) <-> nth_error sids v = Some k.
Proof.
  rewrite in_map_iff. split.
  - intros ([a v'] & E & H). simpl in E; subst v'. apply filter_In in H as [H1 H2]. simpl in H2.
    apply Nat.eqb_eq in H2; subst a. apply in_combine_seq in H1 as [_ H1]. rewrite Nat.sub_0_r in H1. auto.
  - intros H. exists (k, v). split; auto. apply filter_In. split; [|simpl; apply Nat.eqb_refl].
    apply in_combine_seq. rewrite Nat.sub_0_r. split; [lia|auto].
Qed.


Lemma ti_delivered_fresh day intv mjds i v :
  delivered (ti_idxs (ti_setup day intv [] mjds) i) v <->
  nth_error (map (digitize (arange (day * (zmin mjds / day)) (day * ((zmax mjds + day - 1) / day) + intv) intv)) mjds) v = Some i.
Proof.
  unfold ti_idxs, ti_setup; simpl. set (sids := map _ mjds).
  rewrite dget_dupdate by apply group_by_keys_NoDup. rewrite dget_group_by. simpl dget.
  rewrite <- group_members. unfold delivered. destruct (in_dec Nat.eq_dec i sids) as [Hi|Hi].
  - set (l := map snd _). destruct l as [|a l'] eqn:El.
    + split; [intros (l0 & E & _); discriminate|intros []].
    + split; [intros (l0 & E & H); inversion E; subst; auto|intros H; eauto].
  - split; [intros (l0 & E & _); discriminate|]. intros H. exfalso. apply Hi.
    apply group_members in H. eapply nth_error_In; eauto.
Qed.

Lemma ti_true_law day intv mjds i t v : 0 < day -> 0 < intv ->
  nth_error (ti_mjd (ti_setup day intv [] mjds)) i = Some t ->
  (delivered (ti_idxs (ti_setup day intv [] mjds) i) v <->
   exists x, nth_error mjds v = Some x /\ t - intv <= x < t).
Proof.
  intros Hd Hi Ht. rewrite ti_delivered_fresh. simpl in Ht.
  pose proof (nth_error_arange0 _ _ _ _ _ Ht) as Et.
  assert (i < length (arange (day * (zmin mjds / day)) (day * ((zmax mjds + day - 1) / day)) intv))%nat as Hlen.
  { apply nth_error_Some. congruence. }
  set (lo := day * (zmin mjds / day)) in *. set (hi := day * ((zmax mjds + day - 1) / day)) in *.
  assert (forall x, In x mjds -> lo <= x) as Hlo.
  { intros x Hx. pose proof (zmin_le mjds x Hx). pose proof (Z.mul_div_le (zmin mjds) day Hd). unfold lo. lia. }
  assert (lo <= hi) as Hlh.
  { destruct (Z.le_gt_cases lo hi); auto. exfalso. unfold arange in Hlen. rewrite map_length, seq_length in Hlen.
    assert ((hi - lo + intv - 1) / intv <= 0); [|lia]. apply Z.lt_succ_r. apply Z.div_lt_upper_bound; lia. }
  pose proof (arange_length_more lo hi intv Hi Hlh) as Hm.
  rewrite nth_error_map. split.
  - intros H. destruct (nth_error mjds v) as [x|] eqn:Ex; [|discriminate]. simpl in H. inversion H as [H']; clear H.
    exists x. split; auto. assert (In x mjds) as Hin by (eapply nth_error_In; eauto).
    specialize (Hlo x Hin). destruct i as [|k].
    + exfalso. pose proof (digitize_pos lo (hi + intv) intv x Hi Hlo). lia.
    + apply digitize_arange in H'; auto; [|lia]. lia.
  - intros (x & Ex & Hr). rewrite Ex. simpl. f_equal.
    assert (In x mjds) as Hin by (eapply nth_error_In; eauto). specialize (Hlo x Hin).
    destruct i as [|k]; [lia|]. apply digitize_arange; auto; lia.
Qed.

Lemma ti_last_lost day intv mjds v x : 0 < day -> 0 < intv -> nth_error mjds v = Some x ->
  (forall t, In t (ti_mjd (ti_setup day intv [] mjds)) -> t <= x) ->
  forall i, (i < ti_nslice (ti_setup day intv [] mjds))%nat -> ~ delivered (ti_idxs (ti_setup day intv [] mjds) i) v.
Proof.
  intros Hd Hi Hx Hall i Hlt Hdel.
  destruct (nth_error (ti_mjd (ti_setup day intv [] mjds)) i) as [t|] eqn:Et.
  2:{ apply nth_error_None in Et. unfold ti_nslice in Hlt. lia. }
  destruct (proj1 (ti_true_law day intv mjds i t v Hd Hi Et) Hdel) as (x' & Ex & Hr).
  rewrite Hx in Ex; inversion Ex; subst. assert (In t (ti_mjd (ti_setup day intv [] mjds))) as Hin by (eapply nth_error_In; eauto).
  specialize (Hall t Hin). lia.
Qed.

Lemma ti_refuted : exists day intv mjds v x t, 0 < day /\ 0 < intv /\ nth_error mjds v = Some x /\
  nth_error (ti_mjd (ti_setup day intv [] mjds)) 0 = Some t /\ t <= x < t + intv /\
  (forall i, (i < ti_nslice (ti_setup day intv [] mjds))%nat -> ~ delivered (ti_idxs (ti_setup day intv [] mjds) i) v) /\
  ti_nslice (ti_setup day intv [] mjds) = 1%nat.
Proof.
  exists 10, 10, [25; 27], 0%nat, 25, 20. repeat split; try lia; try reflexivity.
  apply ti_last_lost with (x := 25); try lia; try reflexivity.
  intros t Ht. vm_compute in Ht. lia.
Qed.

Lemma ti_empty_not_seen : exists day intv mjds i, 0 < day /\ 0 < intv /\
  (i < ti_nslice (ti_setup day intv [] mjds))%nat /\
  (forall v, ~ delivered (ti_idxs (ti_setup day intv [] mjds) i) v) /\
  len_slicedata (ti_idxs (ti_setup day intv [] mjds) i) <> 0%nat.
Proof.
  exists 10, 5, [21; 27], 0%nat. repeat split; try lia.
  - vm_compute. lia.
  - intros v (l & E & _). vm_compute in E. discriminate.
  - discriminate.
Qed.

Lemma ti_len_nonzero s i : len_slicedata (ti_idxs s i) <> 0%nat.
Proof. unfold ti_idxs. destruct (dget Nat.eqb (ti_sim_idxs s) i) as [[|]|]; simpl; discriminate. Qed.

Lemma ti_stale_refuted : exists day intv mjds1 mjds2 i v,
  0 < day /\ 0 < intv /\
  let s1 := ti_setup day intv [] mjds1 in
  let s2 := ti_setup day intv (ti_sim_idxs s1) mjds2 in
  (i < ti_nslice s2)%nat /\ delivered (ti_idxs s2 i) v /\ nth_error mjds2 v = None.
Proof.
  exists 10, 5, [21; 22; 23], [26], 1%nat, 2%nat. simpl. split; [lia|]. split; [lia|]. split; [|split].
  - vm_compute. lia.
  - exists [0; 1; 2]%nat. split; [reflexivity|]. simpl; auto.
  - reflexivity.
Qed.

(** * BlockIntervalSlicer *)
Fixpoint sids_from (tol : Z) (cur : nat) (prev : visit) (l : list visit) : list nat :=
  match l with
  | [] => []
  | h :: t => let c := (cur + if block_break tol prev (Some h) then 1 else 0)%nat in c :: sids_from tol c h t
  end.

Lemma block_sids_rec tol h t : block_sids tol (h :: t) = 0%nat :: sids_from tol 0 h t.
Proof.
  unfold block_sids. f_equal. generalize 0%nat as acc. revert h.
  induction t as [|h2 t IH]; intros h acc.
  - reflexivity.
  - unfold shift_up. simpl tl. cbn [map app combine fst snd cumsum sids_from].
    set (a := (acc + _)%nat). specialize (IH h2 a). unfold shift_up in IH. simpl tl in IH.
    rewrite <- IH. destruct t as [|h3 t]; reflexivity.
Qed.

Lemma block_sids_length tol vs : length (block_sids tol vs) = length vs.
Proof.
  destruct vs as [|h t]; auto. rewrite block_sids_rec. simpl. f_equal.
  generalize 0%nat. revert h. induction t as [|h2 t IH]; intros h acc; simpl; auto.
Qed.

Lemma sids_from_step tol cur prev l k a b x y :
  nth_error (cur :: sids_from tol cur prev l) k = Some a -> nth_error (cur :: sids_from tol cur prev l) (S k) = Some b ->
  nth_error (prev :: l) k = Some x -> nth_error (prev :: l) (S k) = Some y ->
  b = (a + if block_break tol x (Some y) then 1 else 0)%nat.
Proof.
  revert cur prev k; induction l as [|h t IH]; intros cur prev k Ha Hb Hx Hy.
  - simpl in Hy. destruct k; discriminate.
  - destruct k as [|k].
    + simpl in *. inversion Ha; inversion Hb; inversion Hx; inversion Hy; subst. reflexivity.
    + cbn [nth_error sids_from] in *. eapply IH; eauto.
Qed.

Lemma block_sids_step tol vs k a b x y :
  nth_error (block_sids tol vs) k = Some a -> nth_error (block_sids tol vs) (S k) = Some b ->
  nth_error vs k = Some x -> nth_error vs (S k) = Some y ->
  b = (a + if block_break tol x (Some y) then 1 else 0)%nat.
Proof.
  destruct vs as [|h t]; [destruct k; discriminate|]. rewrite block_sids_rec. apply sids_from_step.
Qed.

Lemma block_sids_zero tol vs a : nth_error (block_sids tol vs) 0 = Some a -> a = 0%nat.
Proof. destruct vs; simpl; [discriminate|]. congruence. Qed.

Lemma block_sids_mono tol vs j k a b : (j <= k)%nat ->
  nth_error (block_sids tol vs) j = Some a -> nth_error (block_sids tol vs) k = Some b -> (a <= b)%nat.
Proof.
  intros Hjk. revert b. induction Hjk as [|k Hjk IH]; intros b Ha Hb; [rewrite Ha in Hb; inversion Hb; auto|].
  destruct (nth_error (block_sids tol vs) k) as [c|] eqn:Ec.
  2:{ apply nth_error_None in Ec. assert (S k < length (block_sids tol vs))%nat by (apply nth_error_Some; congruence). lia. }
  specialize (IH c Ha eq_refl).
  destruct (nth_error vs k) as [x|] eqn:Ex; [destruct (nth_error vs (S k)) as [y|] eqn:Ey|].
  - pose proof (block_sids_step tol vs k c b x y Ec Hb Ex Ey). lia.
  - apply nth_error_None in Ey. assert (S k < length (block_sids tol vs))%nat by (apply nth_error_Some; congruence).
    rewrite block_sids_length in *. lia.
  - apply nth_error_None in Ex. assert (S k < length (block_sids tol vs))%nat by (apply nth_error_Some; congruence).
    rewrite block_sids_length in *. lia.
Qed.

(** values are exactly 0 .. max *)
Lemma block_sids_dense tol vs k a c : nth_error (block_sids tol vs) k = Some a -> (c <= a)%nat ->
  exists j, (j <= k)%nat /\ nth_error (block_sids tol vs) j = Some c.
Proof.
  revert a; induction k as [|k IH]; intros a Ha Hc.
  - pose proof (block_sids_zero _ _ _ Ha). exists 0%nat. split; auto. rewrite Ha. f_equal. lia.
  - destruct (Nat.eq_dec c a) as [->|Hne]; [exists (S k); auto|].
    destruct (nth_error (block_sids tol vs) k) as [b|] eqn:Eb.
    2:{ apply nth_error_None in Eb. assert (S k < length (block_sids tol vs))%nat by (apply nth_error_Some; congruence). lia. }
    assert (a <= S b)%nat as Hab.
    { assert (S k < length vs)%nat as Hlen. { rewrite <- (block_sids_length tol vs). apply nth_error_Some. congruence. }
      destruct (nth_error vs k) as [x|] eqn:Ex; [|apply nth_error_None in Ex; lia].
      destruct (nth_error vs (S k)) as [y|] eqn:Ey; [|apply nth_error_None in Ey; lia].
      pose proof (block_sids_step tol vs k b a x y Eb Ha Ex Ey) as Hst. destruct (block_break tol x (Some y)); lia. }
    destruct (IH b eq_refl) as (j & Hj & Ej); [lia|]. exists j. split; auto.
Qed.

Section Block.
  Variables (tol : Z) (vs : list visit) (perm : list nat).
  Hypothesis Hperm : is_argsort (map v_mjd vs) perm.
  Let dv := {| v_mjd := 0; v_dur := 0; v_note := "" |}.
  Let sorted := map (fun k => nth k vs dv) perm.
  Let sids := block_sids tol sorted.

  Lemma sids_len : length sids = length perm.
  Proof. unfold sids, sorted. rewrite block_sids_length, map_length. reflexivity. Qed.

  Lemma perm_NoDup : NoDup perm.
  Proof. eapply argsort_NoDup; eauto. Qed.

  Lemma in_combine_nth {A B} (l1 : list A) (l2 : list B) a b :
    In (a, b) (combine l1 l2) <-> exists k, nth_error l1 k = Some a /\ nth_error l2 k = Some b.
  Proof.
    split.
    - intros H. apply In_nth_error in H as (k & Hk). rewrite nth_error_combine in Hk. exists k.
      destruct (nth_error l1 k), (nth_error l2 k); inversion Hk; auto.
    - intros (k & H1 & H2). apply nth_error_In with k. rewrite nth_error_combine, H1, H2. reflexivity.
  Qed.

  Lemma block_slice_In i v : In v (block_slice tol vs perm i) <->
    exists k, nth_error perm k = Some v /\ nth_error sids k = Some i.
  Proof.
    unfold block_slice. fold dv. fold sorted. fold sids. rewrite in_map_iff. split.
    - intros ([a v'] & E & H). simpl in E; subst v'. apply filter_In in H as [H1 H2]. simpl in H2.
      apply Nat.eqb_eq in H2; subst a. apply in_combine_nth in H1 as (k & H1 & H2). eauto.
    - intros (k & H1 & H2). exists (i, v). split; auto. apply filter_In. split; [|simpl; apply Nat.eqb_refl].
      apply in_combine_nth. eauto.
  Qed.

  Lemma nodup_filter_map_combine {A} (l : list A) (g : A * nat -> bool) p : NoDup p -> NoDup (map snd (filter g (combine l p))).
  Proof.
    revert l; induction p as [|x p IH]; intros l H; [destruct l; constructor|].
    destruct l as [|a l]; [constructor|]. inversion H; subst. simpl. destruct (g (a, x)); simpl; auto.
    constructor; auto. intros Hin. apply in_map_iff in Hin as ([a' x'] & E & Hi). simpl in E; subst x'.
    apply filter_In in Hi as [Hi _]. apply in_combine_r in Hi. tauto.
  Qed.

  Lemma block_slice_NoDup i : NoDup (block_slice tol vs perm i).
  Proof. unfold block_slice. apply nodup_filter_map_combine, perm_NoDup. Qed.

  Lemma block_nslice_lt i : (i < block_nslice tol vs perm)%nat <-> In i sids.
  Proof.
    unfold block_nslice. fold dv. fold sorted. fold sids.
    destruct sids as [|s0 srest] eqn:Es.
    { simpl. split; [lia|tauto]. }
    set (n := length (s0 :: srest)).
    destruct (nth_error sids (n - 1)) as [m|] eqn:Em.
    2:{ apply nth_error_None in Em. rewrite Es in Em. subst n. simpl in Em. lia. }
    assert (forall c, In c (s0 :: srest) <-> (c <= m)%nat) as Hc.
    { intros c. rewrite <- Es. split.
      - intros H. apply In_nth_error in H as (k & Hk). eapply block_sids_mono with (j := k) (k := (n - 1)%nat); eauto.
        assert (k < length sids)%nat by (apply nth_error_Some; congruence). rewrite Es in H. subst n. lia.
      - intros H. destruct (block_sids_dense tol sorted (n - 1) m c Em H) as (j & _ & Hj). eapply nth_error_In; eauto. }
    assert (length (nodup Nat.eq_dec (s0 :: srest)) = S m) as Hl.
    { assert (Permutation (nodup Nat.eq_dec (s0 :: srest)) (seq 0 (S m))) as Hp.
      { apply NoDup_Permutation; [apply NoDup_nodup|apply seq_NoDup|]. intros c. rewrite nodup_In, Hc, in_seq. lia. }
      rewrite (Permutation_length Hp), seq_length. reflexivity. }
    rewrite Hl, Hc. lia.
  Qed.

  Lemma nth_error_perm_lt k v : nth_error perm k = Some v -> exists x, nth_error vs v = Some x /\ nth v vs dv = x.
  Proof.
    intros H. apply nth_error_In in H. apply (argsort_In _ _ v Hperm) in H as (x & Hx).
    rewrite nth_error_map in Hx. destruct (nth_error vs v) as [y|] eqn:E; [|discriminate].
    exists y. split; auto. apply nth_error_nth; auto.
  Qed.

  Lemma sorted_nth k v x : nth_error perm k = Some v -> nth_error vs v = Some x -> nth_error sorted k = Some x.
  Proof. intros H1 H2. unfold sorted. rewrite nth_error_map, H1. simpl. f_equal. apply nth_error_nth; auto. Qed.

  Lemma block_each_visit v : (v < length vs)%nat ->
    exists i, (i < block_nslice tol vs perm)%nat /\ In v (block_slice tol vs perm i) /\
      forall j, In v (block_slice tol vs perm j) -> j = i.
  Proof.
    intros Hv.
    assert (In v perm) as Hin.
    { apply (argsort_In _ _ v Hperm). rewrite nth_error_map.
      destruct (nth_error vs v) eqn:E; [simpl; eauto|]. apply nth_error_None in E. lia. }
    apply In_nth_error in Hin as (k & Hk).
    destruct (nth_error sids k) as [i|] eqn:Ei.
    2:{ apply nth_error_None in Ei. rewrite sids_len in Ei. assert (k < length perm)%nat by (apply nth_error_Some; congruence). lia. }
    exists i. split; [apply block_nslice_lt; eapply nth_error_In; eauto|]. split; [apply block_slice_In; eauto|].
    intros j Hj. apply block_slice_In in Hj as (k' & Hk' & Hj).
    assert (k' = k) as ->.
    { apply (proj1 (NoDup_nth_error perm) perm_NoDup); [apply nth_error_Some; congruence|congruence]. }
    congruence.
  Qed.

  Lemma block_only_visits i v : In v (block_slice tol vs perm i) -> (v < length vs)%nat.
  Proof.
    intros H. apply block_slice_In in H as (k & Hk & _). destruct (nth_error_perm_lt k v Hk) as (x & Hx & _).
    apply nth_error_Some. congruence.
  Qed.

  Lemma pos_unique k k' v : nth_error perm k = Some v -> nth_error perm k' = Some v -> k = k'.
  Proof.
    intros H H'. apply (proj1 (NoDup_nth_error perm) perm_NoDup); [apply nth_error_Some; congruence|congruence].
  Qed.

  Lemma block_consecutive k v w x y : nth_error perm k = Some v -> nth_error perm (S k) = Some w ->
    nth_error vs v = Some x -> nth_error vs w = Some y ->
    ((exists i, In v (block_slice tol vs perm i) /\ In w (block_slice tol vs perm i)) <->
     v_note x = v_note y /\ v_mjd y - (v_mjd x + v_dur x) < tol).
  Proof.
    intros Hv Hw Hx Hy.
    destruct (nth_error sids k) as [a|] eqn:Ea.
    2:{ apply nth_error_None in Ea. rewrite sids_len in Ea. assert (k < length perm)%nat by (apply nth_error_Some; congruence). lia. }
    destruct (nth_error sids (S k)) as [b|] eqn:Eb.
    2:{ apply nth_error_None in Eb. rewrite sids_len in Eb. assert (S k < length perm)%nat by (apply nth_error_Some; congruence). lia. }
    pose proof (block_sids_step tol sorted k a b x y Ea Eb (sorted_nth _ _ _ Hv Hx) (sorted_nth _ _ _ Hw Hy)) as Hst.
    assert ((exists i, In v (block_slice tol vs perm i) /\ In w (block_slice tol vs perm i)) <-> a = b) as Hab.
    { split.
      - intros (i & H1 & H2). apply block_slice_In in H1 as (k1 & P1 & S1). apply block_slice_In in H2 as (k2 & P2 & S2).
        rewrite (pos_unique _ _ _ P1 Hv) in S1. rewrite (pos_unique _ _ _ P2 Hw) in S2. congruence.
      - intros <-. exists a. split; apply block_slice_In; eauto. }
    rewrite Hab. unfold block_break in Hst.
    destruct (String.eqb_spec (v_note x) (v_note y)) as [Hn|Hn]; simpl in Hst.
    - destruct (Z.gtb_spec (v_mjd x + v_dur x + tol) (v_mjd y)); simpl in Hst; split; intros H0; try lia.
      split; auto; lia.
    - split; [lia|tauto].
  Qed.

  Lemma block_run i j k l v w u : (j <= l <= k)%nat -> nth_error perm j = Some v -> nth_error perm k = Some w ->
    nth_error perm l = Some u -> In v (block_slice tol vs perm i) -> In w (block_slice tol vs perm i) ->
    In u (block_slice tol vs perm i).
  Proof.
    intros Hr Hv Hw Hu H1 H2.
    apply block_slice_In in H1 as (k1 & P1 & S1). apply block_slice_In in H2 as (k2 & P2 & S2).
    rewrite (pos_unique _ _ _ P1 Hv) in S1. rewrite (pos_unique _ _ _ P2 Hw) in S2.
    destruct (nth_error sids l) as [c|] eqn:Ec.
    2:{ apply nth_error_None in Ec. rewrite sids_len in Ec. assert (l < length perm)%nat by (apply nth_error_Some; congruence). lia. }
    apply block_slice_In. exists l. split; auto. rewrite Ec. f_equal. apply Nat.le_antisymm.
    - eapply block_sids_mono with (j := l) (k := k); eauto; lia.
    - eapply block_sids_mono with (j := j) (k := l); eauto; lia.
  Qed.

  Lemma block_same_note_le i j k v w x y : (j <= k)%nat -> nth_error perm j = Some v -> nth_error perm k = Some w ->
    In v (block_slice tol vs perm i) -> In w (block_slice tol vs perm i) ->
    nth_error vs v = Some x -> nth_error vs w = Some y -> v_note x = v_note y.
  Proof.
    intros Hjk. revert w y. induction Hjk as [|k Hjk IH]; intros w y Hv Hw H1 H2 Hx Hy.
    - assert (v = w) by congruence. subst. congruence.
    - destruct (nth_error perm k) as [u|] eqn:Eu.
      2:{ apply nth_error_None in Eu. assert (S k < length perm)%nat by (apply nth_error_Some; congruence). lia. }
      destruct (nth_error_perm_lt k u Eu) as (z & Hz & _).
      assert (In u (block_slice tol vs perm i)) as H3.
      { eapply (block_run i j (S k) k v w u); eauto; lia. }
      rewrite (IH u z Hv eq_refl H1 H3 Hx Hz).
      destruct (proj1 (block_consecutive k u w z y Eu Hw Hz Hy)) as [Hn _]; eauto.
  Qed.

  Lemma block_same_note i v w x y : In v (block_slice tol vs perm i) -> In w (block_slice tol vs perm i) ->
    nth_error vs v = Some x -> nth_error vs w = Some y -> v_note x = v_note y.
  Proof.
    intros H1 H2 Hx Hy. pose proof H1 as H1'. pose proof H2 as H2'.
    apply block_slice_In in H1' as (j & P1 & _). apply block_slice_In in H2' as (k & P2 & _).
    destruct (Nat.le_ge_cases j k).
    - eapply block_same_note_le with (j := j) (k := k); eauto.
    - symmetry. eapply block_same_note_le with (j := k) (k := j); eauto.
  Qed.

  Lemma block_announced i v x : In v (block_slice tol vs perm i) -> nth_error vs v = Some x ->
    block_start tol vs perm i <= v_mjd x /\
    v_mjd x + v_dur x <= block_start tol vs perm i + block_duration tol vs perm i.
  Proof.
    intros H Hx. unfold block_duration. split.
    - unfold block_start. apply zmin_le. apply in_map_iff. exists v. split; auto. f_equal. apply nth_error_nth; auto.
    - rewrite Zplus_minus. apply zmax_ge. apply in_map_iff. exists v. split; auto.
      rewrite (nth_error_nth _ _ _ Hx). reflexivity.
  Qed.
End Block.

(** * VisitIntervalSlicer *)
From Verif Require Import Bundle_Proofs.

Lemma vi_slice_ok mjds durs perm islice : is_argsort mjds perm -> length durs = length mjds ->
  (islice < length mjds)%nat ->
  exists v m d, nth_error perm islice = Some v /\ nth_error mjds islice = Some m /\ nth_error durs islice = Some d /\
    vi_slice mjds durs perm islice = Ok {| vi_visit := v; vi_sid := v; vi_mjd := m; vi_duration := d |}.
Proof.
  intros [Hp _] Hd Hi. assert (length perm = length mjds) as Hl by (rewrite (Permutation_length Hp), seq_length; auto).
  destruct (nth_error perm islice) as [v|] eqn:Ev; [|apply nth_error_None in Ev; lia].
  destruct (nth_error mjds islice) as [m|] eqn:Em; [|apply nth_error_None in Em; lia].
  destruct (nth_error durs islice) as [d|] eqn:Ed; [|apply nth_error_None in Ed; lia].
  exists v, m, d. repeat split; auto. unfold vi_slice, arr_get. rewrite Ev, Em, Ed. reflexivity.
Qed.

Lemma vi_each_once mjds durs perm v : is_argsort mjds perm -> length durs = length mjds -> (v < length mjds)%nat ->
  exists islice sp, (islice < length mjds)%nat /\ vi_slice mjds durs perm islice = Ok sp /\ vi_visit sp = v /\
    forall j sp', vi_slice mjds durs perm j = Ok sp' -> vi_visit sp' = v -> j = islice.
Proof.
  intros Ha Hd Hv. pose proof (argsort_NoDup _ _ Ha) as Hnd.
  assert (In v perm) as Hin.
  { apply (argsort_In _ _ v Ha). destruct (nth_error mjds v) eqn:E; eauto. apply nth_error_None in E. lia. }
  apply In_nth_error in Hin as (k & Hk).
  assert (k < length mjds)%nat as Hkl.
  { destruct Ha as [Hp _]. rewrite <- (seq_length (length mjds) 0), <- (Permutation_length Hp). apply nth_error_Some. congruence. }
  destruct (vi_slice_ok mjds durs perm k Ha Hd Hkl) as (v' & m & d & E1 & _ & _ & E).
  rewrite Hk in E1; inversion E1; subst v'.
  eexists k, _. split; [auto|]. split; [exact E|]. split; [reflexivity|].
  intros j sp' Hj Hvj. unfold vi_slice, arr_get in Hj.
  destruct (nth_error perm j) as [v'|] eqn:Ej; simpl in Hj; [|discriminate].
  destruct (nth_error mjds j); simpl in Hj; [|discriminate]. destruct (nth_error durs j); simpl in Hj; [|discriminate].
  inversion Hj; subst sp'. simpl in Hvj. subst v'.
  apply (proj1 (NoDup_nth_error perm) Hnd); [apply nth_error_Some; congruence|congruence].
Qed.

Lemma vi_refuted : exists mjds durs perm islice sp own, is_argsort mjds perm /\ length durs = length mjds /\
  vi_slice mjds durs perm islice = Ok sp /\ nth_error mjds (vi_visit sp) = Some own /\ vi_mjd sp <> own.
Proof.
  exists [5; 3], [1; 1], [1; 0]%nat, 0%nat, {| vi_visit := 1; vi_sid := 1; vi_mjd := 5; vi_duration := 1 |}, 3.
  split; [|split; [|split; [|split]]]; try reflexivity; [|discriminate].
  apply is_argsort_intro; [simpl; constructor|]. repeat constructor; simpl; lia.
Qed.

(** for data already in strict time order the announced time is right *)
Lemma vi_sorted_ok mjds durs perm islice sp : is_argsort mjds perm -> length durs = length mjds ->
  (forall i j a b, (i < j)%nat -> nth_error mjds i = Some a -> nth_error mjds j = Some b -> a < b) ->
  vi_slice mjds durs perm islice = Ok sp ->
  vi_visit sp = islice /\ nth_error mjds (vi_visit sp) = Some (vi_mjd sp) /\ nth_error durs (vi_visit sp) = Some (vi_duration sp).
Proof.
  intros Ha Hd Hs E.
  assert (perm = seq 0 (length mjds)) as ->.
  { destruct Ha as [Hp Ho].
    assert (StronglySorted lt perm) as S1.
    { assert (forall a, In a perm -> (a < length mjds)%nat) as Hin.
      { intros a Hi. apply (Permutation_in a Hp) in Hi. apply in_seq in Hi. lia. }
      assert (NoDup perm) as Hnd by (eapply Permutation_NoDup; [apply Permutation_sym; exact Hp|apply seq_NoDup]).
      clear Hp E. induction perm as [|h t IH]; constructor.
      - apply IH.
        + intros i j a b Hij Hi Hj. apply (Ho (S i) (S j)); auto; lia.
        + intros a Hi; apply Hin; simpl; auto.
        + inversion Hnd; auto.
      - apply Forall_forall. intros x Hx. destruct (Nat.lt_trichotomy h x) as [H|[H|H]]; auto; exfalso.
        + subst. inversion Hnd; tauto.
        + assert (nth h mjds 0 <= nth x mjds 0) as H1.
          { apply In_nth_error in Hx as (n & Hn). apply (Ho 0%nat (S n)); auto. lia. }
          assert (nth x mjds 0 < nth h mjds 0) as H2.
          { apply (Hs x h); auto; apply nth_error_nth'; apply Hin; simpl; auto. }
          lia. }
    assert (forall p q, StronglySorted lt p -> StronglySorted lt q -> Permutation p q -> p = q) as Huniq.
    { clear. induction p as [|h t IH]; intros q Sp Sq Hp.
      - apply Permutation_nil in Hp. auto.
      - destruct q as [|h' t']; [apply Permutation_sym, Permutation_nil in Hp; discriminate|].
        inversion Sp as [|? ? Sp1 Sp2]; inversion Sq as [|? ? Sq1 Sq2]; subst. rewrite Forall_forall in Sp2, Sq2.
        assert (h = h') as ->.
        { assert (In h (h' :: t')) as H1 by (apply (Permutation_in h Hp); simpl; auto).
          assert (In h' (h :: t)) as H2 by (apply (Permutation_in h' (Permutation_sym Hp)); simpl; auto).
          destruct H1 as [H1|H1]; auto. destruct H2 as [H2|H2]; auto.
          apply Sq2 in H1. apply Sp2 in H2. lia. }
        f_equal. apply IH; auto. eapply Permutation_cons_inv; eauto. }
    apply Huniq; auto. generalize 0%nat. clear. induction (length mjds) as [|n IH]; intros s; simpl; constructor; auto.
    apply Forall_forall. intros x Hx. apply in_seq in Hx. lia. }
  unfold vi_slice, arr_get in E.
  destruct (nth_error mjds islice) as [m|] eqn:Em.
  2:{ destruct (nth_error (seq 0 (length mjds)) islice); discriminate. }
  assert (islice < length mjds)%nat as Hl by (apply nth_error_Some; congruence).
  rewrite (nth_error_nth' _ 0%nat) in E by (rewrite seq_length; auto). rewrite seq_nth in E by auto. simpl in E.
  destruct (nth_error durs islice) as [d|] eqn:Ed; simpl in E; [|discriminate].
  inversion E; subst; simpl. auto.
Qed.

Lemma vi_run_spec {V} (metric : nat -> V) mjds durs perm slices data out :
  is_argsort mjds perm -> length durs = length mjds ->
  (forall i, In i slices -> (i < length mjds)%nat) -> length data = length mjds ->
  vi_run metric mjds durs perm slices data = Ok out ->
  length out = length data /\
  forall v, (v < length mjds)%nat ->
    (exists i, In i slices /\ nth_error perm i = Some v) /\ nth_error out v = Some (metric v) \/
    (~ exists i, In i slices /\ nth_error perm i = Some v) /\ nth_error out v = nth_error data v.
Proof.
  intros Ha Hd. revert data out. induction slices as [|i t IH]; intros data out Hin Hlen H; cbn [vi_run] in H.
  - inversion H; subst. split; auto. intros v Hv. right. split; auto. intros (i & [] & _).
  - assert (i < length mjds)%nat as Hi by (apply Hin; simpl; auto).
    destruct (vi_slice_ok mjds durs perm i Ha Hd Hi) as (v0 & m & d & Ev & _ & _ & E). rewrite E in H. cbn [bind vi_sid vi_visit] in H.
    destruct (arr_set data v0 (metric v0)) as [data'|] eqn:Es; cbn [bind] in H; [|discriminate].
    apply arr_set_ok in Es as [Hl ->].
    destruct (IH (set_nth data v0 (metric v0)) out) as [L Hv]; auto.
    { intros j Hj; apply Hin; simpl; auto. } { rewrite set_nth_length; auto. }
    rewrite set_nth_length in L. split; [auto|]. intros v Hvl. destruct (Hv v Hvl) as [[(j & Hj & Ej) Ho]|[Hn Ho]].
    + left. split; auto. exists j. simpl; auto.
    + destruct (Nat.eq_dec v0 v) as [->|Hne].
      * left. split; [exists i; simpl; auto|]. rewrite Ho. apply set_nth_same; auto.
      * right. split.
        -- intros (j & [->|Hj] & Ej); [congruence|]. apply Hn; eauto.
        -- rewrite Ho. apply set_nth_other; auto.
Qed.

Lemma vi_run_total {V} (metric : nat -> V) mjds durs perm slices data :
  is_argsort mjds perm -> length durs = length mjds ->
  (forall i, In i slices -> (i < length mjds)%nat) -> length data = length mjds ->
  exists out, vi_run metric mjds durs perm slices data = Ok out.
Proof.
  intros Ha Hd. revert data. induction slices as [|i t IH]; intros data Hin Hlen; cbn [vi_run]; [eauto|].
  assert (i < length mjds)%nat as Hi by (apply Hin; simpl; auto).
  destruct (vi_slice_ok mjds durs perm i Ha Hd Hi) as (v0 & m & d & Ev & _ & _ & E). rewrite E. cbn [bind vi_sid vi_visit].
  assert (v0 < length mjds)%nat as Hv0.
  { assert (In v0 perm) as Hp by (eapply nth_error_In; eauto). apply (argsort_In _ _ v0 Ha) in Hp as (x & Hx). apply nth_error_Some. congruence. }
  unfold arr_set. replace (Nat.ltb v0 (length data)) with true by (symmetry; apply Nat.ltb_lt; lia). cbn [bind].
  apply IH; [intros j Hj; apply Hin; simpl; auto|]. rewrite set_nth_length; auto.
Qed.

Lemma list_ext {A} (l1 l2 : list A) : (forall i, nth_error l1 i = nth_error l2 i) -> l1 = l2.
Proof.
  revert l2; induction l1 as [|a l1 IH]; intros [|b l2] H; auto.
  - specialize (H 0%nat); discriminate.
  - specialize (H 0%nat); discriminate.
  - f_equal; [specialize (H 0%nat); simpl in H; congruence|]. apply IH. intros i. apply (H (S i)).
Qed.

Lemma vi_results_aligned {V} (metric : nat -> V) mjds durs perm data :
  is_argsort mjds perm -> length durs = length mjds -> length data = length mjds ->
  vi_run metric mjds durs perm (seq 0 (length mjds)) data = Ok (map metric (seq 0 (length mjds))).
Proof.
  intros Ha Hd Hlen.
  assert (forall i, In i (seq 0 (length mjds)) -> (i < length mjds)%nat) as Hin by (intros i Hi; apply in_seq in Hi; lia).
  destruct (vi_run_total metric mjds durs perm (seq 0 (length mjds)) data Ha Hd Hin Hlen) as (out & E).
  rewrite E. f_equal. destruct (vi_run_spec metric mjds durs perm _ data out Ha Hd Hin Hlen E) as [L Hv].
  apply list_ext. intros v. destruct (Nat.lt_ge_cases v (length mjds)) as [Hl|Hl].
  - rewrite nth_error_map, (nth_error_nth' _ 0%nat) by (rewrite seq_length; auto). rewrite seq_nth by auto. simpl.
    destruct (Hv v Hl) as [[_ Ho]|[Hn _]]; auto. exfalso. apply Hn.
    assert (In v perm) as Hp.
    { apply (argsort_In _ _ v Ha). destruct (nth_error mjds v) eqn:E1; eauto. apply nth_error_None in E1. lia. }
    apply In_nth_error in Hp as (k & Hk). exists k. split; auto. apply in_seq.
    assert (k < length perm)%nat by (apply nth_error_Some; congruence). destruct Ha as [Hp _].
    rewrite (Permutation_length Hp), seq_length in H. lia.
  - rewrite (proj2 (nth_error_None out v)) by lia. symmetry. apply nth_error_None. rewrite map_length, seq_length. lia.
Qed.
