(** Lemmas about the vector metrics. *)
From Verif Require Import Base Slicer_Model Slicer_Proofs GapMetrics_Model GapMetrics_Spec GapMetrics_Proofs.
From Verif Require Import StatMetrics_Model StatMetrics_Proofs Vector_Model Vector_Spec.
From Coq Require Import QArith Qabs Qminmax Sorted Lia Lqa.
Open Scope Z_scope.

Lemma accumulate_from_nth {A} (op : A -> A -> A) l : forall acc i,
  nth_error (accumulate_from op acc l) i = if (i <? length l)%nat then Some (fold_left op (firstn (S i) l) acc) else None.
Proof.
  induction l as [|h t IH]; intros acc i.
  - simpl. destruct i; reflexivity.
  - destruct i as [|i]; [reflexivity|]. cbn [accumulate_from nth_error]. rewrite IH.
    cbn [length]. change (S i <? S (length t))%nat with (i <? length t)%nat. reflexivity.
Qed.
Lemma accumulate_length {A} (op : A -> A -> A) l : length (accumulate op l) = length l.
Proof.
  destruct l as [|h t]; auto. simpl. f_equal. revert h. induction t as [|x t IH]; intros h; simpl; auto.
Qed.
Lemma accumulate_nth {A} (op : A -> A -> A) l i : (i < length l)%nat ->
  nth_error (accumulate op l) i = fold1 op (firstn (S i) l).
Proof.
  intros H. destruct l as [|h t]; [simpl in H; lia|]. destruct i as [|i]; [reflexivity|].
  cbn [accumulate nth_error]. rewrite accumulate_from_nth. simpl in H.
  destruct (Nat.ltb_spec i (length t)); [|lia]. reflexivity.
Qed.

Lemma sorted_upto {A} (data : list (Z * A)) e : StronglySorted Z.le (map fst data) ->
  upto e data = firstn (ssr (map fst data) e) data.
Proof.
  unfold upto. induction data as [|[n a] t IH]; intros Hs; [reflexivity|].
  cbn [map fst] in Hs. inversion Hs; subst. cbn [map fst ssr filter].
  destruct (Z.leb_spec n e), (Z.ltb_spec e n); try lia.
  - cbn [firstn]. f_equal. auto.
  - cbn [firstn]. rewrite Forall_forall in H2.
    assert (forall v, In v t -> (fst v <=? e) = false) as Hn.
    { intros v Hv. apply Z.leb_gt. specialize (H2 (fst v) (in_map fst _ _ Hv)). lia. }
    clear -Hn. induction t as [|v t IH]; auto. simpl. rewrite (Hn v (or_introl eq_refl)). apply IH. intros; apply Hn; right; auto.
Qed.
Lemma ssr_le_length s v : (ssr s v <= length s)%nat.
Proof. induction s as [|h t IH]; simpl; [lia|]. destruct (v <? h); lia. Qed.

Lemma accumulate_law {A} (op : A -> A -> A) bins (data : list (Z * A)) r : (2 <= length data)%nat ->
  StronglySorted Z.le (map fst data) -> accumulate_run op bins data = Ok r ->
  length r = (length bins - 1)%nat /\
  forall k e, nth_error bins (S k) = Some e -> nth_error r k =
    Some (match upto e data with
          | [] => None
          | u => fold1 op (firstn (S (length u)) (map snd data))
          end).
Proof.
  intros Hlen Hs H. unfold accumulate_run in H.
  pose proof (accumulate_length op (map snd data)) as Hl. rewrite map_length in Hl.
  destruct (accumulate op (map snd data)) as [|d tl0] eqn:E; [simpl in Hl; lia|].
  assert (r = map (fun i => if (i =? 0)%nat then None else Some (nth i (d :: tl0) d))
     (map (fun i => if (length (d :: tl0) <=? i)%nat then (length (d :: tl0) - 1)%nat else i) (map (ssr (map fst data)) (tl bins)))) as -> by (inversion H; auto).
  clear H. split; [rewrite !map_length; destruct bins; simpl; lia|].
  intros k e Hk. destruct bins as [|b0 bins]; [discriminate|]. cbn [nth_error] in Hk.
  cbn [tl]. rewrite !nth_error_map, Hk. cbn [option_map]. rewrite Hl.
  pose proof (ssr_le_length (map fst data) e) as Hle. rewrite map_length in Hle.
  assert (length (upto e data) = ssr (map fst data) e) as Hu by (rewrite sorted_upto, firstn_length; auto; lia).
  remember (ssr (map fst data) e) as c eqn:Ec.
  destruct (upto e data) as [|u0 u] eqn:Eu.
  - simpl in Hu. subst c. rewrite <- Hu. destruct (Nat.leb_spec (length data) 0); [lia|]. reflexivity.
  - assert (0 < c)%nat as Hc by (rewrite <- Hu; simpl; lia).
    assert (forall i, (i < length data)%nat -> Some (nth i (d :: tl0) d) = fold1 op (firstn (S i) (map snd data))) as Hnth.
    { intros i Hi. rewrite <- accumulate_nth by (rewrite map_length; auto). rewrite E.
      symmetry. apply nth_error_nth'. rewrite Hl. auto. }
    rewrite Hu.
    destruct (Nat.leb_spec (length data) c).
    + destruct (Nat.eqb_spec (length data - 1) 0); [lia|]. f_equal. rewrite Hnth by lia.
      f_equal. rewrite !firstn_all2; auto; rewrite map_length; lia.
    + destruct (Nat.eqb_spec c 0); [lia|]. f_equal. rewrite Hnth by lia. reflexivity.
Qed.
Lemma accumulate_single {A} (op : A -> A -> A) bins n (x : A) r :
  accumulate_run op bins [(n, x)] = Ok r -> forall v, In v r -> v = None.
Proof.
  unfold accumulate_run. cbn [map snd fst accumulate accumulate_from length]. intros H v Hv. inversion H; subst. clear H.
  rewrite map_map in Hv. apply in_map_iff in Hv as (i & <- & Hi).
  destruct i; reflexivity.
Qed.

Lemma fold_ones l m : (forall x, In x l -> x = 1%nat) -> fold_left Nat.add l m = (m + length l)%nat.
Proof.
  revert m. induction l as [|h t IH]; intros m H; simpl; [lia|]. rewrite IH by (intros; apply H; right; auto).
  rewrite (H h (or_introl eq_refl)). lia.
Qed.
Lemma count_law bins nights r : (2 <= length nights)%nat -> StronglySorted Z.le nights ->
  accumulate_count_run bins nights = Ok r ->
  length r = (length bins - 1)%nat /\
  forall k e, nth_error bins (S k) = Some e -> nth_error r k =
    Some (match countb (fun n => n <=? e) nights with
          | O => None
          | c => Some (Nat.min (S c) (length nights))
          end).
Proof.
  intros Hlen Hs H. unfold accumulate_count_run in H.
  assert (map fst (map (fun n => (n, 1%nat)) nights) = nights) as Ef by (rewrite map_map; apply map_id).
  apply accumulate_law in H as [H1 H2]; [|rewrite map_length; auto|rewrite Ef; auto].
  split; auto. intros k e Hk. rewrite (H2 k e Hk). f_equal.
  assert (length (upto e (map (fun n => (n, 1%nat)) nights)) = countb (fun n => n <=? e) nights) as Hu.
  { change (countb (fun v => fst v <=? e) (map (fun n => (n, 1%nat)) nights) = countb (fun n => n <=? e) nights).
    rewrite countb_map. reflexivity. }
  destruct (upto e (map (fun n => (n, 1%nat)) nights)) as [|u0 u].
  - rewrite <- Hu. reflexivity.
  - rewrite <- Hu. cbn [length].
    assert (forall x, In x (map snd (map (fun n : Z => (n, 1%nat)) nights)) -> x = 1%nat) as H1'.
    { intros x Hx. rewrite map_map in Hx. apply in_map_iff in Hx as (y & <- & _). reflexivity. }
    assert (length (map snd (map (fun n : Z => (n, 1%nat)) nights)) = length nights) as Hl by (rewrite !map_length; auto).
    remember (map snd (map (fun n : Z => (n, 1%nat)) nights)) as ones. clear Heqones.
    destruct ones as [|o ones]; [simpl in Hl; lia|]. 
    change (firstn (S (S (length u))) (o :: ones)) with (o :: firstn (S (length u)) ones). cbn [fold1]. f_equal.
    rewrite fold_ones; [rewrite (H1' o (or_introl eq_refl)), firstn_length; simpl in Hl; lia|].
    intros x Hx. apply H1'. right. rewrite <- (firstn_skipn (S (length u)) ones). apply in_or_app. auto.
Qed.

(** * AccumulateUniformityMetric *)
Lemma cum_bound n : forall l a acc, StronglySorted Peano.le (a :: l) -> (forall x, In x (a :: l) -> (x <= n)%nat) -> (acc <= a)%nat ->
  forall x, In x (accumulate_from Nat.add acc (ndiff (a :: l))) -> (x <= n)%nat.
Proof.
  induction l as [|b t IH]; intros a acc Hs Hb Hacc x Hx; [destruct Hx|].
  cbn [ndiff accumulate_from] in Hx. inversion Hs; subst. inversion H2; subst.
  destruct Hx as [<-|Hx].
  - specialize (Hb b (or_intror (or_introl eq_refl))). lia.
  - eapply (IH b (acc + (b - a))%nat); eauto; [intros; apply Hb; right; auto|lia].
Qed.
Lemma cum_bound_acc n c0 l : StronglySorted Peano.le (c0 :: l) -> (forall x, In x (c0 :: l) -> (x <= n)%nat) ->
  forall x, In x (accumulate Nat.add (ndiff (c0 :: l))) -> (x <= n)%nat.
Proof.
  intros Hs Hb x Hx. destruct l as [|b t]; [destruct Hx|]. cbn [ndiff] in Hx. cbn [accumulate] in Hx.
  inversion Hs; subst. inversion H2; subst. destruct Hx as [<-|Hx].
  - specialize (Hb b (or_intror (or_introl eq_refl))). lia.
  - eapply (cum_bound n t b (b - c0)%nat); eauto; [intros; apply Hb; right; auto|lia].
Qed.

Lemma monotone_sorted l : monotone l = true -> StronglySorted Z.le l.
Proof.
  intros H. apply Sorted_StronglySorted; [intros a b c; lia|].
  induction l as [|a t IH]; constructor.
  - apply IH. destruct t as [|b t]; auto. simpl in H. apply andb_prop in H. apply H.
  - destruct t as [|b t]; constructor. simpl in H. apply andb_prop in H as [H _]. apply Z.leb_le in H. auto.
Qed.
Lemma StronglySorted_app {A} (R : A -> A -> Prop) l m : StronglySorted R l -> StronglySorted R m ->
  (forall x y, In x l -> In y m -> R x y) -> StronglySorted R (l ++ m).
Proof.
  induction l as [|a t IH]; intros Hl Hm H; simpl; auto. inversion Hl; subst. constructor.
  - apply IH; auto. intros; apply H; [right|]; auto.
  - apply Forall_app. split; auto. apply Forall_forall. intros y Hy. apply H; [left|]; auto.
Qed.
Lemma StronglySorted_map_le (f : Z -> nat) l : (forall x y, x <= y -> (f x <= f y)%nat) -> StronglySorted Z.le l ->
  StronglySorted Peano.le (map f l).
Proof.
  intros Hf. induction l as [|a t IH]; intros H; simpl; constructor; inversion H; subst; auto.
  apply Forall_forall. intros y Hy. apply in_map_iff in Hy as (z & <- & Hz). apply Hf. rewrite Forall_forall in H3. auto.
Qed.
Lemma StronglySorted_split {A} (R : A -> A -> Prop) l m : StronglySorted R (l ++ m) ->
  StronglySorted R l /\ StronglySorted R m /\ forall x y, In x l -> In y m -> R x y.
Proof.
  induction l as [|a t IH]; simpl; intros H.
  - split; [constructor|]. split; auto. intros x y [].
  - inversion H; subst. destruct (IH H2) as (H4 & H5 & H6). apply Forall_app in H3 as [H3 H7]. repeat split; auto.
    + constructor; auto.
    + intros x y [<-|Hx] Hy; auto. rewrite Forall_forall in H7. auto.
Qed.
Lemma skipn_removelast_split {A} (l : list A) : l = removelast l ++ skipn (length l - 1) l.
Proof.
  induction l as [|a t IH]; auto. destruct t as [|b t]; auto.
  change (removelast (a :: b :: t)) with (a :: removelast (b :: t)).
  replace (length (a :: b :: t) - 1)%nat with (S (length (b :: t) - 1)) by (simpl; lia).
  simpl skipn at 1. simpl app. f_equal. exact IH.
Qed.

Lemma histogram_cum_bound nights bins h : np_histogram nights bins = Ok h ->
  length h = (length bins - 1)%nat /\ forall x, In x (accumulate Nat.add h) -> (x <= length nights)%nat.
Proof.
  unfold np_histogram. destruct (monotone bins) eqn:Em; [|discriminate]. intros H. inversion H; subst. clear H.
  set (cum := map (ssl (zsort nights)) (removelast bins) ++ map (ssr (zsort nights)) (skipn (length bins - 1) bins)).
  assert (length cum = length bins) as Hl.
  { unfold cum. rewrite app_length, !map_length, <- app_length, <- skipn_removelast_split. auto. }
  split; [rewrite ndiff_length, Hl; auto|].
  apply monotone_sorted in Em. rewrite (skipn_removelast_split bins) in Em. apply StronglySorted_split in Em as (H1 & H2 & H3).
  assert (StronglySorted Peano.le cum) as Hs.
  { apply StronglySorted_app.
    - apply StronglySorted_map_le; auto. intros x y Hxy. rewrite !ssl_zsort. apply countb_mono. intros z _ Hz. lia.
    - apply StronglySorted_map_le; auto. intros x y Hxy. rewrite !ssr_zsort. apply countb_mono. intros z _ Hz. lia.
    - intros x y Hx Hy. apply in_map_iff in Hx as (u & <- & Hu). apply in_map_iff in Hy as (v & <- & Hv).
      specialize (H3 u v Hu Hv). rewrite ssl_zsort, ssr_zsort. apply countb_mono. intros z _ Hz. lia. }
  assert (forall x, In x cum -> (x <= length nights)%nat) as Hb.
  { intros x Hx. apply in_app_or in Hx as [Hx|Hx]; apply in_map_iff in Hx as (u & <- & Hu).
    - rewrite ssl_zsort. apply countb_le.
    - rewrite ssr_zsort. apply countb_le. }
  clearbody cum. destruct cum as [|c0 cum]; [intros x []|]. apply cum_bound_acc; auto.
Qed.

Lemma accumulate_qmax_bounds l b : (forall x, In x l -> (0 <= x <= b)%Q) -> forall x, In x (accumulate Qmax l) -> (0 <= x <= b)%Q.
Proof.
  assert (forall l acc, (0 <= acc <= b)%Q -> (forall x, In x l -> (0 <= x <= b)%Q) -> forall x, In x (accumulate_from Qmax acc l) -> (0 <= x <= b)%Q) as H.
  { clear l. induction l as [|h t IH]; intros acc Ha Hb x []; simpl in *.
    - subst x. specialize (Hb h (or_introl eq_refl)). destruct (Q.max_spec acc h) as [[_ E]|[_ E]]; rewrite E; auto.
    - eapply IH; [|intros; apply Hb; right; eauto|eauto]. specialize (Hb h (or_introl eq_refl)).
      destruct (Q.max_spec acc h) as [[_ E]|[_ E]]; rewrite E; auto. }
  intros Hb x Hx. destruct l as [|h t]; [destruct Hx|]. destruct Hx as [<-|Hx]; [apply Hb; left; auto|].
  eapply H; [| |eauto]; [apply Hb; left; auto|]. intros; apply Hb; right; auto.
Qed.
Lemma accumulate_qmax_step l k a b : nth_error (accumulate Qmax l) k = Some a -> nth_error (accumulate Qmax l) (S k) = Some b -> (a <= b)%Q.
Proof.
  assert (forall l acc k a b, nth_error (acc :: accumulate_from Qmax acc l) k = Some a ->
     nth_error (acc :: accumulate_from Qmax acc l) (S k) = Some b -> (a <= b)%Q) as H.
  { clear l k a b. induction l as [|h t IH]; intros acc k a b Ha Hb.
    - destruct k as [|[|k]]; discriminate.
    - destruct k as [|k].
      + cbn in Ha, Hb. inversion Ha; inversion Hb; subst. apply Q.le_max_l.
      + cbn [accumulate_from] in Ha, Hb. cbn [nth_error] in Ha. eapply (IH (Qmax acc h) k); eauto. }
  destruct l as [|h t]; [destruct k; discriminate|]. apply H.
Qed.

Lemma uniformity_expected m n j : (0 < m)%nat -> (j <= m)%nat -> (0 <= nfrac j m * inject_Z (Z.of_nat n) <= inject_Z (Z.of_nat n))%Q.
Proof.
  intros Hm Hj. pose proof (nfrac_le1 j m Hj Hm) as [H1 H2].
  assert (0 <= inject_Z (Z.of_nat n))%Q as H3 by (unfold Qle, inject_Z; simpl; lia).
  split.
  - apply Qmult_le_0_compat; auto.
  - rewrite <- (Qmult_1_l (inject_Z (Z.of_nat n))) at 2. apply Qmult_le_compat_r; auto.
Qed.

Lemma accumulate_uniformity_bounds bins nights r : (3 <= length bins)%nat -> nights <> [] ->
  accumulate_uniformity_run bins nights = Ok r ->
  length r = (length bins - 1)%nat /\
  (forall k v, nth_error r k = Some v -> exists q, v = Some q /\ (0 <= q <= 1)%Q) /\
  (forall k a b, nth_error r k = Some (Some a) -> nth_error r (S k) = Some (Some b) -> (a <= b)%Q).
Proof.
  Opaque repeat.
  intros Hb Hn H. unfold accumulate_uniformity_run in H.
  destruct (length bins - 1)%nat as [|[|m]] eqn:Enb; [lia|lia|].
  destruct (length nights) as [|[|n]] eqn:En; [destruct nights; [congruence|discriminate]| |].
  - assert (r = repeat (Some 1%Q) (S (S m))) as -> by congruence. split; [apply repeat_length|]. split.
    + intros k v Hk. apply nth_error_In, repeat_spec in Hk. subst. exists 1%Q. split; auto. lra.
    + intros k a b Ha Hb'. apply nth_error_In, repeat_spec in Ha. apply nth_error_In, repeat_spec in Hb'.
      inversion Ha; inversion Hb'; subst. lra.
  - remember (S (S n)) as N eqn:EN. assert (0 < N)%nat as HN by lia. clear EN.
    destruct (np_histogram nights bins) as [h|] eqn:Eh; [|discriminate]. cbn [bind] in H.
    assert (match N with O => @Ok (list (option Q)) (repeat None (S (S m))) | S _ => @Ok (list (option Q)) (map (fun x => Some (x / qmaxl (map (fun j => (nfrac j (S m) * inject_Z (Z.of_nat N))%Q) (seq 0 (S (S m)))))%Q)
        (accumulate Qmax (map (fun p => Qabs (inject_Z (Z.of_nat (fst p)) - snd p)) (combine (accumulate Nat.add h) (map (fun j => (nfrac j (S m) * inject_Z (Z.of_nat N))%Q) (seq 0 (S (S m)))))))) end = Ok r) as H'.
    { destruct N as [|[|N]]; [lia| |exact H]. exact H. }
    clear H. destruct N as [|N']; [lia|]. remember (S N') as N eqn:EN. clear EN.
    apply histogram_cum_bound in Eh as [Hlh Hcum]. rewrite Enb in Hlh. rewrite En in Hcum.
    set (expected := map (fun j => (nfrac j (S m) * inject_Z (Z.of_nat N))%Q) (seq 0 (S (S m)))) in *.
    assert (forall x, In x expected -> (0 <= x <= inject_Z (Z.of_nat N))%Q) as Hexp.
    { intros x Hx. apply in_map_iff in Hx as (j & <- & Hj). apply in_seq in Hj. apply uniformity_expected; lia. }
    assert (qmaxl expected == inject_Z (Z.of_nat N))%Q as Hmax.
    { apply Qle_antisym.
      - apply qmaxl_lub; [discriminate|]. intros x Hx. apply Hexp; auto.
      - assert (In (nfrac (S m) (S m) * inject_Z (Z.of_nat N))%Q expected) as Hin.
        { apply in_map_iff. exists (S m). split; auto. apply in_seq. lia. }
        apply qmaxl_ub in Hin. rewrite (nfrac_full (S m)) in Hin by lia. lra. }
    assert (0 < inject_Z (Z.of_nat N))%Q as HNpos by (unfold Qlt, inject_Z; simpl; lia).
    set (d := map _ (combine (accumulate Nat.add h) expected)) in *.
    assert (length d = S (S m)) as Hld.
    { unfold d, expected. rewrite map_length, combine_length, map_length, accumulate_length, seq_length. lia. }
    assert (forall x, In x d -> (0 <= x <= inject_Z (Z.of_nat N))%Q) as Hd.
    { intros x Hx. apply in_map_iff in Hx as ([c e] & <- & Hce). cbn [fst snd].
      pose proof (in_combine_l _ _ _ _ Hce) as Hc. apply in_combine_r in Hce. apply Hcum in Hc. apply Hexp in Hce.
      split; [apply Qabs_nonneg|]. apply Qabs_Qle_condition.
      assert (0 <= inject_Z (Z.of_nat c) <= inject_Z (Z.of_nat N))%Q by (unfold Qle, inject_Z; simpl; lia). lra. }
    assert (r = map (fun x => Some (x / qmaxl expected)%Q) (accumulate Qmax d)) as -> by (inversion H'; auto).
    clear H'. split; [rewrite map_length, accumulate_length; auto|].
    assert (forall x, x / qmaxl expected == x / inject_Z (Z.of_nat N))%Q as Hq by (intros x; rewrite Hmax; reflexivity).
    split.
    + intros k v Hk. rewrite nth_error_map in Hk. destruct (nth_error (accumulate Qmax d) k) as [x|] eqn:Ex; [|discriminate].
      cbn [option_map] in Hk. injection Hk as <-. eexists. split; [reflexivity|].
      apply nth_error_In in Ex. apply (accumulate_qmax_bounds d (inject_Z (Z.of_nat N)) Hd) in Ex.
      rewrite (Hq x). split.
      * apply Qle_shift_div_l; auto. lra.
      * apply Qle_shift_div_r; auto. lra.
    + intros k a b Ha Hb'. rewrite nth_error_map in Ha, Hb'.
      destruct (nth_error (accumulate Qmax d) k) as [x|] eqn:Ex; [|discriminate].
      destruct (nth_error (accumulate Qmax d) (S k)) as [y|] eqn:Ey; [|discriminate].
      cbn [option_map] in Ha, Hb'. injection Ha as <-. injection Hb' as <-.
      pose proof (accumulate_qmax_step d k x y Ex Ey) as Hxy. rewrite (Hq x), (Hq y).
      unfold Qdiv. apply Qmult_le_compat_r; auto. apply Qlt_le_weak, Qinv_lt_0_compat; auto.
Qed.

Transparent repeat.
