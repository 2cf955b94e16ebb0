(** Lemmas about the statistics metrics. *)
From Verif Require Import Base Slicer_Model Slicer_Spec Slicer_Proofs GapMetrics_Model GapMetrics_Spec GapMetrics_Proofs.
From Verif Require Import StatMetrics_Model StatMetrics_Spec.
From Coq Require Import QArith Qabs Qminmax Qround Permutation Sorted Lia Lqa ZifyBool ZifyNat.
Open Scope Z_scope.

(** * Maxima of rationals *)
Lemma qmaxl_ub l x : In x l -> (x <= qmaxl l)%Q.
Proof.
  unfold qmaxl. generalize (hd 0%Q l). induction l as [|h t IH]; intros d []; simpl.
  - subst. apply Q.le_max_l.
  - eapply Qle_trans; [apply IH; auto|apply Q.le_max_r].
Qed.
Lemma qmaxl_lub l b : l <> [] -> (forall x, In x l -> (x <= b)%Q) -> (qmaxl l <= b)%Q.
Proof.
  intros Hne H. unfold qmaxl.
  assert (hd 0%Q l <= b)%Q as Hd by (destruct l; [congruence|apply H; left; auto]).
  revert Hd. generalize (hd 0%Q l). clear Hne. induction l as [|h t IH]; intros d Hd; simpl; auto.
  apply Q.max_lub; [apply H; left; auto|]. apply IH; auto. intros; apply H; right; auto.
Qed.

Lemma nfrac_le1 k n : (k <= n)%nat -> (0 < n)%nat -> (0 <= nfrac k n <= 1)%Q.
Proof. intros H H0. unfold nfrac, Qle; simpl. rewrite <- (Nat2Pos.id n) in H by lia. lia. Qed.
Lemma nfrac_eq k n : (0 < n)%nat -> (nfrac k n == inject_Z (Z.of_nat k) / inject_Z (Z.of_nat n))%Q.
Proof.
  intros H. unfold nfrac, Qdiv, Qinv, inject_Z, Qeq. simpl. destruct n as [|n]; [lia|].
  simpl Z.of_nat. rewrite <- Pos.of_nat_succ. simpl. lia.
Qed.
Lemma nfrac_full n : (0 < n)%nat -> (nfrac n n == 1)%Q.
Proof. intros H. unfold nfrac, Qeq; simpl. rewrite <- (Nat2Pos.id n) at 1 by lia. lia. Qed.
Lemma nfrac_S k n : (0 < n)%nat -> (nfrac (S k) n == nfrac k n + nfrac 1 n)%Q.
Proof. intros H. unfold nfrac, Qeq, Qplus; cbn [Qnum Qden]. rewrite Nat2Z.inj_succ. nia. Qed.
Lemma nfrac_0 n : (nfrac 0 n == 0)%Q.
Proof. reflexivity. Qed.
Lemma nfrac_mono j k n : (j <= k)%nat -> (nfrac j n <= nfrac k n)%Q.
Proof. intros H. unfold nfrac, Qle; simpl. nia. Qed.

Lemma in_combine_seq_nth {A} (l : list A) k x :
  In (k, x) (combine (seq 0 (length l)) l) <-> nth_error l k = Some x.
Proof.
  assert (forall s, In (k, x) (combine (seq s (length l)) l) <-> (s <= k)%nat /\ nth_error l (k - s) = Some x) as H.
  { revert k; induction l as [|a l IH]; intros k s; simpl.
    - split; [tauto|]. intros [_ H]. destruct (k - s)%nat; discriminate.
    - rewrite IH. split.
      + intros [H|[H1 H2]].
        * inversion H; subst. split; [lia|]. rewrite Nat.sub_diag. reflexivity.
        * split; [lia|]. replace (k - s)%nat with (S (k - S s)) by lia. auto.
      + intros [H1 H2]. destruct (Nat.eq_dec k s) as [->|Hne].
        * left. rewrite Nat.sub_diag in H2. simpl in H2. congruence.
        * right. split; [lia|]. replace (k - s)%nat with (S (k - S s)) in H2 by lia. auto. }
  rewrite H. rewrite Nat.sub_0_r. intuition lia.
Qed.

Lemma in_combine_seq_nth_len {A} (l : list A) n k x : n = length l ->
  In (k, x) (combine (seq 0 n) l) <-> nth_error l k = Some x.
Proof. intros ->. apply in_combine_seq_nth. Qed.

(** the KS distance of a scaled column: what its value says about the dates *)
Lemma ks_value dates d1 r : nth_error dates 1 = Some d1 -> ks_dmax dates = Ok r ->
  (forall k d, nth_error dates k = Some d -> (Qabs (nfrac (S k) (length dates) - d - d1) <= r)%Q) /\
  (forall b, (forall k d, nth_error dates k = Some d -> (Qabs (nfrac (S k) (length dates) - d - d1) <= b)%Q) -> (r <= b)%Q) /\
  (exists k d, nth_error dates k = Some d /\ (r == Qabs (nfrac (S k) (length dates) - d - d1))%Q).
Proof.
  intros H1 H. unfold ks_dmax, arr_get in H. rewrite H1 in H. simpl in H. inversion H; subst; clear H.
  set (L := map _ _).
  assert (forall k d, nth_error dates k = Some d -> In (Qabs (nfrac (S k) (length dates) - d - d1)) L) as Hin.
  { intros k d Hk. unfold L. apply in_map_iff. exists (k, d). split; auto. apply in_combine_seq_nth; auto. }
  assert (forall x, In x L -> exists k d, nth_error dates k = Some d /\ x = Qabs (nfrac (S k) (length dates) - d - d1)) as Hout.
  { intros x Hx. apply in_map_iff in Hx as ([k d] & <- & Hx). apply in_combine_seq_nth in Hx. eauto. }
  assert (L <> []) as Hne.
  { intros E. specialize (Hin 1%nat d1 H1). rewrite E in Hin. destruct Hin. }
  split; [|split].
  - intros k d Hk. apply qmaxl_ub; eauto.
  - intros b Hb. apply qmaxl_lub; auto. intros x Hx. destruct (Hout x Hx) as (k & d & Hk & ->). auto.
  - assert (forall m d0, exists x, In x (d0 :: m) /\ (fold_right Qmax d0 m == x)%Q) as Hmax.
    { clear. intros m d0. induction m as [|h m (x & Hx & He)]; simpl.
      - exists d0. split; [left; auto|reflexivity].
      - destruct (Q.max_spec h (fold_right Qmax d0 m)) as [[_ E]|[_ E]].
        + exists x. split; [destruct Hx; auto|]. rewrite E. auto.
        + exists h. split; [auto|]. exact E. }
    destruct (Hmax L (hd 0%Q L)) as (x & Hx & He).
    assert (In x L) as HxL by (destruct Hx as [<-|Hx]; auto; destruct L; [congruence|left; auto]).
    destruct (Hout x HxL) as (k & d & Hk & ->). exists k, d. split; auto.
Qed.

(** range and meaning of the KS distance for scaled dates *)
Section KS.
  Variables (dates : list Q) (r : Q).
  Hypothesis Hn : (2 <= length dates)%nat.
  Hypothesis Hsorted : forall i j a b, (i < j)%nat -> nth_error dates i = Some a -> nth_error dates j = Some b -> (a <= b)%Q.
  Hypothesis H01 : forall k d, nth_error dates k = Some d -> (0 <= d <= 1)%Q.
  Hypothesis H0 : exists d0, nth_error dates 0 = Some d0 /\ (d0 == 0)%Q.
  Hypothesis Hr : ks_dmax dates = Ok r.

  Lemma ks_d1 : exists d1, nth_error dates 1 = Some d1.
  Proof. destruct (nth_error dates 1) eqn:E; eauto. apply nth_error_None in E. lia. Qed.

  Lemma ks_lower : (0 <= r)%Q.
  Proof.
    destruct ks_d1 as (d1 & E). destruct (ks_value dates d1 r E Hr) as (H & _ & _).
    eapply Qle_trans; [|apply (H 1%nat d1 E)]. apply Qabs_nonneg.
  Qed.

  Lemma ks_upper : (r <= 2 - nfrac 2 (length dates))%Q.
  Proof.
    destruct ks_d1 as (d1 & E). destruct (ks_value dates d1 r E Hr) as (_ & H & _). apply H.
    intros k d Hk. assert (k < length dates)%nat as Hlt by (apply nth_error_Some; congruence).
    pose proof (H01 1 d1 E) as B1. pose proof (H01 k d Hk) as Bk.
    pose proof (nfrac_le1 (S k) (length dates) ltac:(lia) ltac:(lia)) as Bf.
    pose proof (nfrac_le1 2 (length dates) ltac:(lia) ltac:(lia)) as B2.
    apply Qabs_Qle_condition. split; [|lra].
    destruct k as [|k].
    - destruct H0 as (d0 & Hd0 & Hz). assert (d = d0) as -> by congruence.
      pose proof (nfrac_S 1 (length dates) ltac:(lia)) as X2.
      assert (nfrac 2 (length dates) <= 1 + 0)%Q by lra. lra.
    - pose proof (nfrac_mono 2 (S (S k)) (length dates) ltac:(lia)). lra.
  Qed.

  Lemma ks_zero : (r == 0)%Q <-> forall k d, nth_error dates k = Some d -> (d == nfrac k (length dates))%Q.
  Proof.
    destruct ks_d1 as (d1 & E). destruct (ks_value dates d1 r E Hr) as (Hub & Hlub & _). split.
    - intros Hz.
      assert (forall k d, nth_error dates k = Some d -> (nfrac (S k) (length dates) - d - d1 == 0)%Q) as Ha.
      { intros k d Hk. specialize (Hub k d Hk). rewrite Hz in Hub. apply Qabs_Qle_condition in Hub. lra. }
      destruct H0 as (d0 & Hd0 & Hz0). pose proof (Ha 0%nat d0 Hd0) as A0.
      intros k d Hk. pose proof (Ha k d Hk) as Ak. pose proof (nfrac_S k (length dates) ltac:(lia)). lra.
    - intros Ha. pose proof ks_lower. assert (r <= 0)%Q; [|lra]. apply Hlub. intros k d Hk.
      pose proof (Ha k d Hk) as Ak. pose proof (Ha 1%nat d1 E) as A1. pose proof (nfrac_S k (length dates) ltac:(lia)) as As.
      apply Qabs_Qle_condition. lra.
  Qed.
End KS.

Lemma ks_dmax_total dates : (2 <= length dates)%nat -> exists r, ks_dmax dates = Ok r.
Proof.
  intros H. unfold ks_dmax, arr_get. destruct (nth_error dates 1) eqn:E; [simpl; eauto|].
  apply nth_error_None in E. lia.
Qed.

Lemma zsort_nth_range col k x : nth_error (zsort col) k = Some x -> zmin col <= x /\ In x col.
Proof.
  intros H. apply nth_error_In in H. apply (Permutation_in _ (zsort_perm col)) in H. split; auto. apply zmin_le; auto.
Qed.
Lemma zmin_In l : l <> [] -> In (zmin l) l.
Proof.
  unfold zmin. destruct l as [|h t]; [tauto|]. intros _.
  assert (forall t d, In (fold_right Z.min d t) (d :: t)) as Hg.
  { clear. induction t as [|x t IH]; intros d; simpl; auto.
    destruct (Z.min_spec x (fold_right Z.min d t)) as [[_ ->]|[_ ->]]; auto.
    destruct (IH d); auto. }
  simpl hd. destruct (Hg (h :: t) h) as [E|E]; [rewrite <- E; left; auto|auto].
Qed.
Lemma zsort_first col : col <> [] -> nth_error (zsort col) 0 = Some (zmin col).
Proof.
  intros Hne. destruct (zsort col) as [|h t] eqn:E.
  - exfalso. pose proof (zsort_length col) as H. rewrite E in H. destruct col; [congruence|discriminate].
  - simpl. f_equal. assert (In h col) as Hh by (apply (Permutation_in _ (zsort_perm col)); rewrite E; left; auto).
    pose proof (zmin_le col h Hh). pose proof (zmin_In col Hne) as Hm.
    apply (Permutation_in _ (Permutation_sym (zsort_perm col))) in Hm. rewrite E in Hm.
    pose proof (zsort_sorted col) as Hs. rewrite E in Hs. inversion Hs; subst. rewrite Forall_forall in H3.
    destruct Hm as [|Hm]; auto. specialize (H3 _ Hm). lia.
Qed.

(** scaled dates satisfy the hypotheses of section KS *)
Lemma scaled_ok survey (s : list Z) mn : 0 < survey -> StronglySorted Z.le s ->
  (forall x, In x s -> mn <= x <= mn + survey) -> nth_error s 0 = Some mn ->
  let dates := map (fun x => inject_Z (x - mn) / inject_Z survey)%Q s in
  (forall i j a b, (i < j)%nat -> nth_error dates i = Some a -> nth_error dates j = Some b -> (a <= b)%Q) /\
  (forall k d, nth_error dates k = Some d -> (0 <= d <= 1)%Q) /\
  (exists d0, nth_error dates 0 = Some d0 /\ (d0 == 0)%Q).
Proof.
  intros Hs Hst Hr Hf dates.
  assert (0 < inject_Z survey)%Q as Hq by (change 0%Q with (inject_Z 0); rewrite <- Zlt_Qlt; auto).
  assert (forall a b, a <= b -> (inject_Z a / inject_Z survey <= inject_Z b / inject_Z survey)%Q) as Hmono.
  { intros a b Hab. apply Qle_shift_div_l; auto. unfold Qdiv. rewrite <- Qmult_assoc, (Qmult_comm (/ _)), Qmult_inv_r, Qmult_1_r by lra.
    rewrite <- Zle_Qle. auto. }
  split; [|split].
  - intros i j a b Hij Ha Hb. unfold dates in *. rewrite nth_error_map in Ha, Hb.
    destruct (nth_error s i) as [x|] eqn:E1; [|discriminate]. destruct (nth_error s j) as [y|] eqn:E2; [|discriminate].
    cbn in Ha, Hb. inversion Ha; inversion Hb; subst. apply Hmono.
    pose proof (sorted_nondecreasing s Hst i j x y Hij E1 E2). lia.
  - intros k d Hk. unfold dates in Hk. rewrite nth_error_map in Hk. destruct (nth_error s k) as [x|] eqn:E1; [|discriminate].
    cbn in Hk. inversion Hk; subst. specialize (Hr x (nth_error_In _ _ E1)). split.
    + assert (inject_Z 0 / inject_Z survey == 0)%Q as E0 by (unfold Qdiv; change (inject_Z 0) with 0%Q; ring).
      rewrite <- E0. apply Hmono. lia.
    + assert (inject_Z survey / inject_Z survey == 1)%Q as E0 by (unfold Qdiv; rewrite Qmult_inv_r; lra).
      rewrite <- E0. apply Hmono. lia.
  - exists (inject_Z (mn - mn) / inject_Z survey)%Q. unfold dates. rewrite nth_error_map, Hf. split; auto.
    rewrite Z.sub_diag. unfold Qdiv. change (inject_Z 0) with 0%Q. ring.
Qed.

Lemma uniformity_dates_ok survey col : 0 < survey -> (2 <= length col)%nat -> inside_survey survey col ->
  let dates := map (fun x => inject_Z (x - zmin col) / inject_Z survey)%Q (zsort col) in
  uniformity_run survey col = ks_dmax dates /\ length dates = length col /\
  (forall i j a b, (i < j)%nat -> nth_error dates i = Some a -> nth_error dates j = Some b -> (a <= b)%Q) /\
  (forall k d, nth_error dates k = Some d -> (0 <= d <= 1)%Q) /\
  (exists d0, nth_error dates 0 = Some d0 /\ (d0 == 0)%Q).
Proof.
  intros Hs Hl Hin dates. assert (col <> []) as Hne by (destruct col; [simpl in Hl; lia|discriminate]).
  split; [|split].
  - unfold dates. destruct col as [|a [|b t]]; simpl in Hl; try lia. reflexivity.
  - unfold dates. rewrite map_length, zsort_length. auto.
  - apply scaled_ok; auto; [apply zsort_sorted| |apply zsort_first; auto].
    intros x Hx. apply (Permutation_in _ (zsort_perm col)) in Hx. pose proof (zmin_le col x Hx).
    pose proof (Hin x (zmin col) Hx (zmin_In col Hne)). lia.
Qed.

Lemma uniformity_bounds survey col r : 0 < survey -> (2 <= length col)%nat -> inside_survey survey col ->
  uniformity_run survey col = Ok r -> (0 <= r <= 2 - nfrac 2 (length col))%Q.
Proof.
  intros Hs Hl Hin H. destruct (uniformity_dates_ok survey col Hs Hl Hin) as (H1 & H2 & H3 & H4 & H5).
  rewrite H1 in H. rewrite <- H2. split; [eapply ks_lower|eapply ks_upper]; eauto; rewrite H2; auto.
Qed.

Lemma uniformity_zero survey col s r : 0 < survey -> (2 <= length col)%nat -> inside_survey survey col ->
  time_ordered col s -> uniformity_run survey col = Ok r ->
  ((r == 0)%Q <-> forall first k x, nth_error s 0 = Some first -> nth_error s k = Some x ->
     (inject_Z (x - first) == inject_Z survey * nfrac k (length col))%Q).
Proof.
  intros Hs Hl Hin Ht H. apply time_ordered_zsort in Ht. subst s.
  destruct (uniformity_dates_ok survey col Hs Hl Hin) as (H1 & H2 & H3 & H4 & H5).
  assert (col <> []) as Hne by (destruct col; [simpl in Hl; lia|discriminate]).
  assert (0 < inject_Z survey)%Q as Hq by (change 0%Q with (inject_Z 0); rewrite <- Zlt_Qlt; auto).
  rewrite H1 in H. rewrite (ks_zero _ r ltac:(rewrite H2; auto) H3 H4 H5 H). rewrite H2. split.
  - intros Hz first k x Hf Hx. rewrite zsort_first in Hf by auto. inversion Hf; subst first.
    specialize (Hz k (inject_Z (x - zmin col) / inject_Z survey)%Q). rewrite nth_error_map, Hx in Hz. specialize (Hz eq_refl).
    rewrite <- Hz. field. lra.
  - intros Hz k d Hk. rewrite nth_error_map in Hk. destruct (nth_error (zsort col) k) as [x|] eqn:Ex; [|discriminate].
    cbn in Hk. inversion Hk; subst. specialize (Hz (zmin col) k x (zsort_first col Hne) Ex). rewrite Hz. field. lra.
Qed.

Lemma zmin_perm l m : Permutation l m -> zmin l = zmin m.
Proof.
  intros H. destruct l as [|a l].
  - apply Permutation_nil in H. subst. reflexivity.
  - assert (m <> []) as Hm by (intros ->; apply Permutation_sym, Permutation_nil in H; discriminate).
    pose proof (zmin_In (a :: l) ltac:(discriminate)) as H1. pose proof (zmin_In m Hm) as H2.
    pose proof (zmin_le _ _ (Permutation_in _ H H1)). pose proof (zmin_le _ _ (Permutation_in _ (Permutation_sym H) H2)). lia.
Qed.
Lemma zmax_perm l m : Permutation l m -> zmax l = zmax m.
Proof.
  intros H. destruct l as [|a l].
  - apply Permutation_nil in H. subst. reflexivity.
  - assert (m <> []) as Hm by (intros ->; apply Permutation_sym, Permutation_nil in H; discriminate).
    pose proof (zmax_In (a :: l) ltac:(discriminate)) as H1. pose proof (zmax_In m Hm) as H2.
    pose proof (zmax_ge _ _ (Permutation_in _ H H1)). pose proof (zmax_ge _ _ (Permutation_in _ (Permutation_sym H) H2)). lia.
Qed.
Lemma zsort_perm_eq l m : Permutation l m -> zsort l = zsort m.
Proof.
  intros H. apply sorted_perm_unique; try apply zsort_sorted. rewrite !zsort_perm. auto.
Qed.
Lemma uniformity_perm survey col col' : Permutation col col' -> uniformity_run survey col = uniformity_run survey col'.
Proof.
  intros H. pose proof (Permutation_length H) as Hl. unfold uniformity_run.
  destruct col as [|a [|b t]], col' as [|a' [|b' t']]; try discriminate; auto.
  rewrite (zmin_perm _ _ H), (zsort_perm_eq _ _ H). reflexivity.
Qed.

Lemma rapid_bounds mn lo hi col r : lo < hi -> rapid_revisit_uniformity_run mn lo hi col = Ok (Some r) ->
  exists n, (2 <= n)%nat /\ (mn <= n)%nat /\ n = countb (fun d => (lo <=? d) && (d <=? hi)) (diff (zsort col)) /\ (0 <= r <= 2 - nfrac 2 n)%Q.
Proof.
  intros Hlt. unfold rapid_revisit_uniformity_run.
  set (good := filter _ _). destruct (Nat.ltb_spec (length good) (Nat.max 2 mn)); [discriminate|].
  destruct (ks_dmax _) as [r'|] eqn:E; [|discriminate]. simpl. intros X; inversion X; subst r'.
  exists (length good). split; [lia|]. split; [lia|]. split; [reflexivity|].
  assert (good <> []) as Hne by (intros E0; apply (f_equal (@length Z)) in E0; change (length good = 0%nat) in E0; lia).
  assert (zsort good <> []) as Hne2.
  { intros E0. apply (f_equal (@length Z)) in E0. rewrite zsort_length in E0. change (length good = 0%nat) in E0. lia. }
  assert (zmin (zsort good) = zmin good) as Hmin by (apply zmin_perm, zsort_perm).
  destruct (scaled_ok (hi - lo) (zsort good) (zmin (zsort good))) as (H3 & H4 & H5).
  - lia.
  - apply zsort_sorted.
  - intros x Hx. split; [apply zmin_le; auto|]. rewrite Hmin.
    apply (Permutation_in _ (zsort_perm good)) in Hx.
    pose proof (zmin_In good Hne) as Hm. unfold good in Hx, Hm. apply filter_In in Hx as [_ Hx]. apply filter_In in Hm as [_ Hm].
    fold good in Hm. lia.
  - rewrite Hmin. apply zsort_first; auto.
  - assert (length (map (fun d : Z => (inject_Z (d - zmin (zsort good)) / inject_Z (hi - lo))%Q) (zsort good)) = length good) as Hlen
      by (rewrite map_length, zsort_length; auto).
    rewrite <- Hlen. split; [eapply ks_lower|eapply ks_upper]; eauto; rewrite Hlen; lia.
Qed.

(** * GeneralUniformity *)
Lemma qsort_map f l : (forall x y, Qle_bool (f x) (f y) = (x <=? y)) -> qsort (map f l) = map f (zsort l).
Proof.
  intros Hf.
  assert (forall x m, qinsert (f x) (map f m) = map f (zinsert x m)) as Hi.
  { intros x m; induction m as [|h m IH]; simpl; auto. rewrite Hf. destruct (x <=? h); simpl; auto. rewrite IH. auto. }
  induction l as [|a l IH]; simpl; auto. unfold qsort in *. simpl. rewrite IH. apply Hi.
Qed.

Lemma general_uniformity_value mx col r : 0 < mx -> (2 <= length col)%nat ->
  general_uniformity_run (Some 0) (Some mx) col = Ok (Some r) ->
  (forall k x, nth_error (zsort col) k = Some x -> (Qabs (nfrac k (length col - 1) - inject_Z x / inject_Z mx) <= r)%Q) /\
  (forall b, (forall k x, nth_error (zsort col) k = Some x -> (Qabs (nfrac k (length col - 1) - inject_Z x / inject_Z mx) <= b)%Q) -> (r <= b)%Q).
Proof.
  intros Hmx Hl H.
  assert (general_uniformity_run (Some 0) (Some mx) col = if mx =? 0 then Ok None else
    let scaled := qsort (map (fun x => inject_Z (x - 0) / inject_Z mx)%Q col) in
    let n := length scaled in
    Ok (Some (qmaxl (map (fun p => Qabs (nfrac (fst p) (n - 1) - snd p)) (combine (seq 0 n) scaled))))) as Eq.
  { destruct col as [|a [|b t]]; simpl in Hl; try lia. reflexivity. }
  rewrite Eq in H. clear Eq. cbv zeta in H.
  assert (col <> []) as Hcol by (destruct col; [simpl in Hl; lia|discriminate]).
  replace (mx =? 0) with false in H by lia.
  rewrite qsort_map in H.
  2:{ intros x y. rewrite !Z.sub_0_r. apply eq_true_iff_eq. rewrite Qle_bool_iff, Z.leb_le.
      assert (0 < inject_Z mx)%Q as Hq by (change 0%Q with (inject_Z 0); rewrite <- Zlt_Qlt; auto).
      rewrite Zle_Qle. split; intros Hle.
      - apply (Qmult_le_r _ _ (inject_Z mx)) in Hle; auto. unfold Qdiv in Hle.
        rewrite <- !Qmult_assoc, !(Qmult_comm (/ inject_Z mx)), !Qmult_inv_r, !Qmult_1_r in Hle by lra. auto.
      - apply (Qmult_le_r _ _ (inject_Z mx)); auto. unfold Qdiv.
        rewrite <- !Qmult_assoc, !(Qmult_comm (/ inject_Z mx)), !Qmult_inv_r, !Qmult_1_r by lra. auto. }
  rewrite map_length, zsort_length in H. match type of H with Ok (Some (qmaxl ?l)) = _ => set (L := l) in * end.
  assert (qmaxl L = r) as Hr by congruence. clear H. subst r.
  assert (forall x, In x L <-> exists k z, nth_error (zsort col) k = Some z /\
            x = Qabs (nfrac k (length col - 1) - inject_Z (z - 0) / inject_Z mx)) as HL.
  { intros x. unfold L. rewrite in_map_iff.
    assert (length col = length (map (fun x => inject_Z (x - 0) / inject_Z mx)%Q (zsort col))) as Hsc by (rewrite map_length, zsort_length; auto).
    split.
    - intros ([k d] & <- & Hin). apply (in_combine_seq_nth_len _ _ _ _ Hsc) in Hin. rewrite nth_error_map in Hin.
      destruct (nth_error (zsort col) k) eqn:E; [|discriminate]. cbn in Hin. inversion Hin; subst. eauto.
    - intros (k & z & E & ->). exists (k, inject_Z (z - 0) / inject_Z mx)%Q. split; auto.
      apply (in_combine_seq_nth_len _ _ _ _ Hsc). rewrite nth_error_map, E. reflexivity. }
  assert (L <> []) as Hne.
  { intros E. assert (exists z, nth_error (zsort col) 0 = Some z) as (z & Hz) by (eexists; apply zsort_first; auto).
    pose proof (proj2 (HL _) (ex_intro _ 0%nat (ex_intro _ z (conj Hz eq_refl)))) as X. rewrite E in X. destruct X. }
  split.
  - intros k x Hx. apply qmaxl_ub. apply HL. exists k, x. rewrite Z.sub_0_r. auto.
  - intros b0 Hb. apply qmaxl_lub; auto. intros x Hx. apply HL in Hx as (k & z & E & ->). rewrite Z.sub_0_r. eauto.
Qed.

Lemma general_uniformity_ok mx col s r : 0 < mx -> (2 <= length col)%nat -> (forall x, In x col -> 0 <= x <= mx) ->
  time_ordered col s -> general_uniformity_run (Some 0) (Some mx) col = Ok (Some r) ->
  (0 <= r <= 1)%Q /\
  ((r == 0)%Q <-> forall k x, nth_error s k = Some x -> (inject_Z x == inject_Z mx * nfrac k (length col - 1))%Q).
Proof.
  intros Hmx Hl Hr Ht H. apply time_ordered_zsort in Ht. subst s.
  destruct (general_uniformity_value mx col r Hmx Hl H) as [Hub Hlub].
  assert (0 < inject_Z mx)%Q as Hq by (change 0%Q with (inject_Z 0); rewrite <- Zlt_Qlt; auto).
  assert (col <> []) as Hne by (destruct col; [simpl in Hl; lia|discriminate]).
  assert (0 <= r)%Q as H0.
  { eapply Qle_trans; [|apply (Hub 0%nat _ (zsort_first col Hne))]. apply Qabs_nonneg. }
  split; [split; auto|].
  - apply Hlub. intros k x Hx. pose proof (zsort_nth_range col k x Hx) as [_ Hin]. specialize (Hr x Hin).
    assert (k < length col)%nat as Hlt by (rewrite <- (zsort_length col); apply nth_error_Some; congruence).
    pose proof (nfrac_le1 k (length col - 1) ltac:(lia) ltac:(lia)).
    assert (0 <= inject_Z x / inject_Z mx <= 1)%Q as Hd.
    { split; [apply Qle_shift_div_l; auto; rewrite Qmult_0_l; change 0%Q with (inject_Z 0); rewrite <- Zle_Qle; lia|].
      apply Qle_shift_div_r; auto. rewrite Qmult_1_l, <- Zle_Qle. lia. }
    apply Qabs_Qle_condition. lra.
  - split.
    + intros Hz k x Hx. specialize (Hub k x Hx). rewrite Hz in Hub. apply Qabs_Qle_condition in Hub.
      assert (nfrac k (length col - 1) == inject_Z x / inject_Z mx)%Q as -> by lra. field. lra.
    + intros Hz. assert (r <= 0)%Q; [|lra]. apply Hlub. intros k x Hx. rewrite (Hz k x Hx).
      assert (nfrac k (length col - 1) - inject_Z mx * nfrac k (length col - 1) / inject_Z mx == 0)%Q as -> by (field; lra).
      apply Qle_refl.
Qed.

(** * fO metrics *)
Lemma pylast_top k col : (1 <= k)%nat -> (k <= length col)%nat ->
  length (pylast (zsort col) k) = k /\ StronglySorted Z.le (pylast (zsort col) k) /\
  best_pixels k col (pylast (zsort col) k).
Proof.
  intros H1 H2. destruct k as [|k]; [lia|]. unfold pylast. set (s := zsort col).
  assert (length s = length col) as Hl by apply zsort_length. set (n := (length s - S k)%nat).
  assert (StronglySorted Z.le s) as Hs by apply zsort_sorted.
  assert (length (skipn n s) = S k) as Hlen by (rewrite skipn_length; unfold n; lia).
  assert (forall m (t : list Z), StronglySorted Z.le t -> StronglySorted Z.le (skipn m t) /\
            forall x y, In x (skipn m t) -> In y (firstn m t) -> y <= x) as Hsk.
  { induction m as [|m IH]; intros t Ht; simpl; [split; auto; intros x y _ []|].
    destruct t as [|h t]; [split; auto; intros x y []|]. inversion Ht; subst. destruct (IH t H3) as [A B]. split; auto.
    intros x y Hx [<-|Hy]; [|apply B; auto]. rewrite Forall_forall in H4. apply H4.
    rewrite <- (firstn_skipn m t). apply in_or_app. auto. }
  destruct (Hsk n s Hs) as [A B]. split; auto. split; auto. split; auto.
  exists (firstn n s). split; auto.
  rewrite Permutation_app_comm, firstn_skipn. apply zsort_perm.
Qed.

Lemma fonv_ok npix col : (1 <= npix)%nat -> (npix <= length col)%nat -> exists m2 mn top,
  fonv_run npix col = Ok (Some (m2, mn)) /\ best_pixels npix col top /\
  twice_median top m2 /\ In mn top /\ (forall x, In x top -> mn <= x).
Proof.
  intros H1 H2. destruct (pylast_top npix col H1 H2) as (Hl & Hs & Hb).
  unfold fonv_run. replace (length col <? npix)%nat with false by lia.
  set (top := pylast (zsort col) npix) in *. destruct top as [|t0 ts] eqn:E; [simpl in Hl; lia|]. rewrite <- E in *.
  exists (median2 top), (zmin top), top. split; [auto|]. split; auto. split; [|split].
  - intros s Hst. apply time_ordered_zsort in Hst. subst s.
    assert (zsort top = top) as ->. { symmetry. apply sorted_perm_unique; auto. apply zsort_sorted. rewrite zsort_perm; auto. }
    assert (0 < length top)%nat as Hpos by lia.
    assert ((length top - 1) / 2 < length top)%nat by (apply Nat.div_lt_upper_bound; lia).
    assert (length top / 2 < length top)%nat by (apply Nat.div_lt_upper_bound; lia).
    exists (nth ((length top - 1) / 2) top 0), (nth (length top / 2) top 0).
    split; [apply nth_error_nth'; auto|]. split; [apply nth_error_nth'; auto|]. reflexivity.
  - apply zmin_In. rewrite E. discriminate.
  - intros x Hx. apply zmin_le; auto.
Qed.

Lemma best_count npix col top mn v : best_pixels npix col top -> In mn top -> (forall x, In x top -> mn <= x) ->
  (v <= mn <-> (npix <= countb (fun x => (v <=? x)%Z) col)%nat).
Proof.
  intros (Hl & rest & Hp & Hge) Hin Hmin. rewrite <- (countb_perm _ _ _ Hp), countb_app. split.
  - intros Hv. rewrite (countb_all _ top); [lia|]. intros x Hx. specialize (Hmin x Hx). lia.
  - intros Hc. destruct (Z.le_gt_cases v mn) as [|Hgt]; auto. exfalso.
    rewrite (countb_none _ rest) in Hc by (intros y Hy; specialize (Hge mn y Hin Hy); lia).
    assert (countb (fun x => (v <=? x)%Z) top < length top)%nat as Hlt; [|lia].
    clear -Hin Hgt. induction top as [|a t IH]; [destruct Hin|]. rewrite countb_cons. simpl length.
    pose proof (countb_le (fun x => (v <=? x)%Z) t). destruct Hin as [->|Hin].
    + replace (v <=? mn) with false by lia. lia.
    + specialize (IH Hin). destruct (v <=? a); lia.
Qed.

Lemma foarea_count nv col : foarea_run nv col =
  match countb (fun x => nv <=? x) col with O => None | n => Some n end.
Proof.
  unfold foarea_run. rewrite <- (countb_perm _ _ _ (zsort_perm col)). unfold countb.
  destruct (filter (fun x => nv <=? x) (zsort col)); reflexivity.
Qed.

Lemma npix_covers asky scale : (0 <= asky)%Q -> (0 < scale)%Q ->
  (asky <= inject_Z (Z.of_nat (npix_asky asky scale)) * scale)%Q /\
  (inject_Z (Z.of_nat (npix_asky asky scale)) * scale < asky + scale)%Q.
Proof.
  intros Ha Hs. unfold npix_asky.
  assert (0 <= asky / scale)%Q as H0 by (apply Qle_shift_div_l; auto; lra).
  pose proof (Qle_ceiling (asky / scale)) as Hc. pose proof (Qceiling_lt (asky / scale)) as Hl.
  assert (0 <= Qceiling (asky / scale)) as Hz.
  { rewrite Zle_Qle. eapply Qle_trans; [|exact Hc]. exact H0. }
  rewrite Z2Nat.id by auto. set (c := Qceiling (asky / scale)) in *.
  assert (asky == (asky / scale) * scale)%Q as E by (field; lra). split.
  - rewrite E at 1. apply Qmult_le_compat_r; lra.
  - replace (c - 1) with (c + (-1)) in Hl by lia. rewrite inject_Z_plus in Hl.
    rewrite E at 1. assert ((asky / scale) * scale + scale == (asky / scale + 1) * scale)%Q as -> by ring.
    apply Qmult_lt_compat_r; auto. change (inject_Z (-1)) with (-1 # 1)%Q in Hl. lra.
Qed.

(** * Counting metrics *)
Lemma np_unique_NoDup l : NoDup (np_unique l).
Proof. apply sorted_lt_NoDup, np_unique_sorted. Qed.
Lemma unique_full l : length (np_unique l) = length l <-> NoDup l.
Proof.
  split.
  - intros H. apply (NoDup_incl_NoDup (np_unique_NoDup l)); [lia|]. intros x. apply np_unique_In.
  - intros H. apply Permutation_length, NoDup_Permutation; auto; [apply np_unique_NoDup|]. intros x. apply np_unique_In.
Qed.
Lemma subset_sum u col : NoDup u -> (forall x, In x col -> In x u) ->
  fold_right Nat.add 0%nat (map (fun x => count_subset_run x col) u) = length col.
Proof.
  intros Hu Hin. induction col as [|a t IH].
  - unfold count_subset_run. simpl. clear. induction u; simpl; auto.
  - simpl length. rewrite <- IH by (intros; apply Hin; right; auto).
    assert (In a u) as Ha by (apply Hin; left; auto). clear -Hu Ha.
    assert (forall v, ~ In a v -> fold_right Nat.add 0%nat (map (fun x => count_subset_run x (a :: t)) v) =
              fold_right Nat.add 0%nat (map (fun x => count_subset_run x t) v)) as Hno.
    { intros v Hv. f_equal. apply map_ext_in. intros x Hx. unfold count_subset_run. simpl.
      destruct (Z.eqb_spec a x); auto. subst. tauto. }
    induction u as [|h u IHu]; [destruct Ha|]. inversion Hu; subst. cbn [map fold_right]. destruct Ha as [->|Ha].
    + rewrite Hno by auto. unfold count_subset_run at 1. simpl. rewrite Z.eqb_refl. simpl. unfold count_subset_run. lia.
    + rewrite (IHu H2 Ha). unfold count_subset_run at 1 3. simpl. destruct (Z.eqb_spec a h); [subst; tauto|]. lia.
Qed.

(** * Angles *)
Lemma last_index_spec P l i j : last_index P l i = Some j -> (i <= j)%nat /\ exists x, nth_error l (j - i) = Some x /\ P x = true.
Proof.
  revert i j; induction l as [|h t IH]; intros i j H; [discriminate|]. simpl in H.
  destruct (last_index P t (S i)) eqn:E.
  - inversion H; subst. destruct (IH _ _ E) as (H1 & x & H2 & H3). split; [lia|]. exists x.
    replace (j - i)%nat with (S (j - S i)) by lia. auto.
  - destruct (P h) eqn:Ep; [|discriminate]. inversion H; subst. split; auto. exists h. rewrite Nat.sub_diag. auto.
Qed.
Lemma last_index_total P l i : (exists x, In x l /\ P x = true) -> exists j, last_index P l i = Some j.
Proof.
  revert i; induction l as [|h t IH]; intros i (x & Hx & Hp); [destruct Hx|]. simpl.
  destruct (last_index P t (S i)) eqn:E; eauto. destruct Hx as [->|Hx]; [rewrite Hp; eauto|].
  destruct (IH (S i)) as (j & Hj); eauto. congruence.
Qed.

Lemma rotate_angles_eq turn angles first : nth_error (zsort angles) 0 = Some first ->
  rotate_angles turn angles =
  let s := zsort angles in
    let last := nth (length s - 1) s 0 in
    let start_to_end := turn - last + first in
    if start_to_end <? - turn then Err ValueError
    else
      let diffangles := diff s ++ [start_to_end] in
      match last_index (fun d => d =? zmax diffangles) diffangles 0 with
      | None => Err ValueError
      | Some maxdiff =>
        let rotation := if (maxdiff =? length angles - 1)%nat then first else nth (S maxdiff) s 0 in
        Ok (rotation, map (fun a => (a - rotation) mod turn) angles)
      end.
Proof. unfold rotate_angles. destruct (zsort angles); [discriminate|]. intros H. inversion H; subst. reflexivity. Qed.

Lemma full_range_value turn angles : 0 < turn -> angles <> [] ->
  (forall x y, In x angles -> In y angles -> x - y < turn) ->
  exists r a, full_range_angle_run turn angles = Ok r /\ In a angles /\ on_arc turn a r angles /\
    exists M, r = turn - M /\ 0 < M /\
      (forall g, In g (diff (zsort angles) ++ [turn - nth (length (zsort angles) - 1) (zsort angles) 0 + nth 0 (zsort angles) 0]) -> g <= M).
Proof.
  intros Ht Hne Hspan. set (s := zsort angles).
  assert (forall x, In x s <-> In x angles) as Hin.
  { intros x. split; intros Hx; [exact (Permutation_in x (zsort_perm angles) Hx)|exact (Permutation_in x (Permutation_sym (zsort_perm angles)) Hx)]. }
  assert (length s = length angles) as Hlen by apply zsort_length.
  assert (StronglySorted Z.le s) as Hst by apply zsort_sorted.
  pose proof (sorted_nondecreasing s Hst) as Hnd.
  assert (0 < length s)%nat as Hpos by (rewrite Hlen; destruct angles; [congruence|simpl; lia]).
  set (n := length s) in *.
  set (first := nth 0 s 0). set (last := nth (n - 1) s 0).
  assert (nth_error s 0 = Some first) as Ef by (apply nth_error_nth'; auto).
  assert (nth_error s (n - 1) = Some last) as El by (apply nth_error_nth'; fold n; lia).
  assert (forall i x, nth_error s i = Some x -> first <= x <= last) as Hfl.
  { intros i x Hx. assert (i < n)%nat by (unfold n; apply nth_error_Some; congruence). split.
    - destruct i; [assert (x = first) by congruence; lia|]. apply (Hnd 0%nat (S i)); auto. lia.
    - destruct (Nat.eq_dec i (n - 1)); [subst; assert (x = last) by congruence; lia|]. apply (Hnd i (n - 1)%nat); auto. lia. }
  assert (last - first < turn) as Hlf by (apply Hspan; apply Hin; eapply nth_error_In; eauto).
  set (se := turn - last + first). set (g := diff s ++ [se]). set (M := zmax g).
  assert (In M g) as HM by (apply zmax_In; unfold g; destruct (diff s); discriminate).
  assert (forall x, In x g -> x <= M) as HMub by (intros; apply zmax_ge; auto).
  assert (In se g) as Hse by (unfold g; apply in_or_app; right; left; auto).
  assert (0 < M) as HMpos by (specialize (HMub se Hse); unfold se in HMub; lia).
  destruct (last_index_total (fun d => d =? M) g 0) as (j & Hj); [exists M; split; auto; lia|].
  destruct (last_index_spec _ _ _ _ Hj) as (_ & x & Hx & Hxm). rewrite Nat.sub_0_r in Hx.
  assert (x = M) as -> by lia.
  assert (length g = n) as Hglen by (unfold g; rewrite app_length, diff_length; simpl; fold n; lia).
  assert (j < n)%nat as Hjn by (rewrite <- Hglen; apply nth_error_Some; congruence).
  set (rot := if (j =? length angles - 1)%nat then first else nth (S j) s 0).
  (* every angle is at most turn - M from the rotation, some is exactly that far, rot is an angle *)
  assert (In rot s /\ (forall x, In x s -> (x - rot) mod turn <= turn - M) /\ exists x, In x s /\ (x - rot) mod turn = turn - M) as (R1 & R2 & R3).
  { unfold rot. rewrite <- Hlen. fold n. destruct (Nat.eqb_spec j (n - 1)) as [Hj1|Hj1].
    - assert (M = se) as EM.
      { unfold g in Hx. rewrite nth_error_app2 in Hx by (rewrite diff_length; fold n; lia). rewrite diff_length in Hx. fold n in Hx.
        replace (j - (n - 1))%nat with 0%nat in Hx by lia. simpl in Hx. congruence. }
      split; [eapply nth_error_In; eauto|]. split.
      + intros y Hy. apply In_nth_error in Hy as (i & Hi). pose proof (Hfl i y Hi). rewrite Z.mod_small by lia. unfold se in EM. lia.
      + exists last. split; [eapply nth_error_In; eauto|]. pose proof (Hfl _ _ El). rewrite Z.mod_small by lia. unfold se in EM. lia.
    - assert (S j < n)%nat as Hsj by lia.
      destruct (nth_error s j) as [a|] eqn:Ea; [|apply nth_error_None in Ea; fold n in Ea; lia].
      destruct (nth_error s (S j)) as [b|] eqn:Eb; [|apply nth_error_None in Eb; fold n in Eb; lia].
      rewrite (nth_error_nth _ _ 0 Eb).
      assert (M = b - a) as EM.
      { unfold g in Hx. rewrite nth_error_app1 in Hx by (rewrite diff_length; fold n; lia).
        rewrite nth_error_diff, Ea, Eb in Hx. congruence. }
      pose proof (Hfl _ _ Ea). pose proof (Hfl _ _ Eb).
      assert (forall y, y < b -> first <= y -> (y - b) mod turn = turn + y - b) as Hmod.
      { intros y H1 H2. symmetry. apply (Zmod_unique (y - b) turn (-1)); lia. }
      split; [eapply nth_error_In; eauto|]. split.
      + intros y Hy. apply In_nth_error in Hy as (i & Hi). pose proof (Hfl i y Hi).
        destruct (Nat.le_gt_cases i j) as [Hij|Hij].
        * assert (y <= a) by (destruct (Nat.eq_dec i j); [subst; assert (y = a) by congruence; lia|]; apply (Hnd i j); auto; lia).
          rewrite Hmod by lia. lia.
        * assert (b <= y) by (destruct (Nat.eq_dec i (S j)); [subst; assert (y = b) by congruence; lia|]; apply (Hnd (S j) i); auto; lia).
          rewrite Z.mod_small by lia. lia.
      + exists a. split; [eapply nth_error_In; eauto|]. rewrite Hmod by lia. lia. }
  exists (turn - M), rot. split; [|split; [apply Hin; auto|split]].
  - unfold full_range_angle_run. rewrite (rotate_angles_eq turn angles first) by exact Ef. cbv zeta. fold s. fold n. fold last. fold se.
    replace (se <? - turn) with false by (unfold se; lia). fold g M. rewrite Hj. fold rot. cbn [bind snd]. f_equal.
    set (W := map (fun a => (a - rot) mod turn) angles).
    assert (W <> []) as HW by (unfold W; destruct angles; [congruence|discriminate]).
    assert (forall w, In w W -> 0 <= w <= turn - M) as HWr.
    { intros w Hw. apply in_map_iff in Hw as (y & <- & Hy). split; [apply Z.mod_pos_bound; auto|apply R2, Hin; auto]. }
    assert (zmax W = turn - M) as ->.
    { destruct R3 as (y & Hy & Ey). assert (In (turn - M) W) as X by (rewrite <- Ey; apply in_map_iff; exists y; split; auto; apply Hin; auto).
      pose proof (zmax_ge _ _ X). pose proof (HWr _ (zmax_In _ HW)). lia. }
    assert (zmin W = 0) as ->; [|lia].
    assert (In 0 W) as X by (apply in_map_iff; exists rot; split; [rewrite Z.sub_diag; apply Z.mod_0_l; lia|apply Hin; auto]).
    pose proof (zmin_le _ _ X). pose proof (HWr _ (zmin_In _ HW)). lia.
  - intros y Hy. apply R2, Hin; auto.
  - exists M. split; auto.
Qed.

Lemma adjacent_change (f : Z -> Z) s a z : nth_error s 0 = Some a -> nth_error s (length s - 1) = Some z -> f a <> f z ->
  exists i x y, nth_error s i = Some x /\ nth_error s (S i) = Some y /\ f x <> f y.
Proof.
  revert a; induction s as [|h t IH]; intros a Ha Hz Hne; [discriminate|].
  simpl in Ha. inversion Ha; subst h. destruct t as [|b t].
  - simpl in Hz. inversion Hz; subst. tauto.
  - destruct (Z.eq_dec (f a) (f b)) as [E|E].
    + destruct (IH b) as (i & x & y & H1 & H2 & H3); auto.
      * rewrite <- Hz. simpl length. replace (S (S (length t)) - 1)%nat with (S (S (length t) - 1)) by lia. reflexivity.
      * congruence.
      * exists (S i), x, y. auto.
    + exists 0%nat, a, b. auto.
Qed.

Lemma full_range_minimal turn angles r a r' : 0 < turn -> angles <> [] ->
  (forall x y, In x angles -> In y angles -> x - y < turn) ->
  full_range_angle_run turn angles = Ok r -> on_arc turn a r' angles -> r <= r'.
Proof.
  intros Ht Hne Hspan Hr Harc.
  destruct (full_range_value turn angles Ht Hne Hspan) as (r0 & a0 & H1 & H2 & H3 & M & H4 & H5 & H6).
  assert (r0 = r) by congruence. subst r0. subst r. set (s := zsort angles) in *.
  assert (forall x, In x s -> (x - a) mod turn <= r') as Harc2.
  { intros x Hx. apply Harc. exact (Permutation_in x (zsort_perm angles) Hx). }
  assert (0 < length s)%nat as Hpos by (unfold s; rewrite zsort_length; destruct angles; [congruence|simpl; lia]).
  assert (nth_error s 0 = Some (nth 0 s 0)) as Ef by (apply nth_error_nth'; auto).
  assert (nth_error s (length s - 1) = Some (nth (length s - 1) s 0)) as El by (apply nth_error_nth'; lia).
  set (first := nth 0 s 0) in *. set (last := nth (length s - 1) s 0) in *.
  assert (forall x, x = a + turn * ((x - a) / turn) + (x - a) mod turn) as Hdm.
  { intros x. pose proof (Z.div_mod (x - a) turn ltac:(lia)). lia. }
  destruct (Z.eq_dec ((first - a) / turn) ((last - a) / turn)) as [E|E].
  - specialize (H6 (turn - last + first)). assert (turn - last + first <= M) by (apply H6; apply in_or_app; right; left; auto).
    pose proof (Hdm first). pose proof (Hdm last). pose proof (Harc2 last (nth_error_In _ _ El)).
    pose proof (Z.mod_pos_bound (first - a) turn Ht). rewrite E in H0. lia.
  - destruct (adjacent_change (fun x => (x - a) / turn) s first last Ef El E) as (i & x & y & Hx & Hy & Hxy).
    assert (y - x <= M) as Hg.
    { apply H6. apply in_or_app. left. apply (nth_error_In _ i). rewrite nth_error_diff, Hx, Hy. auto. }
    assert (x <= y) by (apply (sorted_nondecreasing s (zsort_sorted angles) i (S i)); auto).
    pose proof (Z.div_le_mono (x - a) (y - a) turn Ht ltac:(lia)).
    pose proof (Hdm x) as Dx. pose proof (Hdm y) as Dy. pose proof (Harc2 x (nth_error_In _ _ Hx)).
    pose proof (Z.mod_pos_bound (y - a) turn Ht).
    assert ((x - a) / turn + 1 <= (y - a) / turn) by (cbv beta in Hxy; lia).
    assert (turn * ((x - a) / turn + 1) <= turn * ((y - a) / turn)) by (apply Z.mul_le_mono_nonneg_l; lia). lia.
Qed.

Lemma full_range_rotation turn angles c r r' : 0 < turn -> angles <> [] ->
  (forall x, In x angles -> 0 <= x < turn) ->
  full_range_angle_run turn angles = Ok r ->
  full_range_angle_run turn (map (fun x => (x + c) mod turn) angles) = Ok r' -> r' = r.
Proof.
  intros Ht Hne H01 Hr Hr'. set (rotd := map (fun x => (x + c) mod turn) angles) in *.
  assert (rotd <> []) as Hne' by (unfold rotd; destruct angles; [congruence|discriminate]).
  assert (forall x, In x rotd -> 0 <= x < turn) as H01'.
  { intros x Hx. apply in_map_iff in Hx as (y & <- & _). apply Z.mod_pos_bound; auto. }
  assert (forall l, (forall x, In x l -> 0 <= x < turn) -> forall x y, In x l -> In y l -> x - y < turn) as Hsp.
  { intros l Hl x y Hx Hy. pose proof (Hl x Hx). pose proof (Hl y Hy). lia. }
  destruct (full_range_value turn angles Ht Hne (Hsp _ H01)) as (r0 & a & E0 & _ & Ha & _).
  destruct (full_range_value turn rotd Ht Hne' (Hsp _ H01')) as (r1 & a' & E1 & _ & Ha' & _).
  assert (r0 = r) by congruence. assert (r1 = r') by congruence. subst.
  apply Z.le_antisymm.
  - apply (full_range_minimal turn rotd r' (a + c) r Ht Hne' (Hsp _ H01') Hr').
    intros x Hx. apply in_map_iff in Hx as (y & <- & Hy). specialize (Ha y Hy).
    rewrite Zminus_mod_idemp_l. replace (y + c - (a + c)) with (y - a) by lia. auto.
  - apply (full_range_minimal turn angles r (a' - c) r' Ht Hne (Hsp _ H01) Hr).
    intros x Hx. assert (In ((x + c) mod turn) rotd) as Hin by (apply in_map_iff; eauto). specialize (Ha' _ Hin).
    rewrite Zminus_mod_idemp_l in Ha'. replace (x - (a' - c)) with (x + c - a') by lia. auto.
Qed.
