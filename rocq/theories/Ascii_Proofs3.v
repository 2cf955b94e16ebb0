(** The limit of time on the bands, for epochs in order. *)
From Coq Require Import Reals.
From Verif Require Import Base Technical_Model Technical_Proofs Technical_Proofs3 Transient_Proofs Ascii_Model Plane_Spec Plane_Props Micro_Proofs Ascii_Spec Ascii_Proofs Ascii_Proofs2.
From Coq Require Import Lia Permutation Sorted.
Open Scope Z_scope.

Lemma in_slice {A} (l : list A) i j x : In x (slice i j l) <-> exists k, (i <= k < j)%nat /\ nth_error l k = Some x.
Proof.
  unfold slice. revert i j. induction l as [|y t IH]; intros i j.
  - rewrite skipn_nil, firstn_nil. split; [intros [] | intros (k & _ & E); destruct k; discriminate].
  - destruct i as [|i].
    + cbn [skipn]. destruct j as [|j]; [split; [intros [] | intros (k & H & _); lia]|]. rewrite Nat.sub_0_r. cbn [firstn In]. specialize (IH 0%nat j). rewrite Nat.sub_0_r in IH. cbn [skipn] in IH. rewrite IH. split.
      * intros [->|(k & Hk & E)]; [exists 0%nat; split; [lia | reflexivity] | exists (S k); split; [lia | exact E]].
      * intros ([|k] & Hk & E); [left; now injection E | right; exists k; split; [lia | exact E]].
    + cbn [skipn]. destruct j as [|j]; [split; [intros [] | intros (k & H & _); lia]|]. rewrite Nat.sub_succ. rewrite IH. split.
      * intros (k & Hk & E). exists (S k). split; [lia | exact E].
      * intros ([|k] & Hk & E); [lia | exists k; split; [lia | exact E]].
Qed.
Lemma sorted_nth {A} (R : A -> A -> Prop) l : StronglySorted R l -> forall i j x y, (i < j)%nat -> nth_error l i = Some x -> nth_error l j = Some y -> R x y.
Proof.
  induction 1 as [|a t H IH HF]; intros i j x y Hij Ei Ej; [destruct i; discriminate|]. destruct j as [|j]; [lia|]. destruct i as [|i].
  - injection Ei as <-. rewrite Forall_forall in HF. apply HF. cbn in Ej. apply (nth_error_In _ _ Ej).
  - apply (IH i j); [lia | exact Ei | exact Ej].
Qed.
(** the elements before the place found are those that are small *)
Lemma right_place l : StronglySorted Z.le l -> forall key k y, nth_error l k = Some y -> ((k < right_of l key)%nat <-> y <= key).
Proof.
  unfold right_of. induction 1 as [|a t H IH HF]; intros key k y E; [destruct k; discriminate|]. rewrite Forall_forall in HF. cbn [filter]. destruct (a <=? key) eqn:Ea.
  - apply Z.leb_le in Ea. cbn [length]. destruct k as [|k]; [injection E as <-; split; [intros _; exact Ea | lia]|]. rewrite <- (IH key k y E). lia.
  - apply Z.leb_gt in Ea. assert (filter (fun y => y <=? key) t = []) as E0.
    { destruct (filter (fun y => y <=? key) t) as [|z r] eqn:Ef; [reflexivity|]. assert (In z (z :: r)) as Hz by now left. rewrite <- Ef in Hz. apply filter_In in Hz. destruct Hz as [Hz Hl]. apply Z.leb_le in Hl. specialize (HF z Hz). lia. }
    rewrite E0. cbn [length]. split; [lia|]. intros Hy. exfalso. destruct k as [|k]; [injection E as <-; lia|]. cbn in E. apply nth_error_In in E. specialize (HF y E). lia.
Qed.
Lemma left_place l : StronglySorted Z.le l -> forall key k y, nth_error l k = Some y -> ((k < left_of l key)%nat <-> y < key).
Proof.
  intros H key k y E. pose proof (right_place l H (key - 1) k y E) as R. assert (left_of l key = right_of l (key - 1)) as ->; [|rewrite R; lia].
  unfold left_of, right_of. f_equal. apply filter_ext. intros z. destruct (z <? key) eqn:E1; symmetry; [apply Z.leb_le; apply Z.ltb_lt in E1; lia | apply Z.leb_gt; apply Z.ltb_ge in E1; lia].
Qed.
Lemma search_map search a keys : Search search -> StronglySorted Z.le a -> search a keys = map (right_of a) keys.
Proof.
  intros HS Ha. specialize (HS a keys Ha). induction HS as [|k n ks ns H HS IH]; [reflexivity|]. cbn. f_equal; [|exact IH].
  apply (countP_unique _ _ _ _ H). apply countP_filter. intros y. apply Z.leb_le.
Qed.

(** [d] are the detections in order, [e] their epochs *)
Lemma in_time_spec search c d (e : avisit -> Z) ft : Search search -> filter_time c = Some ft -> 1 < num_filters c -> StronglySorted (fun a b => e a <= e b) d ->
  (in_time_ok search c (map e d) (map aband d) = true <->
   exists j v0, nth_error d j = Some v0 /\ Bands (fun v => exists k, nth_error d k = Some v /\ (j <= k)%nat /\ (S k < length d)%nat /\ e v <= e v0 + ft) d (num_filters c)).
Proof.
  intros HS Hf Hn Hs. unfold in_time_ok. rewrite Hf. replace (1 <? num_filters c) with true by (symmetry; apply Z.ltb_lt; exact Hn).
  assert (StronglySorted Z.le (map e d)) as HsE.
  { clear -Hs. induction Hs as [|x t H IH HF]; cbn; constructor; [exact IH|]. rewrite Forall_forall in HF. apply Forall_forall. intros y Hy. apply in_map_iff in Hy. destruct Hy as (z & <- & Hz). apply HF, Hz. }
  rewrite (search_map _ _ _ HS HsE). rewrite !map_map, !map_length. cbv zeta. set (h := fun x : avisit => _). rewrite existsb_exists.
  assert (forall j v0 b, nth_error d j = Some v0 -> (In b (slice j (h v0) (map aband d)) <-> exists v, In v d /\ (exists k, nth_error d k = Some v /\ (j <= k)%nat /\ (S k < length d)%nat /\ e v <= e v0 + ft) /\ aband v = b)) as HB.
  { intros j v0 b Ej. rewrite in_slice.
    assert (forall k v, nth_error d k = Some v -> ((k < h v0)%nat <-> (S k < length d)%nat /\ e v <= e v0 + ft)) as Hk.
    { intros k v Ek. pose proof (right_place _ HsE (e v0 + ft) k (e v) (map_nth_error e _ _ Ek)) as R. assert (k < length d)%nat as Bk by (apply nth_error_Some; congruence). unfold h. destruct (Z.of_nat (right_of (map e d) (e v0 + ft)) <? Z.of_nat (length d) - 1) eqn:Q; [apply Z.ltb_lt in Q | apply Z.ltb_ge in Q].
      - rewrite R. split; [intros Hy; split; [apply R in Hy; lia | exact Hy] | tauto].
      - split; [intros Hy; split; [lia | apply R; lia] | intros [Hy _]; lia]. }
    split.
    - intros (k & Bk & Ek). rewrite nth_error_map in Ek. destruct (nth_error d k) as [v|] eqn:Ev; [|discriminate]. injection Ek as <-. exists v. split; [apply (nth_error_In _ _ Ev)|]. split; [|reflexivity]. exists k. split; [exact Ev|]. split; [lia|]. apply Hk; [exact Ev | lia].
    - intros (v & _ & (k & Ek & Hj & Hr) & <-). exists k. split; [split; [exact Hj | apply (Hk k v Ek); exact Hr] | apply map_nth_error; exact Ek]. }
  assert (forall j v0 P, nth_error d j = Some v0 -> P = (fun v => exists k, nth_error d k = Some v /\ (j <= k)%nat /\ (S k < length d)%nat /\ e v <= e v0 + ft) -> (num_filters c <= distinct (slice j (h v0) (map aband d)) <-> Bands P d (num_filters c))) as HD.
  { intros j v0 P Ej ->. specialize (HB j v0). unfold distinct, Bands. set (B := nodup string_dec (slice j (h v0) (map aband d))). assert (NoDup B) as ND by apply NoDup_nodup.
    assert (forall b, In b B <-> In b (slice j (h v0) (map aband d))) as HI by (intros b; apply nodup_In). split.
    - intros H. exists (firstn (Z.to_nat (num_filters c)) B). split; [|split].
      + rewrite <- (firstn_skipn (Z.to_nat (num_filters c)) B) in ND. clear -ND. induction (firstn (Z.to_nat (num_filters c)) B) as [|x t IH]; [constructor|]. cbn in ND. inversion ND as [|? ? Hx Ht]; subst. constructor; [intros Hi; apply Hx, in_or_app; left; exact Hi | apply IH; exact Ht].
      + rewrite firstn_length. lia.
      + intros b Hb. apply HB; [exact Ej|]. apply HI. rewrite <- (firstn_skipn (Z.to_nat (num_filters c)) B). apply in_or_app. now left.
    - intros (bands & H1 & <- & H3). apply inj_le. apply NoDup_incl_length; [exact H1|]. intros b Hb. apply HI, (HB b Ej), H3, Hb. }
  assert (forall (D : list avisit) s j n, In (j, n) (combine (seq s (length D)) (map h D)) <-> exists v0, (s <= j)%nat /\ nth_error D (j - s) = Some v0 /\ n = h v0) as HC.
  { induction D as [|x t IH]; intros s j n; cbn [length seq map combine In]; [split; [intros [] | intros (v0 & _ & E & _); destruct (j - s)%nat; discriminate]|]. rewrite IH. split.
    - intros [E|(v0 & Hs' & E & En)]; [injection E as <- <-; exists x; split; [lia|]; rewrite Nat.sub_diag; split; reflexivity|]. exists v0. split; [lia|]. split; [|exact En]. replace (j - s)%nat with (S (j - S s)) by lia. exact E.
    - intros (v0 & Hs' & E & En). destruct (Nat.eq_dec j s) as [->|N]; [left; rewrite Nat.sub_diag in E; injection E as <-; rewrite En; reflexivity|]. right. exists v0. split; [lia|]. split; [|exact En]. replace (j - s)%nat with (S (j - S s)) in E by lia. exact E. }
  split.
  - intros ((j, n) & Hin & Hle). apply HC in Hin. destruct Hin as (v0 & _ & Ej & ->). rewrite Nat.sub_0_r in Ej. cbn [fst snd] in Hle. apply Z.leb_le in Hle. exists j, v0. split; [exact Ej|]. apply (HD j v0 _ Ej eq_refl). exact Hle.
  - intros (j & v0 & Ej & HBn). exists (j, h v0). split; [apply HC; exists v0; split; [lia|]; rewrite Nat.sub_0_r; split; [exact Ej | reflexivity]|]. cbn [fst snd]. apply Z.leb_le. apply (HD j v0 _ Ej eq_refl). exact HBn.
Qed.
