(** Lemmas about the moving object metrics: sorted lists, and the discovery metric on observations in time order. *)
From Verif Require Import Base Technical_Model Technical_Spec Technical_Proofs Technical_Proofs3 MoObs_Model MoObs_Spec.
From Coq Require Import Lia Permutation Sorted.
Open Scope Z_scope.

(** * Lists *)
Lemma sorted_map {A} (f : A -> Z) (R : Z -> Z -> Prop) l : StronglySorted (fun a b => R (f a) (f b)) l -> StronglySorted R (map f l).
Proof. induction 1 as [|a l Hs IH Hf]; cbn; constructor; [exact IH|]. apply Forall_map. exact Hf. Qed.
Lemma sorted_filter {A} (R : A -> A -> Prop) (q : A -> bool) l : StronglySorted R l -> StronglySorted R (filter q l).
Proof.
  induction 1 as [|a l Hs IH Hf]; cbn; [constructor|]. destruct (q a); [constructor|exact IH]; [exact IH|].
  apply Forall_forall. intros x Hx. apply filter_In in Hx. rewrite Forall_forall in Hf. apply Hf, Hx.
Qed.
Lemma filter_none {A} (q : A -> bool) l : (forall x, In x l -> q x = false) -> filter q l = [].
Proof. induction l as [|a l IH]; intros H; cbn; [reflexivity|]. rewrite (H a (or_introl eq_refl)). apply IH. intros x Hx. apply H. right. exact Hx. Qed.
Lemma filter_all {A} (q : A -> bool) l : (forall x, In x l -> q x = true) -> filter q l = l.
Proof. induction l as [|a l IH]; intros H; cbn; [reflexivity|]. rewrite (H a (or_introl eq_refl)). f_equal. apply IH. intros x Hx. apply H. right. exact Hx. Qed.
Lemma filter_ext_in' {A} (q r : A -> bool) l : (forall x, In x l -> q x = r x) -> filter q l = filter r l.
Proof. induction l as [|a l IH]; intros H; cbn; [reflexivity|]. rewrite (H a (or_introl eq_refl)), IH; [reflexivity|]. intros x Hx. apply H. right. exact Hx. Qed.
Lemma split_le {A} (f : A -> Z) g l : StronglySorted (fun a b => f a <= f b) l ->
  l = filter (fun x => f x <? g) l ++ filter (fun x => g <=? f x) l.
Proof.
  induction 1 as [|a l Hs IH Hf]; [reflexivity|]. cbn [filter]. destruct (Z.ltb_spec (f a) g) as [Hlt|Hge].
  - rewrite (proj2 (Z.leb_gt g (f a)) Hlt). cbn. f_equal. exact IH.
  - rewrite (proj2 (Z.leb_le g (f a)) Hge). rewrite Forall_forall in Hf.
    rewrite (filter_none (fun x => f x <? g) l), (filter_all (fun x => g <=? f x) l); [reflexivity| |]; intros x Hx; specialize (Hf x Hx); [apply Z.leb_le|apply Z.ltb_ge]; lia.
Qed.
Lemma split3 {A} (f : A -> Z) g l : StronglySorted (fun a b => f a <= f b) l ->
  l = filter (fun x => f x <? g) l ++ filter (fun x => f x =? g) l ++ filter (fun x => g <? f x) l.
Proof.
  intros Hs. rewrite (split_le f g l Hs) at 1. f_equal. rewrite (split_le f (g + 1) (filter (fun x => g <=? f x) l) (sorted_filter _ _ l Hs)). f_equal.
  - induction l as [|a l IH]; [reflexivity|]. inversion Hs; subst. cbn [filter]. destruct (Z.leb_spec g (f a)); cbn [filter]; [|destruct (Z.eqb_spec (f a) g); [lia|]; auto].
    destruct (Z.ltb_spec (f a) (g + 1)), (Z.eqb_spec (f a) g); try lia; [f_equal|]; auto.
  - induction l as [|a l IH]; [reflexivity|]. inversion Hs; subst. cbn [filter]. destruct (Z.leb_spec g (f a)); cbn [filter]; [|destruct (Z.ltb_spec g (f a)); [lia|]; auto].
    destruct (Z.leb_spec (g + 1) (f a)), (Z.ltb_spec g (f a)); try lia; [f_equal|]; auto.
Qed.
Lemma filter_map_z {A} (f : A -> Z) (q : Z -> bool) l : filter q (map f l) = map f (filter (fun x => q (f x)) l).
Proof. induction l as [|a l IH]; cbn; [reflexivity|]. destruct (q (f a)); cbn; rewrite IH; reflexivity. Qed.
Lemma ss_left_map {A} (f : A -> Z) l g : ss_left (map f l) g = length (filter (fun x => f x <? g) l).
Proof. unfold ss_left. rewrite filter_map_z, map_length. reflexivity. Qed.
Lemma le_split_length {A} (f : A -> Z) l g :
  length (filter (fun x => f x <=? g) l) = (length (filter (fun x => (f x <? g)%Z) l) + length (filter (fun x => (f x =? g)%Z) l))%nat.
Proof.
  induction l as [|a l IH]; [reflexivity|]. cbn [filter]. destruct (Z.leb_spec (f a) g), (Z.ltb_spec (f a) g), (Z.eqb_spec (f a) g); try lia; cbn [length]; rewrite IH; lia.
Qed.
Lemma ss_right_map {A} (f : A -> Z) l g : ss_right (map f l) g = (length (filter (fun x => (f x <? g)%Z) l) + length (filter (fun x => (f x =? g)%Z) l))%nat.
Proof. unfold ss_right. rewrite filter_map_z, map_length. apply le_split_length. Qed.
Lemma map_nth_seq {A} (d : A) l : map (fun i => nth i l d) (seq 0 (length l)) = l.
Proof.
  induction l as [|a l IH]; [reflexivity|]. cbn [length seq map nth]. f_equal. rewrite <- seq_shift, map_map. exact IH.
Qed.
Lemma filter_seq {A} (d : A) (q : A -> bool) l : map (fun i => nth i l d) (filter (fun i => q (nth i l d)) (seq 0 (length l))) = filter q l.
Proof.
  enough (forall ix, map (fun i => nth i l d) (filter (fun i => q (nth i l d)) ix) = filter q (map (fun i => nth i l d) ix)) as E.
  { rewrite E, map_nth_seq. reflexivity. }
  induction ix as [|i ix IH]; [reflexivity|]. cbn. destruct (q (nth i l d)); cbn; rewrite IH; reflexivity.
Qed.
(** * argsort of an increasing list *)
Lemma nth_sorted (R : Z -> Z -> Prop) l i j : StronglySorted R l -> (i < j < length l)%nat -> R (nth i l 0) (nth j l 0).
Proof.
  intros Hs. revert i j. induction Hs as [|a l Hs IH Hf]; intros i j Hij; [cbn in Hij; lia|]. destruct j; [lia|]. destruct i; cbn in *.
  - rewrite Forall_forall in Hf. apply Hf, nth_In. lia.
  - apply IH. lia.
Qed.
Lemma argsort_sorted keys : StronglySorted Z.le keys -> argsort keys = seq 0 (length keys).
Proof.
  intros Hs. unfold argsort. enough (forall n s, (s + n <= length keys)%nat -> fold_right (insert_key keys) [] (seq s n) = seq s n) as H by (apply H; lia).
  induction n as [|n IH]; intros s Hn; [reflexivity|]. cbn [seq fold_right]. rewrite IH by lia. destruct n as [|n]; [reflexivity|]. cbn [seq insert_key].
  rewrite (proj2 (Z.leb_le _ _)); [reflexivity|]. apply (nth_sorted Z.le); [exact Hs|lia].
Qed.
Lemma take_z_seq l n : n = length l -> take_z l (seq 0 n) = l.
Proof. intros ->. apply (map_nth_seq 0). Qed.
Lemma take_n_seq n ix : (forall i, In i ix -> (i < n)%nat) -> take_n (seq 0 n) ix = ix.
Proof. intros H. unfold take_n. rewrite <- (map_id ix) at 2. apply map_ext_in. intros i Hi. rewrite seq_nth; [reflexivity|]. apply H, Hi. Qed.

(** * Observations per night *)
Lemma roll1_tail a l : tl (zsub (a :: l) (roll 1 (a :: l))) = diff_z (a :: l).
Proof.
  assert (roll 1 (a :: l) = last (a :: l) 0 :: removelast (a :: l)) as E.
  { set (L := a :: l). assert (L <> []) as HL by discriminate. pose proof (app_removelast_last 0 HL) as EL. set (n := length (removelast L)).
    assert (length L = S n) as En. { rewrite EL, app_length. cbn [length]. fold n. lia. }
    assert (forall k, nth k L 0 = nth k (removelast L ++ [last L 0]) 0) as Hn by (intros k; rewrite <- EL; reflexivity).
    unfold roll. rewrite En. cbn [seq map]. f_equal.
    - replace ((Z.of_nat 0 - 1) mod Z.of_nat (S n)) with (Z.of_nat n) by (apply (Z.mod_unique _ _ (-1)); lia).
      rewrite Nat2Z.id, Hn. rewrite app_nth2 by (fold n; lia). fold n. rewrite Nat.sub_diag. reflexivity.
    - rewrite <- seq_shift, map_map. rewrite <- (map_nth_seq 0 (removelast L)). fold n. apply map_ext_in. intros i Hi. apply in_seq in Hi.
      replace (Z.of_nat (S i) - 1) with (Z.of_nat i) by lia. rewrite Z.mod_small by lia. rewrite Nat2Z.id, Hn. rewrite app_nth1; [reflexivity|]. fold n. lia. }
  rewrite E. unfold zsub. cbn [combine map tl].
  clear E. revert a. induction l as [|b l IH]; intros a; [reflexivity|]. cbn [removelast combine map diff_z fst snd] in *. f_equal. apply (IH b).
Qed.
Definition on_night (nights : list Z) (g : Z) : Z := Z.of_nat (length (filter (fun x => x =? g) nights)).
Lemma ss_next nights g h : (forall x, In x nights -> (x < h <-> x <= g)) -> Z.of_nat (ss_left nights h) - Z.of_nat (ss_left nights g) = on_night nights g.
Proof.
  intros H. unfold ss_left, on_night. pose proof (le_split_length (fun x => x) nights g) as E. cbn beta in E.
  assert (filter (fun y => y <? h) nights = filter (fun x => x <=? g) nights) as Ef.
  { apply filter_ext_in'. intros x Hx. specialize (H x Hx). destruct (Z.ltb_spec x h), (Z.leb_spec x g); try reflexivity; lia. }
  rewrite Ef, E. lia.
Qed.
Lemma per_night nights u : StronglySorted Z.lt u -> u <> [] -> (forall x, In x nights -> hd 0 u <= x -> In x u) ->
  let n_idx := map (fun g => Z.of_nat (ss_left nights g)) u in
  diff_z n_idx ++ [Z.of_nat (length nights) - last n_idx 0] = map (on_night nights) u.
Proof.
  intros Hs. induction Hs as [|g u Hs IH Hf]; intros Hne Hin; [contradiction|]. destruct u as [|h t].
  - cbn [map diff_z last app]. f_equal. unfold on_night, ss_left. pose proof (le_split_length (fun x => x) nights g) as E. cbn beta in E.
    assert (filter (fun x => x <=? g) nights = nights) as Ef.
    { apply filter_all. intros x Hx. apply Z.leb_le. destruct (Z_le_gt_dec x g); [assumption|]. destruct (Hin x Hx) as [<-|[]]; cbn; lia. }
    rewrite Ef in E. lia.
  - specialize (IH ltac:(discriminate)). cbn [map diff_z app] in *. rewrite Forall_forall in Hf. pose proof (Hf h (or_introl eq_refl)) as Hgh. f_equal.
    + apply ss_next. intros x Hx. split; [|lia]. intros Hxh. destruct (Z_le_gt_dec x g); [assumption|]. destruct (Hin x Hx) as [<-|[<-|Ht]]; [cbn; lia|lia|lia|].
      inversion Hs as [|? ? Ht1 Hf2]; subst. rewrite Forall_forall in Hf2. specialize (Hf2 x Ht). lia.
    + apply IH. intros x Hx Hhx. cbn [hd] in Hhx. destruct (Hin x Hx) as [<-|Ht]; [cbn; lia|lia|exact Ht].
Qed.
Lemma obs_per_night_spec nights : nights <> [] -> obs_per_night nights = map (on_night nights) (unique_z nights).
Proof.
  intros Hne. unfold obs_per_night. assert (unique_z nights <> []) as Hu.
  { destruct nights as [|a l]; [contradiction|]. intros E. pose proof (proj2 (unique_z_in (a :: l) a) (or_introl eq_refl)) as Hi. rewrite E in Hi. exact Hi. }
  rewrite <- (per_night nights (unique_z nights) (unique_z_sorted nights) Hu).
  - cbv zeta. f_equal. destruct (unique_z nights) as [|g u]; [contradiction|]. apply roll1_tail.
  - intros x Hx _. apply (proj2 (unique_z_in nights x)), Hx.
Qed.
Lemma filter_combine_map {A B} (f : A -> B) (q : B -> bool) l : map fst (filter (fun p => q (snd p)) (combine l (map f l))) = filter (fun x => q (f x)) l.
Proof. induction l as [|a l IH]; [reflexivity|]. cbn. destruct (q (f a)); cbn; rewrite IH; reflexivity. Qed.
Lemma nights_with_spec k nights : nights_with k nights = filter (fun g => k <=? on_night nights g) (unique_z nights).
Proof.
  unfold nights_with. destruct nights as [|a l]; [reflexivity|]. rewrite obs_per_night_spec by discriminate.
  apply (filter_combine_map (on_night (a :: l)) (fun c => k <=? c)).
Qed.
Lemma nights_with_in k nights g : 1 <= k -> (In g (nights_with k nights) <-> k <= on_night nights g).
Proof.
  intros Hk. rewrite nights_with_spec, filter_In, Z.leb_le. split; [tauto|]. intros H. split; [|exact H]. apply (proj2 (unique_z_in nights g)).
  unfold on_night in H. destruct (filter (fun x => x =? g) nights) as [|x t] eqn:E; [cbn in H; lia|]. assert (In x (filter (fun x => x =? g) nights)) as Hx by (rewrite E; left; reflexivity).
  apply filter_In in Hx. destruct Hx as [Hx Hq]. apply Z.eqb_eq in Hq. subst. exact Hx.
Qed.
Lemma nights_with_sorted k nights : StronglySorted Z.lt (nights_with k nights).
Proof. rewrite nights_with_spec. apply sorted_filter, unique_z_sorted. Qed.

(** * The second look at a night *)
Lemma zsub_nth a b i : (i < length a)%nat -> (i < length b)%nat -> nth i (zsub a b) 0 = nth i a 0 - nth i b 0.
Proof.
  revert b i. induction a as [|x a IH]; intros b i Ha Hb; [cbn in Ha; lia|]. destruct b as [|y b]; [cbn in Hb; lia|]. destruct i; [reflexivity|]. cbn in *. apply IH; lia.
Qed.
Lemma roll_length s l : length (roll s l) = length l.
Proof. unfold roll. rewrite map_length, seq_length. reflexivity. Qed.
Lemma zsub_length a b : length (zsub a b) = Nat.min (length a) (length b).
Proof. unfold zsub. rewrite map_length, combine_length. reflexivity. Qed.
Lemma roll_nth s l i : (i < length l)%nat -> nth i (roll s l) 0 = nth (Z.to_nat ((Z.of_nat i - s) mod Z.of_nat (length l))) l 0.
Proof.
  intros Hi. unfold roll. set (f := fun k => nth (Z.to_nat ((Z.of_nat k - s) mod Z.of_nat (length l))) l 0).
  rewrite (nth_indep _ 0 (f 0%nat)) by (rewrite map_length, seq_length; exact Hi). rewrite map_nth, seq_nth by exact Hi. reflexivity.
Qed.
Lemma delta_nth k l i : (i < length l)%nat -> nth i (zsub (roll (1 - k) l) l) 0 = nth (Z.to_nat ((Z.of_nat i + k - 1) mod Z.of_nat (length l))) l 0 - nth i l 0.
Proof. intros Hi. rewrite zsub_nth; [|rewrite roll_length; exact Hi|exact Hi]. rewrite roll_nth by exact Hi. do 3 f_equal. f_equal. lia. Qed.
(** a difference that wraps around is negative *)
Lemma delta_cases k l i : StronglySorted Z.lt l -> (i < length l)%nat -> 1 <= k <= Z.of_nat (length l) ->
  let d := nth i (zsub (roll (1 - k) l) l) 0 in
  ((i + Z.to_nat k - 1 < length l)%nat /\ d = nth (i + Z.to_nat k - 1) l 0 - nth i l 0) \/ ((length l <= i + Z.to_nat k - 1)%nat /\ d < 0).
Proof.
  intros Hs Hi Hk d. unfold d. rewrite delta_nth by exact Hi. destruct (lt_dec (i + Z.to_nat k - 1) (length l)) as [Hlt|Hge]; [left|right]; split; try lia.
  - rewrite Z.mod_small by lia. do 3 f_equal. lia.
  - replace ((Z.of_nat i + k - 1) mod Z.of_nat (length l)) with (Z.of_nat i + k - 1 - Z.of_nat (length l)) by (apply (Z.mod_unique _ _ 1); lia).
    pose proof (nth_sorted Z.lt l (Z.to_nat (Z.of_nat i + k - 1 - Z.of_nat (length l))) i Hs ltac:(lia)). lia.
Qed.
Lemma nth_removelast {A} (d : A) l i : (S i < length l)%nat -> nth i (removelast l) d = nth i l d.
Proof.
  revert i. induction l as [|a l IH]; intros i Hi; [cbn in Hi; lia|]. destruct l as [|b l]; [cbn in Hi; lia|]. destruct i; [reflexivity|]. cbn [removelast nth]. cbn [removelast nth] in IH. apply IH. cbn in *. lia.
Qed.
Lemma length_removelast {A} (l : list A) : length (removelast l) = (length l - 1)%nat.
Proof. induction l as [|a l IH]; [reflexivity|]. destruct l as [|b l]; [reflexivity|]. cbn [removelast length] in *. lia. Qed.
Lemma existsb_nth (q : Z -> bool) l : existsb q l = true <-> exists i, (i < length l)%nat /\ q (nth i l 0) = true.
Proof.
  rewrite existsb_exists. split.
  - intros (x & Hx & Hq). apply (In_nth _ _ 0) in Hx. destruct Hx as (i & Hi & <-). exists i. split; assumption.
  - intros (i & Hi & Hq). exists (nth i l 0). split; [apply nth_In|]; assumption.
Qed.
Lemma nth_error_nth0 (l : list Z) i : (i < length l)%nat -> nth_error l i = Some (nth i l 0).
Proof. intros Hi. apply nth_error_nth'. exact Hi. Qed.
Lemma span_segment l i k : (1 <= k)%nat -> (i + k <= length l)%nat -> span (firstn k (skipn i l)) (nth (i + k - 1) l 0 - nth i l 0).
Proof.
  intros Hk Hi. assert (length (firstn k (skipn i l)) = k) as El by (rewrite firstn_length, skipn_length; lia).
  assert (forall m, (m < k)%nat -> nth_error (firstn k (skipn i l)) m = Some (nth (i + m) l 0)) as Hn.
  { intros m Hm. rewrite <- (nth_error_nth0 l (i + m)) by lia. rewrite <- (firstn_skipn i l) at 2. rewrite nth_error_app2; rewrite firstn_length; [|lia].
    replace (i + m - Nat.min i (length l))%nat with m by lia. set (s := skipn i l). rewrite <- (firstn_skipn k s) at 2. rewrite nth_error_app1; [reflexivity|]. subst s. lia. }
  exists (nth i l 0), (nth (i + k - 1) l 0). rewrite El. repeat split.
  - rewrite Hn by lia. rewrite Nat.add_0_r. reflexivity.
  - rewrite Hn by lia. do 2 f_equal. lia.
Qed.
Lemma span_fun l d d' : span l d -> span l d' -> d = d'.
Proof. intros (a & b & H1 & H2 & ->) (a' & b' & H3 & H4 & ->). congruence. Qed.
Lemma look_again_spec p ts : StronglySorted Z.lt ts -> 1 <= n_obs_night p < Z.of_nat (length ts) -> 0 <= t_min p ->
  (existsb (in_span p) (removelast (zsub (roll (1 - n_obs_night p) ts) ts)) = true <->
   exists pre seg post d, ts = pre ++ seg ++ post /\ Z.of_nat (length seg) = n_obs_night p /\ span seg d /\ t_min p <= d <= t_max p).
Proof.
  intros Hs Hk Hm. set (k := n_obs_night p) in *. rewrite existsb_nth, length_removelast, zsub_length, roll_length, Nat.min_id. split.
  - intros (i & Hi & Hq). rewrite nth_removelast in Hq by (rewrite zsub_length, roll_length, Nat.min_id; lia).
    unfold in_span in Hq. apply andb_true_iff in Hq. destruct Hq as [Hq1 Hq2]. apply Z.leb_le in Hq1, Hq2.
    destruct (delta_cases k ts i Hs ltac:(lia) ltac:(lia)) as [[Hlt E]|[_ E]]; [|lia].
    exists (firstn i ts), (firstn (Z.to_nat k) (skipn i ts)), (skipn (Z.to_nat k) (skipn i ts)), (nth i (zsub (roll (1 - k) ts) ts) 0). split; [|split; [|split]].
    + rewrite firstn_skipn, firstn_skipn. reflexivity.
    + rewrite firstn_length, skipn_length. lia.
    + rewrite E. replace (i + Z.to_nat k - 1)%nat with (i + Z.to_nat k - 1)%nat by reflexivity. apply span_segment; lia.
    + lia.
  - intros (pre & seg & post & d & E & El & Hd & Hr). destruct (Nat.eq_dec (length pre) (length ts - 1)) as [Eq|Hne].
    + (* the segment is the last element, so one observation is enough and any element will do *)
      assert (length ts = length pre + length seg + length post)%nat as Elen by (rewrite E, !app_length; lia).
      assert (k = 1) as E1 by lia. exists 0%nat. split; [lia|]. rewrite nth_removelast by (rewrite zsub_length, roll_length, Nat.min_id; lia).
      destruct (delta_cases k ts 0 Hs ltac:(lia) ltac:(lia)) as [[Hlt Ed]|[Hge _]]; [|lia]. rewrite Ed. replace (0 + Z.to_nat k - 1)%nat with 0%nat by lia. rewrite Z.sub_diag.
      assert (d = 0) as E0. { destruct Hd as (a & b & Ha & Hb & ->). replace (length seg - 1)%nat with 0%nat in Hb by lia. assert (a = b) by congruence. lia. }
      unfold in_span. rewrite andb_true_iff, !Z.leb_le. lia.
    + assert (length ts = length pre + length seg + length post)%nat as Elen by (rewrite E, !app_length; lia).
      exists (length pre). split; [lia|]. rewrite nth_removelast by (rewrite zsub_length, roll_length, Nat.min_id; lia).
      destruct (delta_cases k ts (length pre) Hs ltac:(lia) ltac:(lia)) as [[Hlt Ed]|[Hge _]]; [|lia]. rewrite Ed.
      assert (d = nth (length pre + Z.to_nat k - 1) ts 0 - nth (length pre) ts 0) as ->.
      { apply (span_fun seg); [exact Hd|]. replace seg with (firstn (Z.to_nat k) (skipn (length pre) ts)); [apply span_segment; lia|].
        rewrite E, skipn_app, skipn_all, Nat.sub_diag. cbn [skipn app]. replace (Z.to_nat k) with (length seg) by lia. rewrite firstn_app, Nat.sub_diag, firstn_all. cbn. apply app_nil_r. }
      unfold in_span. rewrite andb_true_iff, !Z.leb_le. exact Hr.
Qed.
Lemma span_all l : l <> [] -> span l (nth (length l - 1) l 0 - nth 0 l 0).
Proof. intros Hne. destruct l as [|a l]; [contradiction|]. exists a, (nth (length (a :: l) - 1) (a :: l) 0). repeat split. apply nth_error_nth0. cbn. lia. Qed.
Lemma nth_le_sorted l i j : StronglySorted Z.lt l -> (i <= j < length l)%nat -> nth i l 0 <= nth j l 0.
Proof. intros Hs Hij. destruct (Nat.eq_dec i j) as [->|Hne]; [lia|]. pose proof (nth_sorted Z.lt l i j Hs ltac:(lia)). lia. Qed.
Lemma segment_nth (pre seg post : list Z) i : (i < length seg)%nat -> nth (length pre + i) (pre ++ seg ++ post) 0 = nth i seg 0.
Proof. intros Hi. rewrite app_nth2_plus, app_nth1 by exact Hi. reflexivity. Qed.
Lemma night_good_spec p v g : StronglySorted (fun a b => m_night a <= m_night b) v -> StronglySorted (fun a b => m_mjd a < m_mjd b) v ->
  1 <= n_obs_night p -> 0 <= t_min p ->
  let ts := map m_mjd (filter (fun o => m_night o =? g) v) in
  n_obs_night p <= Z.of_nat (length ts) ->
  (night_good p (seq 0 (length v)) (map m_mjd v) (map m_night v) g = true <-> tracklet p ts).
Proof.
  intros Hn Ht Hk Hm ts Hlen. assert (StronglySorted Z.lt ts) as Hts by (apply (sorted_map m_mjd Z.lt), sorted_filter, Ht).
  set (A := filter (fun o => m_night o <? g) v) in *. set (C := filter (fun o => g <? m_night o) v).
  pose proof (split3 m_night g v Hn) as Ev. fold A C in Ev.
  assert (map m_mjd v = map m_mjd A ++ ts ++ map m_mjd C) as Em by (rewrite Ev at 1; rewrite !map_app; reflexivity).
  assert (ss_left (map m_night v) g = length A) as Ei by apply ss_left_map.
  assert (ss_right (map m_night v) g - 1 = length A + (length ts - 1))%nat as Ej.
  { rewrite ss_right_map. fold A. unfold ts. rewrite map_length. unfold ts in Hlen. rewrite map_length in Hlen. lia. }
  assert (length v = length A + length ts + length C)%nat as Elv. { rewrite <- (map_length m_mjd v), Em, !app_length, !map_length. lia. }
  unfold night_good. rewrite Ei, Ej, !seq_nth by lia. rewrite !Nat.add_0_l.
  assert (nth (length A) (map m_mjd v) 0 = nth 0 ts 0) as E1. { rewrite Em. rewrite <- (map_length m_mjd A). rewrite <- (Nat.add_0_r (length (map m_mjd A))) at 1. apply segment_nth. lia. }
  assert (nth (length A + (length ts - 1)) (map m_mjd v) 0 = nth (length ts - 1) ts 0) as E2. { rewrite Em. rewrite <- (map_length m_mjd A). apply segment_nth. lia. }
  rewrite E1, E2. unfold look_again.
  assert (slice_z (map m_mjd v) (length A) (length A + (length ts - 1) + 1) = ts) as Es.
  { unfold slice_z. rewrite Em. rewrite <- (map_length m_mjd A). rewrite skipn_app, skipn_all, Nat.sub_diag. cbn [skipn app].
    replace (length (map m_mjd A) + (length ts - 1) + 1 - length (map m_mjd A))%nat with (length ts) by lia. rewrite firstn_app, Nat.sub_diag, firstn_all. cbn. apply app_nil_r. }
  rewrite Es. set (dt := nth (length ts - 1) ts 0 - nth 0 ts 0).
  assert (ts <> []) as Hne by (intros E; rewrite E in Hlen; cbn in Hlen; lia).
  assert (span ts dt) as Hd by (apply span_all, Hne).
  rewrite orb_true_iff. split.
  - intros [H|H].
    + unfold in_span in H. apply andb_true_iff in H. rewrite !Z.leb_le in H. split; [exact Hlen|]. exists [], ts, [], dt. rewrite app_nil_r. repeat split; auto; lia.
    + apply andb_true_iff in H. destruct H as [Hc Hl]. apply andb_true_iff in Hc. destruct Hc as [Hc _]. apply andb_true_iff in Hc. destruct Hc as [_ Hc]. apply Z.ltb_lt in Hc.
      apply look_again_spec in Hl; [|exact Hts|lia|exact Hm]. destruct Hl as (pre & seg & post & d & E & El & Hsp & Hr). split; [exact Hlen|]. exists pre, seg, post, d. repeat split; auto; lia.
  - intros [_ (pre & seg & post & d & E & Hor & Hsp & Hr)]. destruct (in_span p dt) eqn:Eg; [left; reflexivity|right].
    assert (Z.of_nat (length seg) = n_obs_night p /\ seg <> ts) as [El Hseg].
    { assert (seg <> ts) as Hns. { intros ->. rewrite (span_fun ts d dt Hsp Hd) in Hr. unfold in_span in Eg. apply andb_false_iff in Eg. rewrite !Z.leb_gt in Eg. lia. } destruct Hor as [Hs|Hs]; [contradiction|auto]. }
    assert (length ts = length pre + length seg + length post)%nat as Elen by (rewrite E, !app_length; lia).
    assert (length seg < length ts)%nat as Hlt.
    { destruct (Nat.eq_dec (length seg) (length ts)) as [Eq|]; [|lia]. exfalso. apply Hseg. destruct pre; [|cbn in Elen; lia]. destruct post; [|cbn in Elen; lia]. rewrite E. cbn. rewrite app_nil_r. reflexivity. }
    assert (d <= dt) as Hle.
    { rewrite (span_fun seg d _ Hsp (span_all seg ltac:(intros ->; cbn in El; lia))). unfold dt.
      rewrite <- (segment_nth pre seg post (length seg - 1)), <- (segment_nth pre seg post 0), <- E by lia.
      pose proof (nth_le_sorted ts 0 (length pre + 0) Hts ltac:(lia)). pose proof (nth_le_sorted ts (length pre + (length seg - 1)) (length ts - 1) Hts ltac:(lia)). lia. }
    rewrite !andb_true_iff, negb_true_iff, !Z.ltb_lt. unfold in_span in Eg. apply andb_false_iff in Eg. rewrite !Z.leb_gt in Eg. repeat split; try lia.
    apply look_again_spec; [exact Hts|lia|exact Hm|]. exists pre, seg, post, d. repeat split; auto; lia.
Qed.

(** * Windows of nights *)
Lemma count_le_sorted l x k : StronglySorted Z.lt l -> ((k < length (filter (fun y => (y <=? x)%Z) l))%nat <-> (k < length l)%nat /\ nth k l 0 <= x).
Proof.
  intros Hs. revert k. induction Hs as [|a l Hs IH Hf]; intros k; [cbn; lia|]. cbn [filter length]. destruct (Z.leb_spec a x) as [Hle|Hgt].
  - cbn [length]. destruct k; [cbn; lia|]. cbn [nth]. rewrite <- Nat.succ_lt_mono, IH. lia.
  - rewrite filter_none.
    + cbn [length]. split; [lia|]. intros [Hk Hn]. destruct k; cbn [nth] in Hn; [lia|]. assert (k < length l)%nat as Hk' by lia. rewrite Forall_forall in Hf. pose proof (Hf (nth k l 0) (nth_In l 0 Hk')). lia.
    + intros y Hy. rewrite Forall_forall in Hf. specialize (Hf y Hy). apply Z.leb_gt. lia.
Qed.
Lemma sorted_skipn {A} (R : A -> A -> Prop) i l : StronglySorted R l -> StronglySorted R (skipn i l).
Proof. revert l. induction i; intros l Hs; [exact Hs|]. destruct l; [exact Hs|]. inversion Hs; subst. cbn. auto. Qed.
Lemma nth_skipn_z i k (l : list Z) : nth k (skipn i l) 0 = nth (i + k) l 0.
Proof. revert l. induction i; intros l; [reflexivity|]. destruct l; [destruct k; reflexivity|]. cbn. apply IHi. Qed.
Lemma nth_firstn_z i k (l : list Z) : (k < i)%nat -> nth k (firstn i l) 0 = nth k l 0.
Proof. revert k l. induction i; intros k l Hk; [lia|]. destruct l; [reflexivity|]. destruct k; [reflexivity|]. cbn. apply IHi. lia. Qed.
Lemma between_count gs i b k : StronglySorted Z.lt gs -> (i < length gs)%nat -> (1 <= k)%nat ->
  ((k <= length (between (nth i gs 0%Z) b gs))%nat <-> (i + k - 1 < length gs)%nat /\ nth (i + k - 1) gs 0 <= b).
Proof.
  intros Hs Hi Hk. assert (between (nth i gs 0) b gs = filter (fun y => y <=? b) (skipn i gs)) as E.
  { unfold between. set (F := fun g => _). replace (filter F gs) with (filter F (firstn i gs ++ skipn i gs)) by (rewrite firstn_skipn; reflexivity). unfold F. rewrite filter_app. rewrite filter_none.
    - cbn. apply filter_ext_in'. intros x Hx. apply (In_nth _ _ 0) in Hx. destruct Hx as (m & Hm & <-). rewrite skipn_length in Hm. rewrite nth_skipn_z.
      rewrite (proj2 (Z.leb_le _ _)); [reflexivity|]. apply nth_le_sorted; [exact Hs|lia].
    - intros x Hx. apply (In_nth _ _ 0) in Hx. destruct Hx as (m & Hm & <-). rewrite firstn_length in Hm. apply andb_false_iff. left. apply Z.leb_gt.
      rewrite nth_firstn_z by lia.
      apply (nth_sorted Z.lt); [exact Hs|lia]. }
  rewrite E. pose proof (count_le_sorted (skipn i gs) b (k - 1) (sorted_skipn _ i _ Hs)) as H. rewrite skipn_length, nth_skipn_z in H.
  replace (i + k - 1)%nat with (i + (k - 1))%nat by lia. split; [intros Hl|intros Hr].
  - destruct (proj1 H ltac:(lia)). lia.
  - pose proof (proj2 H ltac:(lia)). lia.
Qed.
Lemma sorted_lt_ext l l' : StronglySorted Z.lt l -> StronglySorted Z.lt l' -> (forall x, In x l <-> In x l') -> l = l'.
Proof.
  intros Hs. revert l'. induction Hs as [|a l Hs IH Hf]; intros l' Hs' Hi.
  - destruct l' as [|b l']; [reflexivity|]. destruct (proj2 (Hi b) (or_introl eq_refl)).
  - rewrite Forall_forall in Hf. destruct Hs' as [|b l' Hs' Hf']; [destruct (proj1 (Hi a) (or_introl eq_refl))|]. rewrite Forall_forall in Hf'.
    assert (a = b) as ->. { destruct (proj1 (Hi a) (or_introl eq_refl)) as [E|Ha]; [congruence|]. destruct (proj2 (Hi b) (or_introl eq_refl)) as [E|Hb]; [congruence|]. specialize (Hf b Hb). specialize (Hf' a Ha). lia. }
    f_equal. apply IH; [exact Hs'|]. intros x. split; intros Hx.
    + destruct (proj1 (Hi x) (or_intror Hx)) as [<-|H]; [|exact H]. specialize (Hf b Hx). lia.
    + destruct (proj2 (Hi x) (or_intror Hx)) as [<-|H]; [|exact H]. specialize (Hf' b Hx). lia.
Qed.

(** * The whole metric on observations in time order *)
Definition dgood (p : dparams) (l : list obs) : list Z :=
  let v := vis_obs (d_lim p) l in
  filter (night_good p (seq 0 (length v)) (map m_mjd v) (map m_night v)) (nights_with (n_obs_night p) (map m_night v)).
Lemma on_night_times lim l g : on_night (map m_night (vis_obs lim l)) g = Z.of_nat (length (night_times lim l g)).
Proof. unfold on_night, night_times, vis_obs. rewrite filter_map_z, !map_length. reflexivity. Qed.
Lemma dgood_in p l g : in_time_order l -> 1 <= n_obs_night p -> 0 <= t_min p -> (In g (dgood p l) <-> tracklet p (night_times (d_lim p) l g)).
Proof.
  intros [Ht Hn] Hk Hm. unfold dgood. rewrite filter_In, nights_with_in by exact Hk. rewrite on_night_times. split.
  - intros [Hl Hg]. exact (proj1 (night_good_spec p _ g (sorted_filter _ _ _ Hn) (sorted_filter _ _ _ Ht) Hk Hm Hl) Hg).
  - intros Htr. pose proof (proj1 Htr) as Hl. split; [exact Hl|]. exact (proj2 (night_good_spec p _ g (sorted_filter _ _ _ Hn) (sorted_filter _ _ _ Ht) Hk Hm Hl) Htr).
Qed.
Lemma dgood_sorted p l : StronglySorted Z.lt (dgood p l).
Proof. apply sorted_filter, nights_with_sorted. Qed.
Lemma dgood_eq p l gs : in_time_order l -> 1 <= n_obs_night p -> 0 <= t_min p -> tracklet_nights p l gs -> gs = dgood p l.
Proof.
  intros Ho Hk Hm [Hs Hi]. apply sorted_lt_ext; [exact Hs|apply dgood_sorted|]. intros x. rewrite Hi. symmetry. apply dgood_in; assumption.
Qed.
(** where the detections of a night with some are found *)
Lemma night_pos v g : StronglySorted (fun a b => m_night a <= m_night b) v -> (exists o, In o v /\ m_night o = g) ->
  let i := ss_left (map m_night v) g in let B := filter (fun o => m_night o =? g) v in
  (i < length v)%nat /\ nth i (map m_night v) 0 = g /\ nth_error (map m_mjd v) i = nth_error (map m_mjd B) 0 /\ (length B >= 1)%nat /\
  (ss_right (map m_night v) g = i + length B)%nat /\ (i + length B <= length v)%nat.
Proof.
  intros Hn (o & Ho & Eo) i B. set (A := filter (fun o => m_night o <? g) v). set (C := filter (fun o => g <? m_night o) v).
  pose proof (split3 m_night g v Hn) as Ev. fold A B C in Ev. assert (i = length A) as Ei by apply ss_left_map.
  assert (In o B) as HoB by (apply filter_In; split; [exact Ho|apply Z.eqb_eq, Eo]).
  assert (length v = length A + length B + length C)%nat as El by (rewrite Ev at 1; rewrite !app_length; lia).
  destruct B as [|b B'] eqn:EB; [destruct HoB|]. rewrite <- EB in *.
  assert (In b (filter (fun o => m_night o =? g) v)) as Hb by (fold B; rewrite EB; left; reflexivity). apply filter_In in Hb. destruct Hb as [_ Hb]. apply Z.eqb_eq in Hb.
  assert (1 <= length B)%nat as Hl by (rewrite EB; cbn; lia).
  rewrite Ei. repeat split; try lia.
  - rewrite Ev at 1. rewrite map_app, app_nth2; rewrite map_length; [|lia]. rewrite Nat.sub_diag, EB. cbn. exact Hb.
  - rewrite Ev at 1. rewrite map_app, nth_error_app2; rewrite map_length; [|lia]. rewrite Nat.sub_diag, EB. reflexivity.
  - rewrite ss_right_map. reflexivity.
Qed.
Lemma dgood_occurs p l g : 1 <= n_obs_night p -> In g (dgood p l) -> exists o, In o (vis_obs (d_lim p) l) /\ m_night o = g.
Proof.
  intros Hk Hg. apply filter_In in Hg. destruct Hg as [Hg _]. apply nights_with_in in Hg; [|exact Hk]. rewrite on_night_times in Hg. unfold night_times in Hg.
  destruct (filter (fun o => m_night o =? g) (filter (visible (d_lim p)) l)) as [|o t] eqn:E; [cbn in Hg; lia|]. assert (In o (o :: t)) as Ho by (left; reflexivity). rewrite <- E in Ho.
  apply filter_In in Ho. destruct Ho as [Ho Eo]. apply Z.eqb_eq in Eo. exists o. auto.
Qed.
(** the indices that start an opportunity *)
Definition dstarts (p : dparams) (gs : list Z) : list nat :=
  where_z (fun d => (0 <=? d) && (d <=? t_window p)) (zsub (roll (1 - n_nights_window p) gs) gs).
Lemma discovery_sorted p l : in_time_order l -> 1 <= n_obs_night p -> 1 <= n_nights_window p ->
  let v := vis_obs (d_lim p) l in let gs := dgood p l in let nights := map m_night v in
  discovery p l =
    if Z.of_nat (length gs) <? n_nights_window p then None
    else Some {| d_start := match dstarts p gs with [] => None | s :: _ => Some (ss_left nights (nth s gs 0)) end;
                 d_end := match dstarts p gs with [] => None
                          | s :: _ => Some (nth (last (where_z (fun n => n - nth s gs 0 <=? t_window p) gs) 0%nat) (map (fun g => (ss_right nights g - 1)%nat) gs) 0%nat) end;
                 d_chances := Z.of_nat (length (dstarts p gs)) |}.
Proof.
  intros [Ht Hn] Hk Hw v gs nights. unfold discovery. fold v.
  assert (StronglySorted (fun a b => m_mjd a < m_mjd b) v) as Htv by (apply sorted_filter, Ht). assert (StronglySorted (fun a b => m_night a <= m_night b) v) as Hnv by (apply sorted_filter, Hn).
  destruct (Nat.eqb_spec (length v) 0) as [E0|E0].
  - assert (gs = []) as ->. { unfold gs, dgood. fold v. destruct v; [reflexivity|cbn in E0; lia]. } cbn [length]. rewrite (proj2 (Z.ltb_lt _ _)) by lia. reflexivity.
  - assert (argsort (map m_mjd v) = seq 0 (length v)) as Ea.
    { rewrite argsort_sorted; [rewrite map_length; reflexivity|]. apply (sorted_map m_mjd Z.le). clear -Htv. induction Htv as [|a v Hs IH Hf]; constructor; [exact IH|]. eapply Forall_impl; [|exact Hf]. intros b Hb. cbn in Hb. lia. }
    rewrite Ea. rewrite !take_z_seq by (rewrite map_length; reflexivity). fold nights. change (filter (night_good p (seq 0 (length v)) (map m_mjd v) nights) (nights_with (n_obs_night p) nights)) with gs.
    assert (forall g, In g gs -> (ss_left nights g < length v)%nat /\ nth (ss_left nights g) nights 0 = g /\ (ss_right nights g - 1 < length v)%nat) as Hg.
    { intros g Hg. destruct (night_pos v g Hnv (dgood_occurs p l g Hk Hg)) as (H1 & H2 & H3 & H4 & H5 & H6). fold nights in H1, H2, H5, H6. repeat split; auto; lia. }
    rewrite !take_n_seq by (intros i Hi; apply in_map_iff in Hi; destruct Hi as (g & <- & Hi); apply Hg, Hi).
    rewrite map_length. destruct (Z.of_nat (length gs) <? n_nights_window p); [reflexivity|].
    assert (take_z nights (map (ss_left nights) gs) = gs) as Eg. { unfold take_z. rewrite map_map. rewrite <- (map_id gs) at 2. apply map_ext_in. intros g Hi. apply Hg, Hi. }
    rewrite Eg. fold (dstarts p gs). f_equal. f_equal.
    + destruct (dstarts p gs) as [|s t] eqn:Es; [reflexivity|]. f_equal.
      assert (s < length gs)%nat as Hs. { assert (In s (dstarts p gs)) as Hi by (rewrite Es; left; reflexivity). apply filter_In in Hi. destruct Hi as [Hi _]. apply in_seq in Hi. rewrite zsub_length, roll_length in Hi. lia. }
      rewrite (nth_indep _ 0%nat (ss_left nights 0)) by (rewrite map_length; exact Hs). apply map_nth.
    + destruct (dstarts p gs) as [|s t]; reflexivity.
Qed.
Lemma dstarts_spec p gs : StronglySorted Z.lt gs -> 1 <= n_nights_window p <= Z.of_nat (length gs) ->
  dstarts p gs = filter (fun i => n_nights_window p <=? Z.of_nat (length (between (nth i gs 0) (nth i gs 0 + t_window p) gs))) (seq 0 (length gs)).
Proof.
  intros Hs Hw. unfold dstarts, where_z. rewrite zsub_length, roll_length, Nat.min_id. apply filter_ext_in'. intros i Hi. apply in_seq in Hi.
  pose proof (between_count gs i (nth i gs 0 + t_window p) (Z.to_nat (n_nights_window p)) Hs ltac:(lia) ltac:(lia)) as Hb.
  destruct (delta_cases (n_nights_window p) gs i Hs ltac:(lia) Hw) as [[Hlt E]|[Hge E]].
  - rewrite E. pose proof (nth_le_sorted gs i (i + Z.to_nat (n_nights_window p) - 1) Hs ltac:(lia)) as Hle.
    rewrite (proj2 (Z.leb_le _ _)) by lia. cbn [andb]. destruct (Z.leb_spec (nth (i + Z.to_nat (n_nights_window p) - 1) gs 0 - nth i gs 0) (t_window p)) as [H|H].
    + symmetry. apply Z.leb_le. pose proof (proj2 Hb ltac:(lia)). lia.
    + symmetry. apply Z.leb_gt. destruct (Z_lt_ge_dec (Z.of_nat (length (between (nth i gs 0) (nth i gs 0 + t_window p) gs))) (n_nights_window p)); [assumption|]. pose proof (proj1 Hb ltac:(lia)). lia.
  - rewrite (proj2 (Z.leb_gt _ _)) by lia. cbn [andb]. symmetry. apply Z.leb_gt. destruct (Z_lt_ge_dec (Z.of_nat (length (between (nth i gs 0) (nth i gs 0 + t_window p) gs))) (n_nights_window p)); [assumption|]. pose proof (proj1 Hb ltac:(lia)). lia.
Qed.
Lemma dstarts_opportunities p gs : StronglySorted Z.lt gs -> 1 <= n_nights_window p <= Z.of_nat (length gs) ->
  map (fun i => nth i gs 0) (dstarts p gs) = opportunities p gs.
Proof. intros Hs Hw. rewrite dstarts_spec by assumption. unfold opportunities. apply (filter_seq 0 (fun g => n_nights_window p <=? Z.of_nat (length (between g (g + t_window p) gs)))). Qed.
