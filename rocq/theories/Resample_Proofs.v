(** Lemmas about resampling. *)
From Verif Require Import Base Astrom_Model Astrom_Proofs Astrom_Proofs2 Resample_Model Resample_Spec.
From Coq Require Import Reals List Lia Lra.
Open Scope R_scope.

Lemma rleb_true a b : rleb a b = true <-> a <= b.
Proof. unfold rleb. destruct (Rle_dec a b); split; intros; auto; try discriminate; lra. Qed.
Lemma rleb_false a b : rleb a b = false <-> b < a.
Proof. unfold rleb. destruct (Rle_dec a b); split; intros; auto; try discriminate; lra. Qed.
Lemma rltb_true a b : rltb a b = true <-> a < b.
Proof. unfold rltb. destruct (Rlt_dec a b); split; intros; auto; try discriminate; lra. Qed.
Lemma rltb_false a b : rltb a b = false <-> b <= a.
Proof. unfold rltb. destruct (Rlt_dec a b); split; intros; auto; try discriminate; lra. Qed.
Lemma reqb_true a b : reqb a b = true <-> a = b.
Proof. unfold reqb. destruct (Req_EM_T a b); split; intros; auto; try discriminate; contradiction. Qed.

Lemma ascending_step l : (forall i, (S i < length l)%nat -> nth i l 0 < nth (S i) l 0) -> ascending l.
Proof.
  intros H i j [Hij Hj]. induction j as [|j IH]; [lia|].
  destruct (Nat.eq_dec i j) as [->|N]; [apply H; auto|].
  eapply Rlt_trans; [apply IH; lia|apply H; auto].
Qed.
Lemma ascending_le l i j : ascending l -> (i <= j < length l)%nat -> nth i l 0 <= nth j l 0.
Proof. intros H [Hij Hj]. destruct (Nat.eq_dec i j) as [->|N]; [lra|]. left. apply H. lia. Qed.
Lemma ascending_tail a l : ascending (a :: l) -> ascending l.
Proof. intros H i j [Hij Hj]. apply (H (S i) (S j)). simpl. lia. Qed.

Lemma mids_length l : length (mids l) = (length l - 1)%nat.
Proof. induction l as [|a [|b t] IH]; try reflexivity. change (length (mids (a :: b :: t))) with (S (length (mids (b :: t)))). rewrite IH. simpl. lia. Qed.
Lemma mids_nth l : forall i, (S i < length l)%nat -> nth i (mids l) 0 = (nth i l 0 + nth (S i) l 0) / 2.
Proof.
  induction l as [|a [|b t] IH]; intros i Hi; simpl in Hi; try lia.
  destruct i as [|i]; [simpl; lra|]. change (nth (S i) (mids (a :: b :: t)) 0) with (nth i (mids (b :: t)) 0).
  rewrite IH by (simpl; lia). reflexivity.
Qed.
Lemma diffs_length l : length (diffs l) = (length l - 1)%nat.
Proof. induction l as [|a [|b t] IH]; try reflexivity. change (length (diffs (a :: b :: t))) with (S (length (diffs (b :: t)))). rewrite IH. simpl. lia. Qed.
Lemma diffs_nth l : forall i, (S i < length l)%nat -> nth i (diffs l) 0 = nth (S i) l 0 - nth i l 0.
Proof.
  induction l as [|a [|b t] IH]; intros i Hi; simpl in Hi; try lia.
  destruct i as [|i]; [simpl; lra|]. change (nth (S i) (diffs (a :: b :: t)) 0) with (nth i (diffs (b :: t)) 0).
  rewrite IH by (simpl; lia). reflexivity.
Qed.
Lemma removelast_length {A} (l : list A) : length (removelast l) = (length l - 1)%nat.
Proof. rewrite removelast_firstn_len, firstn_length. lia. Qed.
Lemma removelast_nth {A} (l : list A) d i : (S i < length l)%nat -> nth i (removelast l) d = nth i l d.
Proof.
  revert i. induction l as [|a [|b t] IH]; intros i Hi; simpl in Hi; try lia.
  change (removelast (a :: b :: t)) with (a :: removelast (b :: t)). destruct i as [|i]; [reflexivity|].
  simpl nth at 1. rewrite IH by (simpl; lia). reflexivity.
Qed.
Lemma last_nth (l : list R) d : last l d = nth (length l - 1) l d.
Proof.
  induction l as [|a [|b t] IH]; try reflexivity. change (last (a :: b :: t) d) with (last (b :: t) d). rewrite IH.
  replace (length (a :: b :: t) - 1)%nat with (S (length (b :: t) - 1)) by (simpl; lia). reflexivity.
Qed.

(** the bins of a list of wavelengths *)
Lemma make_bins_spec w : (2 <= length w)%nat -> exists e ws, make_bins w = Ok (e, ws) /\ length e = S (length w) /\
  length ws = length w /\ (forall i, (i < length w)%nat -> nth i e 0 = bin_lo w i /\ nth (S i) e 0 = bin_hi w i) /\
  (forall i, (i < length w)%nat -> nth i ws 0 = nth (S i) e 0 - nth i e 0).
Proof.
  intros H. destruct w as [|a [|b t]]; simpl in H; try lia. clear H.
  set (w := a :: b :: t). set (n := length w). assert (Hn : (2 <= n)%nat) by (unfold n, w; simpl; lia).
  set (tl := mids w ++ [nth (n - 1) w 0 + (nth (n - 1) w 0 - nth (n - 2) w 0) / 2]).
  set (e := (a - (b - a) / 2) :: tl).
  set (ws := diffs (removelast e) ++ [nth (n - 1) w 0 - nth (n - 2) w 0]).
  assert (Le : length e = S n). { unfold e. cbn [length]. unfold tl. rewrite app_length, mids_length. cbn [length]. fold n. lia. }
  assert (Lw : length ws = n). { unfold ws. rewrite app_length, diffs_length, removelast_length, Le. cbn [length]. lia. }
  assert (Hmid : forall i, (S i < n)%nat -> nth (S i) e 0 = (nth i w 0 + nth (S i) w 0) / 2).
  { intros i Hi. change (nth (S i) e 0) with (nth i tl 0). unfold tl. rewrite app_nth1 by (rewrite mids_length; fold n; lia). apply mids_nth. exact Hi. }
  assert (Hlast : nth n e 0 = nth (n - 1) w 0 + (nth (n - 1) w 0 - nth (n - 2) w 0) / 2).
  { replace n with (S (n - 1)) at 1 by lia. change (nth (S (n - 1)) e 0) with (nth (n - 1) tl 0). unfold tl. rewrite app_nth2 by (rewrite mids_length; fold n; lia).
    rewrite mids_length. fold n. replace (n - 1 - (n - 1))%nat with 0%nat by lia. reflexivity. }
  assert (Hed : forall i, (i < n)%nat -> nth i e 0 = bin_lo w i /\ nth (S i) e 0 = bin_hi w i).
  { intros i Hi. split.
    - destruct i as [|i]; [reflexivity|]. apply Hmid. exact Hi.
    - unfold bin_hi. fold n. destruct (Nat.eqb_spec (S i) n) as [E|E].
      + rewrite E. rewrite Hlast. replace (n - 1)%nat with i by lia. replace (n - 2)%nat with (i - 1)%nat by lia. reflexivity.
      + apply Hmid. lia. }
  exists e, ws. split; [reflexivity|]. split; [exact Le|]. split; [exact Lw|]. split; [exact Hed|].
  intros i Hi. fold n in Hi. unfold ws. destruct (Nat.eq_dec (S i) n) as [E|E].
  - rewrite app_nth2 by (rewrite diffs_length, removelast_length, Le; lia). rewrite diffs_length, removelast_length, Le.
    replace (i - (S n - 1 - 1))%nat with 0%nat by lia. cbn [nth].
    destruct (Hed i Hi) as [-> ->]. unfold bin_hi. fold n. rewrite (proj2 (Nat.eqb_eq (S i) n)) by exact E.
    replace (n - 1)%nat with i by lia. replace (n - 2)%nat with (i - 1)%nat by lia.
    destruct i as [|i]; [lia|]. unfold bin_lo. replace (S i - 1)%nat with i by lia. lra.
  - rewrite app_nth1 by (rewrite diffs_length, removelast_length, Le; lia).
    rewrite diffs_nth by (rewrite removelast_length, Le; lia). rewrite !removelast_nth by (rewrite Le; lia). reflexivity.
Qed.
Lemma edges_ascending w e ws : (2 <= length w)%nat -> ascending w -> make_bins w = Ok (e, ws) -> ascending e.
Proof.
  intros H Hw Hb. destruct (make_bins_spec w H) as (e' & ws' & E & Le & Lw & He & _). rewrite Hb in E.
  assert (e' = e) as -> by congruence. clear E.
  apply ascending_step. intros i Hi. rewrite Le in Hi.
  destruct (He i ltac:(lia)) as [-> ->]. unfold bin_lo, bin_hi.
  destruct i as [|i].
  - destruct (Nat.eqb_spec 1 (length w)) as [E|E]; [lia|]. pose proof (Hw 0%nat 1%nat ltac:(lia)). lra.
  - pose proof (Hw i (S i) ltac:(lia)). destruct (Nat.eqb_spec (S (S i)) (length w)) as [E|E].
    + replace (S i - 1)%nat with i by lia. lra.
    + pose proof (Hw (S i) (S (S i)) ltac:(lia)). lra.
Qed.

(** the loops that look for the first and the last old bin *)
Lemma skipn_cons {A} (l : list A) d i : (i < length l)%nat -> skipn i l = nth i l d :: skipn (S i) l.
Proof. revert i. induction l as [|a t IH]; intros i Hi; simpl in Hi; [lia|]. destruct i as [|i]; [reflexivity|]. simpl. apply IH. lia. Qed.
Lemma advance_spec p e : forall k i m, (m - i <= k)%nat -> (i < m < length e)%nat -> p (nth m e 0) = false ->
  exists j, advance p (skipn (S i) e) i = Ok j /\ (i <= j)%nat /\ (S j <= m)%nat /\ p (nth (S j) e 0) = false /\
            (forall x, (i < x <= j)%nat -> p (nth x e 0) = true).
Proof.
  induction k as [|k IH]; intros i m Hk Hm Hp; [lia|].
  rewrite (skipn_cons e 0) by lia. simpl advance. destruct (p (nth (S i) e 0)) eqn:E.
  - destruct (Nat.eq_dec (S i) m) as [Em|N]; [subst m; congruence|].
    destruct (IH (S i) m ltac:(lia) ltac:(lia) Hp) as (j & A & B & C & D & F).
    exists j. split; [exact A|]. split; [lia|]. split; [lia|]. split; [exact D|].
    intros x Hx. destruct (Nat.eq_dec x (S i)) as [->|N']; [exact E|]. apply F. lia.
  - exists i. split; [reflexivity|]. split; [lia|]. split; [lia|]. split; [exact E|]. intros x Hx. lia.
Qed.

Lemma nth_set_nth {A} (l : list A) i j x d : (i < length l)%nat -> nth j (set_nth l i x) d = if Nat.eqb j i then x else nth j l d.
Proof.
  revert i j. induction l as [|a t IH]; intros i j Hi; simpl in Hi; [lia|].
  destruct i as [|i], j as [|j]; simpl; auto. apply IH. lia.
Qed.
Lemma set_nth_length' {A} (l : list A) i x : length (set_nth l i x) = length l.
Proof. revert i. induction l as [|a t IH]; intros [|i]; simpl; auto. Qed.
Lemma slice_seq l i j : (i <= j <= length l)%nat -> slice l i j = map (fun k => nth k l 0) (seq i (j - i)).
Proof.
  intros [Hij Hj]. unfold slice. remember (j - i)%nat as n eqn:En. assert (Hn : (i + n <= length l)%nat) by lia. clear j Hij Hj En.
  revert i Hn. induction n as [|n IH]; intros i Hn; [reflexivity|].
  rewrite (skipn_cons l 0) by lia. cbn [firstn seq map]. f_equal. apply IH. lia.
Qed.

(** what a bin has in common with an interval *)
Definition clip (a b x : R) : R := Rmax a (Rmin b x).
Ltac plain a := lazymatch a with context [Rmax _ _] => fail | context [Rmin _ _] => fail | _ => idtac end.
Ltac minmax := repeat match goal with
  | |- context [Rmin ?a ?b] => plain a; plain b; let E := fresh "E" in destruct (Rle_dec a b) as [E|E]; [rewrite (Rmin_left a b) by lra | rewrite (Rmin_right a b) by lra]
  | |- context [Rmax ?a ?b] => plain a; plain b; let E := fresh "E" in destruct (Rle_dec a b) as [E|E]; [rewrite (Rmax_right a b) by lra | rewrite (Rmax_left a b) by lra]
  end.
Lemma common_clip a b lo hi : a <= b -> lo <= hi -> common a b lo hi = clip a b hi - clip a b lo.
Proof. intros H1 H2. unfold common, clip. minmax; lra. Qed.
Lemma common_nonneg a b c d : 0 <= common a b c d.
Proof. unfold common. apply Rmax_l. Qed.
Lemma common_left a b lo hi : b <= lo -> a <= b -> common a b lo hi = 0.
Proof. intros. unfold common. minmax; lra. Qed.
Lemma common_right a b lo hi : hi <= a -> a <= b -> common a b lo hi = 0.
Proof. intros. unfold common. minmax; lra. Qed.
Lemma common_inside a b lo hi : a <= lo -> hi <= b -> lo <= hi -> common a b lo hi = hi - lo.
Proof. intros. unfold common. minmax; lra. Qed.

Lemma clip_sum e m x : ascending e -> (m < length e)%nat ->
  rsum (map (fun i => clip (nth i e 0) (nth (S i) e 0) x - nth i e 0) (seq 0 m)) = clip (nth 0 e 0) (nth m e 0) x - nth 0 e 0.
Proof.
  intros He. induction m as [|m IH]; intros Hm.
  - simpl. unfold clip. minmax; lra.
  - rewrite seq_S, map_app, rsum_app. rewrite IH by lia. unfold rsum. cbn [map fold_right]. simpl Nat.add.
    pose proof (ascending_le e 0 m He ltac:(lia)). pose proof (He m (S m) ltac:(lia)). unfold clip. minmax; lra.
Qed.
Lemma common_sum e lo hi : ascending e -> (1 <= length e)%nat -> nth 0 e 0 <= lo -> lo <= hi -> hi <= nth (length e - 1) e 0 ->
  rsum (map (fun i => common (nth i e 0) (nth (S i) e 0) lo hi) (seq 0 (length e - 1))) = hi - lo.
Proof.
  intros He Hl H1 H2 H3. set (n := (length e - 1)%nat) in *.
  rewrite (rsum_ext _ (fun i => (clip (nth i e 0) (nth (S i) e 0) hi - nth i e 0) + - (clip (nth i e 0) (nth (S i) e 0) lo - nth i e 0))).
  - rewrite rsum_plus. rewrite (rsum_ext (fun x => - (clip (nth x e 0) (nth (S x) e 0) lo - nth x e 0)) (fun x => (-1) * (clip (nth x e 0) (nth (S x) e 0) lo - nth x e 0))) by (intros; lra).
    rewrite rsum_scale. rewrite !clip_sum by (auto; unfold n; lia). unfold clip. minmax; lra.
  - intros i Hi. apply in_seq in Hi. rewrite common_clip; [lra| |auto]. left. apply He. lia.
Qed.
