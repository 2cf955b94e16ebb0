(** Lemmas about the gap metrics. *)
From Verif Require Import Base Slicer_Model Slicer_Spec Slicer_Proofs GapMetrics_Model GapMetrics_Spec.
From Coq Require Import Permutation Sorted Lia ZifyBool ZifyNat.
Open Scope Z_scope.

(** * Counting *)
Lemma countb_cons {A} (P : A -> bool) x l : countb P (x :: l) = ((if P x then 1 else 0) + countb P l)%nat.
Proof. unfold countb. simpl. destruct (P x); reflexivity. Qed.
Lemma countb_nil {A} (P : A -> bool) : countb P [] = 0%nat.
Proof. reflexivity. Qed.
Lemma countb_app {A} (P : A -> bool) l m : countb P (l ++ m) = (countb P l + countb P m)%nat.
Proof. unfold countb. rewrite filter_app, app_length. reflexivity. Qed.
Lemma countb_perm {A} (P : A -> bool) l m : Permutation l m -> countb P l = countb P m.
Proof. induction 1; rewrite ?countb_cons; try congruence. lia. Qed.
Lemma countb_ext {A} (P Q : A -> bool) l : (forall x, In x l -> P x = Q x) -> countb P l = countb Q l.
Proof. intros H. unfold countb. f_equal. apply filter_ext_in. auto. Qed.
Lemma countb_le {A} (P : A -> bool) l : (countb P l <= length l)%nat.
Proof. induction l; [rewrite countb_nil; simpl; lia|]. rewrite countb_cons. simpl. destruct (P a); lia. Qed.
Lemma countb_mono {A} (P Q : A -> bool) l : (forall x, In x l -> P x = true -> Q x = true) -> (countb P l <= countb Q l)%nat.
Proof.
  induction l; intros H; rewrite ?countb_nil, ?countb_cons; [lia|].
  pose proof (H a (or_introl eq_refl)). specialize (IHl (fun x Hx => H x (or_intror Hx))).
  destruct (P a) eqn:E, (Q a) eqn:E2; try lia.
Qed.
Lemma countb_map {A B} (f : A -> B) (P : B -> bool) l : countb P (map f l) = countb (fun x => P (f x)) l.
Proof. induction l; simpl; rewrite ?countb_nil, ?countb_cons; auto. Qed.
Lemma countb_all {A} (P : A -> bool) l : (forall x, In x l -> P x = true) -> countb P l = length l.
Proof.
  induction l; intros H; rewrite ?countb_nil, ?countb_cons; auto.
  rewrite (H a (or_introl eq_refl)), IHl; auto. intros; apply H; right; auto.
Qed.
Lemma countb_none {A} (P : A -> bool) l : (forall x, In x l -> P x = false) -> countb P l = 0%nat.
Proof.
  induction l; intros H; rewrite ?countb_nil, ?countb_cons; auto.
  rewrite (H a (or_introl eq_refl)), IHl; auto. intros; apply H; right; auto.
Qed.
Lemma countb_pos {A} (P : A -> bool) l : (0 < countb P l)%nat <-> exists x, In x l /\ P x = true.
Proof.
  induction l; rewrite ?countb_nil, ?countb_cons.
  - split; [lia|]. intros (x & [] & _).
  - split.
    + destruct (P a) eqn:E; [exists a; simpl; auto|]. intros H. destruct (proj1 IHl H) as (x & Hx & Hp).
      exists x; simpl; auto.
    + intros (x & [->|Hx] & Hp); [rewrite Hp; lia|]. pose proof (proj2 IHl (ex_intro _ x (conj Hx Hp))). lia.
Qed.
(** count split in two disjoint parts *)
Lemma countb_split {A} (P Q R : A -> bool) l :
  (forall x, In x l -> P x = Q x || R x) -> (forall x, In x l -> Q x && R x = false) ->
  countb P l = (countb Q l + countb R l)%nat.
Proof.
  induction l; intros H1 H2; rewrite ?countb_nil, ?countb_cons; auto.
  rewrite (IHl (fun x Hx => H1 x (or_intror Hx)) (fun x Hx => H2 x (or_intror Hx))).
  pose proof (H1 a (or_introl eq_refl)). pose proof (H2 a (or_introl eq_refl)).
  destruct (P a), (Q a), (R a); try discriminate; lia.
Qed.

(** * searchsorted as counting *)
Lemma ssl_count s v : StronglySorted Z.le s -> ssl s v = countb (fun x => (x <? v)%Z) s.
Proof.
  induction 1 as [|h t Hs IH Hf]; auto. simpl. rewrite countb_cons.
  destruct (Z.leb_spec v h).
  - replace (h <? v) with false by lia. simpl.
    symmetry. apply countb_none. intros x Hx. rewrite Forall_forall in Hf. specialize (Hf x Hx). lia.
  - replace (h <? v) with true by lia. rewrite IH. lia.
Qed.
Lemma ssr_count s v : StronglySorted Z.le s -> ssr s v = countb (fun x => (x <=? v)%Z) s.
Proof.
  induction 1 as [|h t Hs IH Hf]; auto. simpl. rewrite countb_cons.
  destruct (Z.ltb_spec v h).
  - replace (h <=? v) with false by lia. simpl.
    symmetry. apply countb_none. intros x Hx. rewrite Forall_forall in Hf. specialize (Hf x Hx). lia.
  - replace (h <=? v) with true by lia. rewrite IH. lia.
Qed.
Lemma ssl_zsort a v : ssl (zsort a) v = countb (fun x => (x <? v)%Z) a.
Proof. rewrite ssl_count by apply zsort_sorted. apply countb_perm, zsort_perm. Qed.
Lemma ssr_zsort a v : ssr (zsort a) v = countb (fun x => (x <=? v)%Z) a.
Proof. rewrite ssr_count by apply zsort_sorted. apply countb_perm, zsort_perm. Qed.

(** the position of a value in a sorted list *)
Lemma sorted_position s : StronglySorted Z.le s -> forall i x, nth_error s i = Some x ->
  (countb (fun y => (y <? x)%Z) s <= i < countb (fun y => (y <=? x)%Z) s)%nat.
Proof.
  induction 1 as [|h t Hs IH Hf]; intros i x Hi; [destruct i; discriminate|].
  rewrite !countb_cons. rewrite Forall_forall in Hf. destruct i as [|i]; simpl in Hi.
  - inversion Hi; subst. replace (x <? x) with false by lia. replace (x <=? x) with true by lia.
    rewrite (countb_none (fun y => (y <? x)%Z) t); [lia|]. intros y Hy. specialize (Hf y Hy). lia.
  - specialize (IH i x Hi). pose proof (Hf x (nth_error_In _ _ Hi)).
    destruct (h <? x) eqn:E1, (h <=? x) eqn:E2; try lia.
Qed.
Lemma sorted_position_inv s v i : StronglySorted Z.le s ->
  (countb (fun y => (y <? v)%Z) s <= i < countb (fun y => (y <=? v)%Z) s)%nat -> nth_error s i = Some v.
Proof.
  intros Hs Hi. pose proof (countb_le (fun y => (y <=? v)%Z) s).
  destruct (nth_error s i) as [x|] eqn:E; [|apply nth_error_None in E; lia].
  pose proof (sorted_position s Hs i x E) as Hp. f_equal.
  destruct (Z.lt_trichotomy x v) as [H1|[H1|H1]]; auto; exfalso.
  - assert (countb (fun y => (y <=? x)%Z) s <= countb (fun y => (y <? v)%Z) s)%nat by (apply countb_mono; lia). lia.
  - assert (countb (fun y => (y <=? v)%Z) s <= countb (fun y => (y <? x)%Z) s)%nat by (apply countb_mono; lia). lia.
Qed.

(** * np.histogram *)
Lemma nth_error_ndiff l k : nth_error (ndiff l) k =
  match nth_error l k, nth_error l (S k) with Some a, Some b => Some (b - a)%nat | _, _ => None end.
Proof.
  revert k; induction l as [|a t IH]; intros k; [destruct k; reflexivity|].
  destruct t as [|b t]; [destruct k as [|[|k]]; reflexivity|].
  destruct k as [|k]; [reflexivity|]. change (ndiff (a :: b :: t)) with ((b - a)%nat :: ndiff (b :: t)).
  simpl nth_error at 1. rewrite IH. reflexivity.
Qed.
Lemma ndiff_length l : length (ndiff l) = (length l - 1)%nat.
Proof. induction l as [|a [|b t] IH]; simpl in *; auto. rewrite IH. lia. Qed.

Lemma monotone_step l k a b : monotone l = true -> nth_error l k = Some a -> nth_error l (S k) = Some b -> a <= b.
Proof.
  revert k; induction l as [|x t IH]; intros k Hm Ha Hb; [destruct k; discriminate|].
  destruct t as [|y t]; [destruct k as [|[|k]]; discriminate|].
  simpl in Hm. apply andb_prop in Hm as [H1 H2]. destruct k as [|k].
  - simpl in Ha, Hb. inversion Ha; inversion Hb; subst. lia.
  - apply (IH k); auto.
Qed.

Lemma skipn_last {A} (l : list A) : l <> [] -> exists x, skipn (length l - 1) l = [x] /\ nth_error l (length l - 1) = Some x.
Proof.
  induction l as [|a t IH]; [congruence|]. intros _. destruct t as [|b t].
  - exists a. auto.
  - destruct IH as (x & H1 & H2); [congruence|]. exists x. simpl length in *.
    replace (S (S (length t)) - 1)%nat with (S (S (length t) - 1)) by lia. auto.
Qed.

Lemma histogram_count a bins h : np_histogram a bins = Ok h ->
  length h = (length bins - 1)%nat /\
  forall k c, nth_error h k = Some c -> c = countb (hist_bin bins k) a.
Proof.
  unfold np_histogram. destruct (monotone bins) eqn:Hm; [|discriminate].
  intros H; inversion H; subst h; clear H.
  destruct bins as [|e es].
  { split; [reflexivity|]. intros k c; destruct k; discriminate. }
  set (bins := e :: es) in *. assert (bins <> []) as Hne by discriminate.
  assert (1 <= length bins)%nat as Hl1 by (simpl; lia). clearbody bins.
  destruct (skipn_last bins Hne) as (z & Hz & Hlast). rewrite Hz. cbn [map].
  split.
  { rewrite ndiff_length, app_length, map_length, removelast_length. simpl; lia. }
  intros k c. rewrite nth_error_ndiff.
  assert (forall i, nth_error (map (ssl (zsort a)) (removelast bins) ++ [ssr (zsort a) z]) i =
     if (S i <? length bins)%nat then option_map (fun v => countb (fun x => (x <? v)%Z) a) (nth_error bins i)
     else if (S i =? length bins)%nat then Some (countb (fun x => (x <=? z)%Z) a) else None) as Hcum.
  { intros i. destruct (Nat.ltb_spec (S i) (length bins)).
    - rewrite nth_error_app1 by (rewrite map_length, removelast_length; lia).
      rewrite nth_error_map, nth_error_removelast. replace (S i <? length bins)%nat with true by lia.
      destruct (nth_error bins i); simpl; auto. rewrite ssl_zsort. reflexivity.
    - rewrite nth_error_app2 by (rewrite map_length, removelast_length; lia).
      rewrite map_length, removelast_length. destruct (Nat.eqb_spec (S i) (length bins)).
      + replace (i - (length bins - 1))%nat with 0%nat by lia. simpl. rewrite ssr_zsort. reflexivity.
      + destruct (i - (length bins - 1))%nat eqn:E; [lia|]. simpl. destruct n0; reflexivity. }
  rewrite !Hcum.
  destruct (Nat.ltb_spec (S k) (length bins)) as [Hk|Hk].
  2:{ destruct (Nat.eqb_spec (S k) (length bins)); [|intros; discriminate].
      replace (S (S k) <? length bins)%nat with false by lia.
      replace (S (S k) =? length bins)%nat with false by lia. intros; discriminate. }
  destruct (nth_error bins k) as [lo|] eqn:Elo; [|apply nth_error_None in Elo; lia]. cbn [option_map].
  destruct (nth_error bins (S k)) as [hi|] eqn:Ehi; [|apply nth_error_None in Ehi; lia].
  pose proof (monotone_step bins k lo hi Hm Elo Ehi) as Hle.
  destruct (Nat.ltb_spec (S (S k)) (length bins)) as [Hk2|Hk2]; cbn [option_map].
  - intros H; inversion H; subst c. unfold hist_bin. rewrite Elo, Ehi.
    rewrite (countb_split (fun x => (x <? hi)%Z) (fun x => (x <? lo)%Z)
               (fun x => (lo <=? x) && ((x <? hi) || (((S (S k) =? length bins)%nat) && (x =? hi)))) a); [lia| |]; intros; lia.
  - replace (S (S k) =? length bins)%nat with true by lia. intros H; inversion H; subst c. unfold hist_bin. rewrite Elo, Ehi.
    assert (z = hi) as -> by (replace (length bins - 1)%nat with (S k) in Hlast by lia; congruence).
    rewrite (countb_split (fun x => (x <=? hi)%Z) (fun x => (x <? lo)%Z)
               (fun x => (lo <=? x) && ((x <? hi) || (((S (S k) =? length bins)%nat) && (x =? hi)))) a); [lia| |]; intros; lia.
Qed.

(** * Gaps *)
Lemma diff_successive s : s <> [] -> successive s (diff s).
Proof.
  induction s as [|a t IH]; [congruence|]. intros _. destruct t as [|b t].
  - split; auto. intros i x y Hx Hy. destruct i as [|[|i]]; discriminate.
  - destruct IH as [H1 H2]; [congruence|]. change (diff (a :: b :: t)) with ((b - a) :: diff (b :: t)).
    split; [simpl in *; lia|]. intros [|i] x y Hx Hy; [inversion Hx; inversion Hy; subst; reflexivity|].
    apply H2; auto.
Qed.

Lemma diff_sum s a z : hd_error s = Some a -> nth_error s (length s - 1) = Some z -> zsum (diff s) = z - a.
Proof.
  revert a; induction s as [|x t IH]; intros a Ha Hz; [discriminate|].
  inversion Ha; subst x. destruct t as [|b t].
  - simpl in Hz. inversion Hz. simpl. lia.
  - change (diff (a :: b :: t)) with ((b - a) :: diff (b :: t)).
    assert (nth_error (b :: t) (length (b :: t) - 1) = Some z) as Hz2.
    { rewrite <- Hz. simpl length. replace (S (S (length t)) - 1)%nat with (S (S (length t) - 1)) by lia. reflexivity. }
    specialize (IH b eq_refl Hz2). unfold zsum in *. cbn [fold_right]. rewrite IH. lia.
Qed.

Lemma diff_nonneg s : StronglySorted Z.le s -> forall g, In g (diff s) -> 0 <= g.
Proof.
  induction 1 as [|h t Hs IH Hf]; intros g Hg; [destruct Hg|].
  destruct t as [|b t]; [destruct Hg|]. destruct Hg as [<-|Hg]; auto.
  inversion Hf; subst. lia.
Qed.

Lemma nth_error_diff l i : nth_error (diff l) i =
  match nth_error l i, nth_error l (S i) with Some a, Some b => Some (b - a) | _, _ => None end.
Proof.
  revert i; induction l as [|a t IH]; intros i; [destruct i; reflexivity|].
  destruct t as [|b t]; [destruct i as [|[|i]]; reflexivity|].
  destruct i as [|i]; [reflexivity|]. change (diff (a :: b :: t)) with ((b - a) :: diff (b :: t)).
  simpl nth_error at 1. rewrite IH. reflexivity.
Qed.
Lemma diff_length l : length (diff l) = (length l - 1)%nat.
Proof. induction l as [|a [|b t] IH]; simpl in *; auto. rewrite IH. lia. Qed.

(** sorted rearrangements are unique *)
Lemma nondecreasing_sorted s : nondecreasing s -> StronglySorted Z.le s.
Proof.
  induction s as [|h t IH]; intros H; constructor.
  - apply IH. intros i j a b Hij Ha Hb. apply (H (S i) (S j)); auto. lia.
  - apply Forall_forall. intros x Hx. apply In_nth_error in Hx as (n & Hn).
    apply (H 0%nat (S n)); auto. lia.
Qed.
Lemma sorted_perm_unique s : StronglySorted Z.le s -> forall t, StronglySorted Z.le t -> Permutation s t -> s = t.
Proof.
  induction 1 as [|a s Hs IH Hf]; intros t Ht Hp.
  - apply Permutation_nil in Hp. auto.
  - destruct t as [|b t]; [apply Permutation_sym, Permutation_nil in Hp; discriminate|].
    inversion Ht; subst. rewrite Forall_forall in *.
    assert (a = b) as ->.
    { assert (In a (b :: t)) as X1 by (apply (Permutation_in _ Hp); left; auto).
      assert (In b (a :: s)) as X4 by (apply (Permutation_in _ (Permutation_sym Hp)); left; auto).
      destruct X1 as [|X1]; auto. destruct X4 as [|X4]; auto. specialize (H2 a X1). specialize (Hf b X4). lia. }
    f_equal. apply IH; auto. eapply Permutation_cons_inv; eauto.
Qed.
Lemma time_ordered_zsort l s : time_ordered l s <-> s = zsort l.
Proof.
  split.
  - intros [Hp Hn]. apply sorted_perm_unique; [apply nondecreasing_sorted; exact Hn|apply zsort_sorted|].
    rewrite zsort_perm. auto.
  - intros ->. split; [apply zsort_perm|]. apply sorted_nondecreasing, zsort_sorted.
Qed.

(** * All gaps *)
Lemma combine_skipn {A B} (l : list A) (m1 m2 : list B) i : length m1 = i -> (i <= length l)%nat ->
  skipn i (combine l (m1 ++ m2)) = combine (skipn i l) m2.
Proof.
  revert l i; induction m1 as [|b m1 IH]; intros l i Hl Hi; simpl in Hl; subst i; [reflexivity|].
  destruct l as [|a l]; [simpl in Hi; lia|]. simpl. apply IH; auto. simpl in Hi; lia.
Qed.
Lemma combine_firstn_le {A B} (l : list A) (m : list B) n : (length l <= n)%nat -> combine l (firstn n m) = combine l m.
Proof.
  revert m n; induction l as [|a l IH]; intros m n H; auto.
  destruct n as [|n]; [simpl in H; lia|]. destruct m as [|b m]; auto. simpl. f_equal. apply IH. simpl in H. lia.
Qed.
(** the i-shifted differences *)
Definition shifted (s : list Z) (i : nat) : list Z := zsub (skipn i s) s.
Lemma all_diffs_shifted s : all_diffs s = map (shifted s) (seq 1 (length s - 1)).
Proof.
  unfold all_diffs. apply map_ext_in. intros i Hi. apply in_seq in Hi. unfold shifted, zsub, roll.
  rewrite skipn_map. f_equal. rewrite combine_skipn.
  - apply combine_firstn_le. rewrite skipn_length. lia.
  - rewrite skipn_length. lia.
  - lia.
Qed.
Lemma shifted_cons x t i : (1 <= i <= length t)%nat -> exists y, nth_error t (i - 1) = Some y /\
  shifted (x :: t) i = (y - x) :: shifted t i.
Proof.
  intros Hi. destruct i as [|i]; [lia|]. replace (S i - 1)%nat with i by lia.
  destruct (nth_error t i) as [y|] eqn:E; [|apply nth_error_None in E; lia]. exists y. split; auto.
  unfold shifted. simpl skipn at 1.
  assert (skipn i t = y :: skipn (S i) t) as ->.
  { clear -E. revert t E; induction i as [|i IH]; intros [|b t] E; try discriminate; [inversion E; auto|].
    change (skipn i t = y :: skipn (S i) t). apply IH. auto. }
  reflexivity.
Qed.
Lemma shifted_all t : shifted t (length t) = [].
Proof. unfold shifted. rewrite skipn_all. reflexivity. Qed.

Lemma concat_cons_perm {A} (f : nat -> A) (g : nat -> list A) is :
  Permutation (concat (map (fun i => f i :: g i) is)) (map f is ++ concat (map g is)).
Proof.
  induction is as [|i is IH]; simpl; auto. constructor. rewrite IH, !app_assoc.
  apply Permutation_app_tail, Permutation_app_comm.
Qed.

Lemma map_nth_seq (t : list Z) (f : Z -> Z) : map (fun i => f (nth (i - 1) t 0)) (seq 1 (length t)) = map f t.
Proof.
  rewrite <- seq_shift, map_map. induction t as [|a t IH]; auto. simpl. f_equal.
  rewrite <- IH. rewrite <- seq_shift, map_map. apply map_ext_in. intros i _. simpl.
  replace (i - 0)%nat with i by lia. reflexivity.
Qed.

Lemma all_gaps_pairs s : Permutation (concat (map (shifted s) (seq 1 (length s - 1)))) (map (fun p => snd p - fst p) (pairs s)).
Proof.
  induction s as [|x t IH]; auto. simpl length. replace (S (length t) - 1)%nat with (length t) by lia.
  simpl pairs. rewrite map_app, map_map. simpl.
  rewrite (map_ext_in (shifted (x :: t)) (fun i => (nth (i - 1) t 0 - x) :: shifted t i)).
  2:{ intros i Hi. apply in_seq in Hi. destruct (shifted_cons x t i) as (y & Hy & ->); [lia|].
      rewrite (nth_error_nth _ _ 0 Hy). reflexivity. }
  rewrite concat_cons_perm, (map_nth_seq t (fun y => y - x)). apply Permutation_app_head.
  destruct t as [|b t]; auto. rewrite <- IH. simpl length.
  replace (S (length t) - 1)%nat with (length t) by lia.
  replace (seq 1 (S (length t))) with (seq 1 (length t) ++ [S (length t)]) by (rewrite seq_S; reflexivity).
  rewrite map_app, concat_app. simpl.
  change (S (length t)) with (length (b :: t)). rewrite shifted_all. simpl. rewrite app_nil_r. auto.
Qed.

Lemma pairs_sorted s x y : StronglySorted Z.le s -> In (x, y) (pairs s) -> x <= y.
Proof.
  induction 1 as [|h t Hs IH Hf]; intros H; [destruct H|]. simpl in H. apply in_app_or in H as [H|H]; auto.
  apply in_map_iff in H as (z & E & Hz). inversion E; subst. rewrite Forall_forall in Hf. auto.
Qed.

Definition absdiff (p : Z * Z) : Z := Z.abs (fst p - snd p).
Lemma pairs_perm s t : Permutation s t -> Permutation (map absdiff (pairs s)) (map absdiff (pairs t)).
Proof.
  induction 1 as [| x s t H IH | x y s | s t u H1 IH1 H2 IH2]; auto.
  - simpl. rewrite !map_app, !map_map. apply Permutation_app; auto. apply Permutation_map. auto.
  - simpl. rewrite !map_app, !map_map. unfold absdiff at 1 4. simpl. replace (Z.abs (y - x)) with (Z.abs (x - y)) by lia.
    constructor. rewrite !app_assoc. apply Permutation_app_tail, Permutation_app_comm.
  - eapply perm_trans; eauto.
Qed.

Lemma gap_list_all s : (2 <= length s)%nat ->
  gap_list true s = Ok (concat (map (shifted s) (seq 1 (length s - 1)))).
Proof.
  intros H. unfold gap_list. rewrite all_diffs_shifted. unfold np_concatenate.
  destruct (length s - 1)%nat eqn:E; [lia|]. reflexivity.
Qed.

Lemma all_gaps_zsort col : (2 <= length col)%nat -> exists dts, gap_list true (zsort col) = Ok dts /\
  Permutation dts (map absdiff (pairs col)).
Proof.
  intros H. rewrite gap_list_all by (rewrite zsort_length; auto). eexists. split; [reflexivity|].
  rewrite all_gaps_pairs. rewrite <- (pairs_perm (zsort col) col (zsort_perm col)).
  erewrite map_ext_in; [reflexivity|]. intros [x y] Hp. unfold absdiff. simpl.
  pose proof (pairs_sorted _ _ _ (zsort_sorted col) Hp). lia.
Qed.

Lemma pairs_length s : (2 * length (pairs s) = length s * (length s - 1))%nat.
Proof. induction s as [|x t IH]; auto. simpl. rewrite app_length, map_length. simpl. nia. Qed.

Lemma tgaps_all bins col res : tgaps_run true bins col = Ok (Some res) ->
  length res = (length bins - 1)%nat /\
  forall k c, nth_error res k = Some c -> c = countb (fun p => hist_bin bins k (Z.abs (fst p - snd p))) (pairs col).
Proof.
  unfold tgaps_run. destruct (Nat.ltb_spec (length col) 2); [discriminate|].
  destruct (all_gaps_zsort col H) as (dts & E & Hp). rewrite E. simpl.
  destruct (np_histogram dts bins) as [h|] eqn:Eh; [|discriminate]. simpl. intros X; inversion X; subst h.
  destruct (histogram_count _ _ _ Eh) as [H1 H2]. split; auto. intros k c Hc. rewrite (H2 k c Hc).
  rewrite (countb_perm _ _ _ Hp), countb_map. reflexivity.
Qed.

Lemma tgaps_consecutive bins col s g res : time_ordered col s -> successive s g ->
  tgaps_run false bins col = Ok (Some res) ->
  length res = (length bins - 1)%nat /\
  forall k c, nth_error res k = Some c -> c = countb (hist_bin bins k) g.
Proof.
  intros Ht Hg. apply time_ordered_zsort in Ht. subst s. unfold tgaps_run.
  destruct (Nat.ltb_spec (length col) 2); [discriminate|]. simpl.
  assert (g = diff (zsort col)) as ->.
  { destruct Hg as [Hl Hn]. apply nth_ext with (d := 0) (d' := 0).
    - rewrite diff_length. lia.
    - intros n Hlt. assert (exists a b, nth_error (zsort col) n = Some a /\ nth_error (zsort col) (S n) = Some b) as (a & b & Ea & Eb).
      { destruct (nth_error (zsort col) n) eqn:E1; [|apply nth_error_None in E1; lia].
        destruct (nth_error (zsort col) (S n)) eqn:E2; [|apply nth_error_None in E2; lia]. eauto. }
      rewrite (nth_error_nth _ _ 0 (Hn n a b Ea Eb)). symmetry. apply nth_error_nth. rewrite nth_error_diff, Ea, Eb. auto. }
  destruct (np_histogram (diff (zsort col)) bins) as [h|] eqn:Eh; [|discriminate]. simpl. intros X; inversion X; subst h.
  apply histogram_count. auto.
Qed.

(** * PairFraction *)
Lemma ssl_neq s lo hi : StronglySorted Z.le s -> lo <= hi ->
  negb (ssl s hi =? ssl s lo)%nat = existsb (fun u => (lo <=? u) && (u <? hi)) s.
Proof.
  intros Hs Hle. rewrite !ssl_count by auto.
  rewrite (countb_split (fun x => (x <? hi)%Z) (fun x => (x <? lo)%Z) (fun u => (lo <=? u) && (u <? hi)) s); [|intros; lia|intros; lia].
  destruct (existsb _ s) eqn:E.
  - apply existsb_exists in E. apply (countb_pos (fun u => (lo <=? u) && (u <? hi)) s) in E. lia.
  - rewrite (countb_none (fun u => (lo <=? u) && (u <? hi)) s); [lia|].
    intros x Hx. destruct ((lo <=? x) && (x <? hi)) eqn:E2; auto.
    rewrite <- E. symmetry. apply existsb_exists. eauto.
Qed.

Lemma existsb_perm {A} (P : A -> bool) l m : Permutation l m -> existsb P l = existsb P m.
Proof.
  intros H. apply eq_true_iff_eq. rewrite !existsb_exists.
  split; intros (x & Hx & Hp); exists x; split; auto.
  - exact (Permutation_in x H Hx).
  - exact (Permutation_in x (Permutation_sym H) Hx).
Qed.

Definition paired (lo hi : Z) (times : list Z) (t : Z) : bool :=
  existsb (fun u => ((lo <=? u - t) && (u - t <? hi)) || ((lo <? t - u) && (t - u <=? hi))) times.

Lemma existsb_or {A} (P Q : A -> bool) l : existsb P l || existsb Q l = existsb (fun x => P x || Q x) l.
Proof. induction l; simpl; auto. rewrite <- IHl. destruct (P a), (Q a), (existsb P l), (existsb Q l); auto. Qed.

Lemma pair_count lo hi col : lo <= hi ->
  length (filter (fun b => b) (pair_flags lo hi (zsort col))) = countb (paired lo hi col) col.
Proof.
  intros Hle. change (countb (fun b => b) (pair_flags lo hi (zsort col)) = countb (paired lo hi col) col).
  unfold pair_flags. rewrite countb_map. rewrite <- (countb_perm _ _ _ (zsort_perm col)).
  apply countb_ext. intros t _. unfold paired.
  rewrite !ssl_neq by (try apply zsort_sorted; lia).
  replace (ssl (zsort col) (t - hi) =? ssl (zsort col) (t - lo))%nat with (ssl (zsort col) (t - lo) =? ssl (zsort col) (t - hi))%nat by lia.
  rewrite ssl_neq by (try apply zsort_sorted; lia).
  rewrite existsb_or. rewrite (existsb_perm _ _ _ (zsort_perm col)).
  apply eq_true_iff_eq. rewrite !existsb_exists. split; intros (u & Hu & Hp); exists u; split; auto; lia.
Qed.

Lemma countb_seq (P : Z -> bool) col : countb P col =
  countb (fun i => match nth_error col i with Some t => P t | None => false end) (seq 0 (length col)).
Proof.
  induction col as [|a t IH]; auto. simpl. rewrite !countb_cons. simpl. f_equal.
  rewrite <- seq_shift, countb_map. exact IH.
Qed.

Lemma paired_index lo hi col i t : 0 < lo -> nth_error col i = Some t ->
  paired lo hi col t = has_partner_code lo hi col i.
Proof.
  intros Hlo Hi. unfold paired, has_partner_code. rewrite Hi.
  apply eq_true_iff_eq. rewrite !existsb_exists. split.
  - intros (u & Hu & Hp). apply In_nth_error in Hu as (j & Hj). exists j. split.
    + apply in_seq. assert (nth_error col j <> None) by congruence. apply nth_error_Some in H. lia.
    + rewrite Hj. destruct (Nat.eqb_spec j i); [subst; assert (u = t) by congruence; lia|]. simpl. exact Hp.
  - intros (j & Hj & Hp). destruct (nth_error col j) as [u|] eqn:E; [|discriminate].
    exists u. split; [eapply nth_error_In; eauto|]. lia.
Qed.

Lemma pair_fraction_code lo hi col num den : 0 < lo -> lo <= hi ->
  pair_fraction lo hi col = Ok (num, den) ->
  den = length col /\ num = countb (has_partner_code lo hi col) (seq 0 (length col)) /\ (num <= den)%nat.
Proof.
  intros Hlo Hle. unfold pair_fraction. destruct (length col) eqn:E; [discriminate|].
  intros H; inversion H; subst; clear H. rewrite pair_count by auto. split; auto.
  assert (countb (paired lo hi col) col = countb (has_partner_code lo hi col) (seq 0 (length col))) as Hc.
  { rewrite countb_seq. apply countb_ext. intros i Hi. apply in_seq in Hi.
    destruct (nth_error col i) eqn:Ei; [|apply nth_error_None in Ei; lia]. apply paired_index; auto. }
  rewrite <- E. split; auto. apply countb_le.
Qed.

Lemma partner_no_edge lo hi col i : 0 < lo -> lo <= hi ->
  (forall x y, In x col -> In y col -> x - y <> lo /\ x - y <> hi) ->
  has_partner_code lo hi col i = has_partner lo hi col i.
Proof.
  intros Hlo Hle Hne. unfold has_partner_code, has_partner.
  destruct (nth_error col i) as [t|] eqn:Et; auto.
  pose proof (nth_error_In _ _ Et) as Ht.
  apply eq_true_iff_eq. rewrite !existsb_exists.
  split; intros (j & Hj & Hp); exists j; split; auto; destruct (nth_error col j) as [u|] eqn:Eu; auto.
  - lia.
  - pose proof (nth_error_In _ _ Eu) as Hu.
    pose proof (Hne t u Ht Hu). pose proof (Hne u t Hu Ht). lia.
Qed.

Lemma pair_fraction_zero_min hi col num den : 0 < hi -> pair_fraction 0 hi col = Ok (num, den) -> num = den.
Proof.
  intros Hhi. unfold pair_fraction. destruct (length col) eqn:E; [discriminate|].
  intros H; inversion H; subst; clear H. rewrite pair_count by lia. rewrite <- E. apply countb_all.
  intros t Ht. unfold paired. apply existsb_exists. exists t. split; auto. lia.
Qed.

(** * np.unique *)
Lemma uinsert_In x l y : In y (uinsert x l) <-> y = x \/ In y l.
Proof.
  induction l as [|h t IH]; simpl; [intuition auto|].
  destruct (Z.ltb_spec x h); [simpl; intuition auto|]. destruct (Z.eqb_spec x h); simpl; [subst; intuition auto|].
  rewrite IH. intuition auto.
Qed.
Lemma np_unique_In l y : In y (np_unique l) <-> In y l.
Proof. induction l; simpl; [tauto|]. rewrite uinsert_In, IHl. intuition auto. Qed.
Lemma uinsert_sorted x l : StronglySorted Z.lt l -> StronglySorted Z.lt (uinsert x l).
Proof.
  induction 1 as [|h t Hs IH Hf]; simpl; [repeat constructor|].
  destruct (Z.ltb_spec x h).
  - constructor; [constructor; auto|]. constructor; auto. eapply Forall_impl; [|exact Hf]. simpl; intros; lia.
  - destruct (Z.eqb_spec x h); [constructor; auto|]. constructor; auto.
    apply Forall_forall. intros y Hy. apply uinsert_In in Hy as [->|Hy]; [lia|].
    rewrite Forall_forall in Hf. auto.
Qed.
Lemma np_unique_sorted l : StronglySorted Z.lt (np_unique l).
Proof. induction l; simpl; [constructor|]. apply uinsert_sorted; auto. Qed.
Lemma strongly_lt_le l : StronglySorted Z.lt l -> StronglySorted Z.le l.
Proof.
  induction 1; constructor; auto. eapply Forall_impl; [|eassumption]. simpl; intros; lia.
Qed.
Lemma sorted_lt_nth l i j a b : StronglySorted Z.lt l -> (i < j)%nat -> nth_error l i = Some a -> nth_error l j = Some b -> a < b.
Proof.
  intros H; revert i j; induction H as [|h t Hs IH Hf]; intros i j Hij Ha Hb; [destruct i; discriminate|].
  destruct i as [|i], j as [|j]; simpl in *; try lia.
  - inversion Ha; subst. rewrite Forall_forall in Hf. apply Hf. eapply nth_error_In; eauto.
  - apply (IH i j); auto. lia.
Qed.

(** * Runs of equal values in a sorted list *)
Section Runs.
  Variable l : list Z.
  Hypothesis Hs : StronglySorted Z.le l.
  Let u := np_unique l.
  Let lt v := countb (fun x => (x <? v)%Z) l.
  Let le v := countb (fun x => (x <=? v)%Z) l.

  Lemma run_nonempty v : In v u -> (lt v < le v)%nat.
  Proof.
    intros H. apply (proj1 (np_unique_In l v)) in H. unfold lt, le.
    rewrite (countb_split (fun x => (x <=? v)%Z) (fun x => (x <? v)%Z) (fun x => (x =? v)%Z) l) by (intros; lia).
    assert (0 < countb (fun x => (x =? v)%Z) l)%nat by (apply countb_pos; exists v; split; [auto|apply Z.eqb_refl]). lia.
  Qed.
  Lemma run_next k v w : nth_error u k = Some v -> nth_error u (S k) = Some w -> lt w = le v.
  Proof.
    intros Hv Hw. unfold lt, le. apply countb_ext. intros x Hx.
    assert (v < w) as Hvw by (eapply (sorted_lt_nth u k (S k)); eauto; [apply np_unique_sorted]).
    apply (proj2 (np_unique_In l x)) in Hx. fold u in Hx. apply In_nth_error in Hx as (j & Hj).
    destruct (Nat.lt_trichotomy j k) as [H|[H|H]].
    - pose proof (sorted_lt_nth u j k x v (np_unique_sorted l) H Hj Hv). lia.
    - subst. assert (x = v) by congruence. lia.
    - destruct (Nat.eq_dec j (S k)); [subst; assert (x = w) by congruence; lia|].
      pose proof (sorted_lt_nth u (S k) j w x (np_unique_sorted l) ltac:(lia) Hw Hj). lia.
  Qed.
  Lemma run_first v : nth_error u 0 = Some v -> lt v = 0%nat.
  Proof.
    intros Hv. apply countb_none. intros x Hx. apply (proj2 (np_unique_In l x)) in Hx. fold u in Hx. apply In_nth_error in Hx as (j & Hj).
    destruct j; [assert (x = v) by congruence; lia|].
    pose proof (sorted_lt_nth u 0 (S j) v x (np_unique_sorted l) ltac:(lia) Hv Hj). lia.
  Qed.
  Lemma run_last v : nth_error u (length u - 1) = Some v -> le v = length l.
  Proof.
    intros Hv. apply countb_all. intros x Hx. apply (proj2 (np_unique_In l x)) in Hx. fold u in Hx. apply In_nth_error in Hx as (j & Hj).
    assert (j < length u)%nat by (apply nth_error_Some; congruence).
    destruct (Nat.eq_dec j (length u - 1)); [subst; assert (x = v) by congruence; lia|].
    pose proof (sorted_lt_nth u j (length u - 1) x v (np_unique_sorted l) ltac:(lia) Hj Hv). lia.
  Qed.

  (** the last index of a run is exactly an index followed by a different value *)
  Lemma last_of_run_In i : In i (removelast (map (fun v => (ssr l v - 1)%nat) u)) <->
    exists a b, nth_error l i = Some a /\ nth_error l (S i) = Some b /\ a <> b.
  Proof.
    split.
    - intros H. apply In_nth_error in H as (k & Hk). rewrite nth_error_removelast, map_length in Hk.
      destruct (Nat.ltb_spec (S k) (length u)) as [Hlt|]; [|discriminate]. rewrite nth_error_map in Hk.
      destruct (nth_error u k) as [v|] eqn:Ev; [|discriminate]. cbn in Hk. inversion Hk; subst i.
      destruct (nth_error u (S k)) as [w|] eqn:Ew; [|apply nth_error_None in Ew; lia].
      rewrite ssr_count by auto. fold (le v).
      pose proof (run_nonempty v (nth_error_In _ _ Ev)). pose proof (run_nonempty w (nth_error_In _ _ Ew)).
      pose proof (run_next k v w Ev Ew).
      exists v, w. split; [apply sorted_position_inv; auto; fold (lt v) (le v); lia|].
      split; [apply sorted_position_inv; auto; fold (lt w) (le w); lia|].
      pose proof (sorted_lt_nth u k (S k) v w (np_unique_sorted l) ltac:(lia) Ev Ew). lia.
    - intros (a & b & Ha & Hb & Hne).
      assert (In a u) as Hau by (apply np_unique_In; eapply nth_error_In; eauto).
      apply In_nth_error in Hau as (k & Hk).
      pose proof (sorted_position l Hs i a Ha) as Hpa. fold (lt a) (le a) in Hpa.
      pose proof (sorted_position l Hs (S i) b Hb) as Hpb. fold (lt b) (le b) in Hpb.
      assert (le a = S i) as Hla.
      { assert (~ (S i < le a)%nat); [|lia]. intros Hc.
        pose proof (sorted_position_inv l a (S i) Hs). fold (lt a) (le a) in H. rewrite H in Hb by lia. congruence. }
      assert (S k < length u)%nat as Hlt.
      { assert (k < length u)%nat by (apply nth_error_Some; congruence).
        destruct (Nat.eq_dec (S k) (length u)) as [He|]; [|lia]. exfalso.
        assert (le a = length l) by (apply run_last; rewrite <- He; simpl; rewrite Nat.sub_0_r; auto).
        assert (S i < length l)%nat by (apply nth_error_Some; congruence). lia. }
      apply (nth_error_In _ k). rewrite nth_error_removelast, map_length.
      replace (S k <? length u)%nat with true by lia. rewrite nth_error_map, Hk. cbn.
      rewrite ssr_count by auto. fold (le a). rewrite Hla. f_equal. lia.
  Qed.

  Lemma lasts_sorted : StronglySorted Peano.lt (map (fun v => (ssr l v - 1)%nat) u).
  Proof.
    assert (forall m, (forall v, In v m -> In v u) -> StronglySorted Z.lt m ->
              StronglySorted Peano.lt (map (fun v => (ssr l v - 1)%nat) m)) as Hg.
    { induction m as [|a m IH]; intros Hin Hm; constructor.
      - inversion Hm; subst. apply IH; auto. intros; apply Hin; right; auto.
      - inversion Hm; subst. rewrite Forall_forall in *. intros j Hj. apply in_map_iff in Hj as (v & <- & Hv).
        specialize (H2 v Hv). rewrite !ssr_count by auto. fold (le a) (le v).
        pose proof (run_nonempty a (Hin a (or_introl eq_refl))). pose proof (run_nonempty v (Hin v (or_intror Hv))).
        assert (le a <= lt v)%nat by (apply countb_mono; lia). lia. }
    apply Hg; auto. apply np_unique_sorted.
  Qed.
End Runs.

Lemma sorted_removelast l : StronglySorted Peano.lt l -> StronglySorted Peano.lt (removelast l).
Proof.
  induction 1 as [|a t Hs IH Hf]; [constructor|]. destruct t as [|b t]; [constructor|].
  change (removelast (a :: b :: t)) with (a :: removelast (b :: t)). constructor; auto.
  rewrite Forall_forall in *. intros x Hx. apply Hf. clear -Hx.
  revert b Hx. induction t as [|c t IH]; intros b Hx; [destruct Hx|].
  destruct Hx as [->|Hx]; [left; auto|right; apply IH; auto].
Qed.

Lemma sorted_same_set l : StronglySorted Peano.lt l -> forall m, StronglySorted Peano.lt m ->
  (forall x, In x l <-> In x m) -> l = m.
Proof.
  induction 1 as [|a l Hs IH Hf]; intros m Hm Hiff.
  - destruct m as [|b m]; auto. destruct (proj2 (Hiff b) (or_introl eq_refl)).
  - destruct m as [|b m]; [destruct (proj1 (Hiff a) (or_introl eq_refl))|].
    inversion Hm; subst. rewrite Forall_forall in *.
    assert (a = b) as ->.
    { destruct (proj1 (Hiff a) (or_introl eq_refl)) as [|H]; auto.
      destruct (proj2 (Hiff b) (or_introl eq_refl)) as [|H0]; auto.
      specialize (Hf b H0). specialize (H2 a H). lia. }
    f_equal. apply IH; auto. intros x. split; intros Hx.
    + destruct (proj1 (Hiff x) (or_intror Hx)); auto. subst. specialize (Hf x Hx). lia.
    + destruct (proj2 (Hiff x) (or_intror Hx)); auto. subst. specialize (H2 x Hx). lia.
Qed.

Lemma filter_seq_sorted P a n : StronglySorted Peano.lt (filter P (seq a n)).
Proof.
  revert a; induction n as [|n IH]; intros a; simpl; [constructor|].
  destruct (P a); auto. constructor; auto.
  apply Forall_forall. intros x Hx. apply filter_In in Hx as [Hx _]. apply in_seq in Hx. lia.
Qed.

(** * Night gaps *)

Lemma adj_seq (d0 : visit) data (P : visit * visit -> bool) (f : visit * visit -> Z) :
  map f (filter P (adj data)) =
  map (fun i => f (nth i data d0, nth (S i) data d0)) (filter (fun i => P (nth i data d0, nth (S i) data d0)) (seq 0 (length data - 1))).
Proof.
  induction data as [|a t IH]; auto. destruct t as [|b t]; auto.
  change (adj (a :: b :: t)) with ((a, b) :: adj (b :: t)).
  simpl length. replace (S (S (length t)) - 1)%nat with (S (length t)) by lia.
  cbn [seq]. cbn [filter]. rewrite <- seq_shift.
  assert (map f (filter P (adj (b :: t))) =
    map (fun i => f (nth i (a :: b :: t) d0, nth (S i) (a :: b :: t) d0))
      (filter (fun i => P (nth i (a :: b :: t) d0, nth (S i) (a :: b :: t) d0)) (map S (seq 0 (length t))))) as Hr.
  { rewrite IH. simpl length. replace (S (length t) - 1)%nat with (length t) by lia.
    generalize (seq 0 (length t)). induction l as [|x l IHl]; auto. cbn [filter map].
    change (nth (S x) (a :: b :: t) d0) with (nth x (b :: t) d0).
    change (nth (S (S x)) (a :: b :: t) d0) with (nth (S x) (b :: t) d0).
    destruct (P (nth x (b :: t) d0, nth (S x) (b :: t) d0)); cbn [map]; rewrite IHl; reflexivity. }
  change (nth 0 (a :: b :: t) d0) with a. change (nth 1 (a :: b :: t) d0) with b.
  destruct (P (a, b)); cbn [map]; rewrite Hr; reflexivity.
Qed.

Lemma intra_adj data : map fst (filter (fun p => snd p =? 0) (combine (diff (map mjd data)) (diff (map night data)))) =
  map (fun p => mjd (snd p) - mjd (fst p)) (filter (fun p => night (fst p) =? night (snd p)) (adj data)).
Proof.
  induction data as [|a t IH]; auto. destruct t as [|b t]; auto.
  change (adj (a :: b :: t)) with ((a, b) :: adj (b :: t)).
  change (diff (map mjd (a :: b :: t))) with ((mjd b - mjd a) :: diff (map mjd (b :: t))).
  change (diff (map night (a :: b :: t))) with ((night b - night a) :: diff (map night (b :: t))).
  cbn [combine filter fst snd]. replace (night b - night a =? 0) with (night a =? night b) by lia.
  destruct (night a =? night b).
  - apply (f_equal (cons (mjd b - mjd a))). exact IH.
  - exact IH.
Qed.

Lemma intra_night_spec data : intra_night_gaps data =
  match map (fun p => mjd (snd p) - mjd (fst p)) (filter (fun p => night (fst p) =? night (snd p)) (adj data)) with
  | [] => None | g => Some g end.
Proof.
  unfold intra_night_gaps. rewrite <- intra_adj.
  destruct (filter _ _); reflexivity.
Qed.

Lemma nth_mjd data i : nth i (map mjd data) 0 = mjd (nth i data {| mjd := 0; night := 0 |}).
Proof. change 0 with (mjd {| mjd := 0; night := 0 |}) at 1. apply map_nth. Qed.

Lemma combine_tl_removelast (F L : list nat) : length F = length L ->
  (forall k f l, nth_error F (S k) = Some f -> nth_error L k = Some l -> f = S l) ->
  combine (tl F) (removelast L) = map (fun l => (S l, l)) (removelast L).
Proof.
  revert L; induction F as [|f F IH]; intros L Hl Hn.
  - destruct L; [reflexivity|discriminate].
  - destruct L as [|l L]; [discriminate|]. destruct F as [|f2 F].
    + destruct L; [reflexivity|discriminate].
    + destruct L as [|l2 L]; [discriminate|].
      change (removelast (l :: l2 :: L)) with (l :: removelast (l2 :: L)).
      cbn [tl combine map]. rewrite (Hn 0%nat f2 l eq_refl eq_refl). f_equal.
      apply (IH (l2 :: L)); [simpl in *; lia|]. intros k a b Ha Hb. apply (Hn (S k)); auto.
Qed.

Lemma inter_night_spec data : StronglySorted Z.le (map night data) ->
  inter_night_gaps data =
  match map (fun p => mjd (snd p) - mjd (fst p)) (filter (fun p => negb (night (fst p) =? night (snd p))) (adj data)) with
  | [] => None | g => Some g end.
Proof.
  intros Hs. set (d0 := {| mjd := 0; night := 0 |}).
  unfold inter_night_gaps. set (u := np_unique (map night data)).
  set (L := map (fun n => (ssr (map night data) n - 1)%nat) u).
  assert (combine (tl (map (ssl (map night data)) u)) (removelast L) = map (fun l => (S l, l)) (removelast L)) as Hc.
  { apply combine_tl_removelast; [unfold L; rewrite !map_length; auto|].
    intros k f l Hf Hl. unfold L in Hl. rewrite nth_error_map in Hf, Hl.
    destruct (nth_error u (S k)) as [w|] eqn:Ew; [|discriminate].
    destruct (nth_error u k) as [v|] eqn:Ev; [|discriminate]. cbn in Hf, Hl. inversion Hf; inversion Hl; subst.
    rewrite ssl_count, ssr_count by auto. unfold u in *.
    rewrite (run_next (map night data) k v w Ev Ew).
    pose proof (run_nonempty (map night data) v (nth_error_In _ _ Ev)) as Hrn. cbv zeta beta in Hrn. lia. }
  rewrite Hc, map_map. rewrite (adj_seq d0).
  assert (removelast L = filter (fun i => negb (night (fst (nth i data d0, nth (S i) data d0)) =? night (snd (nth i data d0, nth (S i) data d0)))) (seq 0 (length data - 1))) as HL.
  { apply sorted_same_set.
    - apply sorted_removelast, lasts_sorted; auto.
    - apply filter_seq_sorted.
    - intros i. unfold L, u. rewrite (last_of_run_In (map night data) Hs i). rewrite filter_In, in_seq. cbn [fst snd].
      split.
      + intros (a & b & Ha & Hb & Hne). rewrite nth_error_map in Ha, Hb.
        destruct (nth_error data i) as [x|] eqn:Ex; [|discriminate]. destruct (nth_error data (S i)) as [y|] eqn:Ey; [|discriminate].
        cbn in Ha, Hb. inversion Ha; inversion Hb; subst.
        assert (S i < length data)%nat by (apply nth_error_Some; congruence).
        split; [lia|]. rewrite (nth_error_nth _ _ d0 Ex), (nth_error_nth _ _ d0 Ey). lia.
      + intros [Hi Hne]. exists (night (nth i data d0)), (night (nth (S i) data d0)).
        split; [apply map_nth_error, nth_error_nth'; lia|]. split; [apply map_nth_error, nth_error_nth'; lia|]. lia. }
  assert (length u <= S (length (removelast L)))%nat as Hlen by (rewrite removelast_length; unfold L; rewrite map_length; lia).
  assert (length (removelast L) = length u - 1)%nat as Hlen2 by (rewrite removelast_length; unfold L; rewrite map_length; lia).
  rewrite <- HL. destruct (Nat.ltb_spec (length u) 2).
  - destruct (removelast L) as [|x r]; [reflexivity|simpl in Hlen2; lia].
  - destruct (removelast L) as [|x r]; [simpl in Hlen2; lia|]. cbn [map fst snd].
    rewrite !nth_mjd. f_equal. f_equal. apply map_ext. intros i. rewrite !nth_mjd. reflexivity.
Qed.

(** * Seasons *)
Lemma season_runs unit seasons firsts lasts :
  StronglySorted Z.le (map (fun s => s / unit) seasons) ->
  find_season_edges unit seasons = (firsts, lasts) ->
  length firsts = length lasts /\
  (forall k f l, nth_error firsts k = Some f -> nth_error lasts k = Some l ->
     (f <= l)%nat /\ exists s, forall i, (f <= i <= l)%nat -> nth_error (map (fun s => s / unit) seasons) i = Some s) /\
  (forall f, nth_error firsts 0 = Some f -> f = 0%nat) /\
  (forall k f l, nth_error firsts (S k) = Some f -> nth_error lasts k = Some l -> f = S l /\
     nth_error (map (fun s => s / unit) seasons) f <> nth_error (map (fun s => s / unit) seasons) l) /\
  (forall l, nth_error lasts (length lasts - 1) = Some l -> S l = length seasons) /\
  (seasons <> [] -> firsts <> []).
Proof.
  set (is := map (fun s => s / unit) seasons). intros Hs H. unfold find_season_edges in H. fold is in H.
  inversion H; subst; clear H. set (u := np_unique is).
  assert (forall k v, nth_error u k = Some v -> (ssl is v < ssr is v)%nat) as Hne.
  { intros k v Hv. rewrite ssl_count, ssr_count by auto. apply run_nonempty. eapply nth_error_In; eauto. }
  assert (forall k v i, nth_error u k = Some v -> (ssl is v <= i < ssr is v)%nat -> nth_error is i = Some v) as Hin.
  { intros k v i Hv Hi. rewrite ssl_count, ssr_count in Hi by auto. apply sorted_position_inv; auto. }
  split; [rewrite !map_length; auto|]. repeat split.
  - rewrite nth_error_map in H, H0. destruct (nth_error u k) as [v|] eqn:Ev; [|discriminate].
    cbn in H, H0. inversion H; inversion H0; subst. specialize (Hne k v Ev). lia.
  - rewrite nth_error_map in H, H0. destruct (nth_error u k) as [v|] eqn:Ev; [|discriminate].
    cbn in H, H0. inversion H; inversion H0; subst. specialize (Hne k v Ev). exists v. intros i Hi. apply (Hin k v); auto. lia.
  - intros f Hf. rewrite nth_error_map in Hf. destruct (nth_error u 0) as [v|] eqn:Ev; [|discriminate].
    cbn in Hf. inversion Hf; subst. rewrite ssl_count by auto. apply run_first; auto.
  - rewrite nth_error_map in H, H0. destruct (nth_error u (S k)) as [w|] eqn:Ew; [|discriminate].
    destruct (nth_error u k) as [v|] eqn:Ev; [|discriminate]. cbn in H, H0. inversion H; inversion H0; subst.
    pose proof (Hne k v Ev). rewrite ssl_count, ssr_count in * by auto. rewrite (run_next is k v w Ev Ew). lia.
  - rewrite nth_error_map in H, H0. destruct (nth_error u (S k)) as [w|] eqn:Ew; [|discriminate].
    destruct (nth_error u k) as [v|] eqn:Ev; [|discriminate]. cbn in H, H0. inversion H; inversion H0; subst.
    pose proof (Hne k v Ev). pose proof (Hne (S k) w Ew).
    rewrite (Hin (S k) w (ssl is w) Ew) by lia. rewrite (Hin k v (ssr is v - 1)%nat Ev) by lia.
    pose proof (sorted_lt_nth u k (S k) v w (np_unique_sorted is) ltac:(lia) Ev Ew). intros X; inversion X; lia.
  - intros l Hl. rewrite map_length, nth_error_map in Hl. fold u in Hl.
    destruct (nth_error u (length u - 1)) as [v|] eqn:Ev; [|discriminate]. cbn in Hl. inversion Hl; subst.
    pose proof (Hne _ v Ev) as Hv. rewrite ssr_count in * by auto. rewrite (run_last is v Ev) in *.
    unfold is in *. rewrite map_length in *. lia.
  - intros Hn. destruct seasons as [|s ss]; [congruence|]. intros Hc.
    assert (In (s / unit) u) as Hin2 by (apply np_unique_In; left; auto).
    destruct u; [destruct Hin2|discriminate].
Qed.

(** * MaxGap *)
Lemma max_gap_spec col m : max_gap_run col = Some m ->
  (forall first last t, In first col -> In last col -> first <= t <= last ->
     exists v, In v col /\ v <= t /\ t - v <= m) /\
  (exists a b, In a col /\ In b col /\ b - a = m /\ forall v, In v col -> v <= a \/ b <= v).
Proof.
  unfold max_gap_run. set (s := zsort col). destruct (diff s) as [|g0 gs] eqn:Ed; [discriminate|].
  intros H; inversion H as [Hm]; clear H. rewrite <- Ed in *.
  assert (diff s <> []) as Hne by (rewrite Ed; discriminate). clear Ed.
  assert (forall x, In x s <-> In x col) as Hin.
  { intros x. split; intros Hx; [exact (Permutation_in x (zsort_perm col) Hx)|exact (Permutation_in x (Permutation_sym (zsort_perm col)) Hx)]. }
  assert (StronglySorted Z.le s) as Hs by apply zsort_sorted.
  split.
  - intros first last t Hf Hl Ht.
    (* the latest visit at or before t *)
    assert (forall r, StronglySorted Z.le r -> forall a z, In a r -> In z r -> a <= t <= z ->
              exists v, In v r /\ v <= t /\ (v = t \/ exists w i, nth_error r i = Some v /\ nth_error r (S i) = Some w /\ t < w)) as Hg.
    { clear. induction 1 as [|h r Hr IH Hf]; intros a z Ha Hz Ht; [destruct Ha|].
      rewrite Forall_forall in Hf.
      destruct r as [|h2 r].
      - destruct Ha as [->|[]], Hz as [->|[]]. exists z. split; [left; auto|]. split; [lia|left; lia].
      - destruct (Z.le_gt_cases h2 t) as [Hc|Hc].
        + destruct (IH h2 z) as (v & Hv & Hle & Hd); [left; auto| |lia|].
          * destruct Hz as [->|Hz]; auto. specialize (Hf h2 (or_introl eq_refl)). assert (z = h2) by lia. left; auto.
          * exists v. split; [right; auto|]. split; auto. destruct Hd as [|(w & i & H1 & H2 & H3)]; [left; auto|].
            right. exists w, (S i). auto.
        + exists h. destruct Ha as [->|Ha].
          * split; [left; auto|]. split; [lia|]. right. exists h2, 0%nat. auto.
          * exfalso. destruct Ha as [->|Ha]; [lia|]. inversion Hr; subst. rewrite Forall_forall in H2. specialize (H2 a Ha). lia. }
    destruct (Hg s Hs first last) as (v & Hv & Hle & Hd); try apply Hin; auto.
    exists v. split; [apply Hin; auto|]. split; auto.
    assert (0 <= zmax (diff s)) as H0.
    { apply (diff_nonneg s Hs). apply zmax_In; auto. }
    destruct Hd as [->|(w & i & H1 & H2 & H3)]; [lia|].
    assert (In (w - v) (diff s)) as Hi by (apply (nth_error_In _ i); rewrite nth_error_diff, H1, H2; auto).
    pose proof (zmax_ge _ _ Hi). lia.
  - pose proof (zmax_In _ Hne) as Hz. rewrite Hm in Hz.
    apply In_nth_error in Hz as (i & Hi). rewrite nth_error_diff in Hi.
    destruct (nth_error s i) as [a|] eqn:Ea; [|discriminate]. destruct (nth_error s (S i)) as [b|] eqn:Eb; [|discriminate].
    inversion Hi; subst m. exists a, b.
    split; [apply Hin; eapply nth_error_In; eauto|]. split; [apply Hin; eapply nth_error_In; eauto|]. split; [lia|].
    intros v Hv. apply Hin in Hv. apply In_nth_error in Hv as (j & Hj).
    pose proof (sorted_nondecreasing s Hs) as Hnd.
    destruct (Nat.lt_trichotomy i j) as [Hl|[Hl|Hl]].
    + right. destruct (Nat.eq_dec j (S i)) as [->|]; [assert (v = b) by congruence; lia|].
      apply (Hnd (S i) j); auto. lia.
    + left. subst. assert (v = a) by congruence. lia.
    + left. apply (Hnd j i); auto.
Qed.

(** * TemplateExists *)
Lemma min_acc_from_nth m l i : nth_error (min_accumulate_from m l) i =
  if (i <? length l)%nat then Some (fold_left Z.min (firstn (S i) l) m) else None.
Proof.
  revert m i; induction l as [|h t IH]; intros m i; [destruct i; reflexivity|].
  destruct i as [|i]; [reflexivity|]. cbn [min_accumulate_from nth_error]. rewrite IH.
  change (S i <? length (h :: t))%nat with (i <? length t)%nat. reflexivity.
Qed.
Lemma fold_min_le l m x : (fold_left Z.min l m <=? x) = (m <=? x) || existsb (fun y => y <=? x) l.
Proof.
  revert m; induction l as [|h t IH]; intros m; simpl; [lia|]. rewrite IH. lia.
Qed.
Lemma min_accumulate_length l : length (min_accumulate l) = length l.
Proof.
  assert (forall m t, length (min_accumulate_from m t) = length t) as H.
  { intros m t; revert m; induction t; simpl; auto. }
  destruct l; simpl; auto.
Qed.
Lemma min_accumulate_nth l i y : nth_error (min_accumulate l) i = Some y ->
  forall x, (y <=? x) = existsb (fun z => z <=? x) (firstn (S i) l).
Proof.
  destruct l as [|h t]; [destruct i; discriminate|]. destruct i as [|i]; simpl.
  - intros H x; inversion H; subst. lia.
  - rewrite min_acc_from_nth. destruct (i <? length t)%nat; [|discriminate].
    intros H x; inversion H; subst. rewrite fold_min_le. reflexivity.
Qed.
Lemma roll1_tl l : l <> [] -> exists z, roll l 1 = z :: removelast l.
Proof.
  intros H. unfold roll. destruct (skipn_last l H) as (z & Hz & _). rewrite Hz. exists z. simpl. f_equal.
  clear. induction l as [|a t IH]; auto. destruct t as [|b t]; auto.
  change (removelast (a :: b :: t)) with (a :: removelast (b :: t)). rewrite <- IH. simpl length.
  replace (S (S (length t)) - 1)%nat with (S (S (length t) - 1)) by lia. reflexivity.
Qed.
Lemma template_count seeing : template_exists_run seeing =
  (countb (earlier_as_good seeing) (seq 0 (length seeing)), length seeing).
Proof.
  unfold template_exists_run. f_equal. destruct seeing as [|s0 t]; [reflexivity|].
  set (l := s0 :: t) in *. assert (l <> []) as Hl by discriminate.
  destruct (roll1_tl (min_accumulate l)) as (z & ->); [intros H; apply (f_equal (@length Z)) in H; rewrite min_accumulate_length in H; discriminate|].
  unfold l at 1. unfold zsub. cbn [combine map tl].
  change (length (filter (fun d => 0 <=? d) ?x)) with (countb (fun d => 0 <=? d) x).
  rewrite countb_map.
  change (seq 0 (length l)) with (0%nat :: seq 1 (length t)). rewrite countb_cons.
  change (earlier_as_good l 0) with false. cbn [Nat.add]. rewrite <- seq_shift, countb_map.
  (* pointwise along the positions *)
  assert (forall (m : list Z), length m = length t ->
    (forall i x y, nth_error t i = Some x -> nth_error m i = Some y -> (0 <=? x - y) = earlier_as_good l (S i)) ->
    countb (fun x : Z * Z => 0 <=? fst x - snd x) (combine t m) = countb (fun x => earlier_as_good l (S x)) (seq 0 (length t))) as Hg.
  { generalize (earlier_as_good l). clear. intros E. revert E. induction t as [|x t IH]; intros E [|y m] Hm Hn; try discriminate; auto.
    simpl. rewrite !countb_cons. cbn [fst snd]. rewrite (Hn 0%nat x y eq_refl eq_refl). f_equal.
    rewrite <- seq_shift, countb_map. apply (IH (fun i => E (S i))); [simpl in Hm; lia|].
    intros i a b Ha Hb. apply (Hn (S i)); auto. }
  apply Hg.
  - rewrite removelast_length, min_accumulate_length. simpl. lia.
  - intros i x y Hx Hy. rewrite nth_error_removelast, min_accumulate_length in Hy.
    destruct (S i <? length l)%nat; [|discriminate].
    unfold earlier_as_good. change (nth_error l (S i)) with (nth_error t i). rewrite Hx.
    rewrite <- (min_accumulate_nth l i y Hy x). lia.
Qed.

(** * Nightgaps with one night *)
Lemma nightgaps_one_night bins n k : nightgaps_run true bins (repeat n (S (S k))) = Err ValueError.
Proof.
  unfold nightgaps_run. rewrite repeat_length. cbn [Nat.ltb Nat.leb].
  assert (np_unique (repeat n (S (S k))) = [n]) as ->; [|reflexivity].
  assert (forall j, np_unique (repeat n (S j)) = [n]) as H; [|apply H].
  induction j as [|j IH]; [reflexivity|]. change (repeat n (S (S j))) with (n :: repeat n (S j)). cbn [np_unique].
  change (np_unique (n :: repeat n j)) with (np_unique (repeat n (S j))). rewrite IH. simpl.
  replace (n <? n) with false by lia. replace (n =? n) with true by lia. reflexivity.
Qed.
Lemma unique_length_le l : (length (np_unique l) <= length l)%nat.
Proof.
  induction l as [|a t IH]; auto. simpl.
  assert (forall x m, length (uinsert x m) <= S (length m))%nat as H.
  { intros x m; induction m as [|h m IHm]; simpl; auto. destruct (x <? h); simpl; [lia|]. destruct (x =? h); simpl; lia. }
  specialize (H a (np_unique t)). lia.
Qed.
Lemma nightgaps_two_nights bins col a b : In a col -> In b col -> a <> b -> monotone bins = true ->
  exists h, nightgaps_run true bins col = Ok (Some h) /\ length h = (length bins - 1)%nat /\
  forall k c, nth_error h k = Some c -> c = countb (fun p => hist_bin bins k (Z.abs (fst p - snd p))) (pairs (np_unique col)).
Proof.
  intros Ha Hb Hne Hm.
  assert (2 <= length (np_unique col))%nat as H2.
  { apply np_unique_In in Ha, Hb. destruct (np_unique col) as [|x [|y l]]; simpl; try lia; simpl in Ha, Hb; intuition congruence. }
  unfold nightgaps_run. pose proof (unique_length_le col). destruct (Nat.ltb_spec (length col) 2); [lia|].
  destruct (all_gaps_zsort (np_unique col) H2) as (dts & E & Hp). rewrite E. simpl.
  unfold np_histogram at 1. rewrite Hm. simpl. eexists. split; [reflexivity|].
  destruct (histogram_count dts bins (ndiff (map (ssl (zsort dts)) (removelast bins) ++ map (ssr (zsort dts)) (skipn (length bins - 1) bins)))) as [H3 H4];
    [unfold np_histogram; rewrite Hm; reflexivity|].
  split; auto. intros k c Hc. rewrite (H4 k c Hc). rewrite (countb_perm _ _ _ Hp), countb_map. reflexivity.
Qed.

(** * TgapsPercent *)
Lemma tgaps_percent_range ag lo hi col : (2 <= length col)%nat -> exists n d,
  tgaps_percent_run ag lo hi col = Ok (Some (n, d)) /\ (0 < d)%nat /\ (n <= d)%nat /\
  d = (if ag then length (pairs col) else length col - 1)%nat.
Proof.
  intros H. unfold tgaps_percent_run. replace (length col <? 2)%nat with false by lia.
  destruct ag.
  - destruct (all_gaps_zsort col H) as (dts & E & Hp). rewrite E. simpl. do 2 eexists. split; [reflexivity|].
    apply Permutation_length in Hp. rewrite map_length in Hp. pose proof (pairs_length col).
    repeat split; auto; [nia|]. apply countb_le.
  - simpl. do 2 eexists. split; [reflexivity|]. rewrite diff_length, zsort_length. repeat split; [lia|].
    rewrite <- (zsort_length col), <- diff_length. apply countb_le.
Qed.

Lemma tgaps_percent_all lo hi col n d : tgaps_percent_run true lo hi col = Ok (Some (n, d)) ->
  n = countb (fun p => (lo <=? Z.abs (fst p - snd p)) && (Z.abs (fst p - snd p) <=? hi)) (pairs col) /\ d = length (pairs col).
Proof.
  unfold tgaps_percent_run. destruct (Nat.ltb_spec (length col) 2) as [Hl|Hl]; [discriminate|].
  destruct (all_gaps_zsort col Hl) as (dts & E & Hp). rewrite E. simpl. intros X. injection X as <- <-.
  fold (countb (fun d => (lo <=? d) && (d <=? hi)) dts). rewrite (countb_perm _ _ _ Hp), countb_map. split; [reflexivity|].
  apply Permutation_length in Hp. rewrite map_length in Hp. exact Hp.
Qed.
Lemma tgaps_percent_consecutive lo hi col s g n d : time_ordered col s -> successive s g ->
  tgaps_percent_run false lo hi col = Ok (Some (n, d)) -> n = countb (fun x => (lo <=? x) && (x <=? hi)) g /\ d = length g.
Proof.
  intros Ht Hg. apply time_ordered_zsort in Ht. subst s. unfold tgaps_percent_run.
  destruct (Nat.ltb_spec (length col) 2); [discriminate|]. simpl.
  assert (g = diff (zsort col)) as ->.
  { destruct Hg as [Hl Hn]. apply nth_ext with (d := 0) (d' := 0).
    - rewrite diff_length. lia.
    - intros i Hlt. assert (exists a b, nth_error (zsort col) i = Some a /\ nth_error (zsort col) (S i) = Some b) as (a & b & Ea & Eb).
      { destruct (nth_error (zsort col) i) eqn:E1; [|apply nth_error_None in E1; lia].
        destruct (nth_error (zsort col) (S i)) eqn:E2; [|apply nth_error_None in E2; lia]. eauto. }
      rewrite (nth_error_nth _ _ 0 (Hn i a b Ea Eb)). symmetry. apply nth_error_nth. rewrite nth_error_diff, Ea, Eb. auto. }
  intros X. injection X as <- <-. split; reflexivity.
Qed.

Lemma nondecreasing_monotone l : nondecreasing l -> monotone l = true.
Proof.
  induction l as [|a t IH]; intros H; auto. destruct t as [|b t]; auto.
  change (monotone (a :: b :: t)) with ((a <=? b) && monotone (b :: t)).
  rewrite IH; [|intros i j x y Hij Hx Hy; apply (H (S i) (S j)); auto; lia].
  pose proof (H 0%nat 1%nat a b ltac:(lia) eq_refl eq_refl). lia.
Qed.
Lemma sorted_lt_NoDup l : StronglySorted Z.lt l -> NoDup l.
Proof.
  induction 1 as [|h t Hs IH Hf]; constructor; auto. intros Hin. rewrite Forall_forall in Hf. specialize (Hf h Hin). lia.
Qed.
