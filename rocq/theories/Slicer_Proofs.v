From Verif Require Import Base Slicer_Model Slicer_Spec.
From Coq Require Import Permutation Sorted Lia ZifyBool.
Open Scope Z_scope.

(** * searchsorted and slices *)
Section Sorted.
  Variable f : nat -> Z.
  Notation srt := (StronglySorted (fun i j => f i <= f j)).

  Lemma ssl_zero p a : Forall (fun i => a <= f i) p -> ssl (map f p) a = 0%nat.
  Proof. destruct p; simpl; auto. intros H; inversion H; subst. destruct (Z.leb_spec a (f n)); auto; lia. Qed.

  Lemma filter_none {A} (g : A -> bool) l : Forall (fun x => g x = false) l -> filter g l = [].
  Proof. induction 1; simpl; auto. rewrite H. auto. Qed.

  Lemma filter_all {A} (g : A -> bool) l : Forall (fun x => g x = true) l -> filter g l = l.
  Proof. induction 1; simpl; auto. rewrite H. congruence. Qed.

  Lemma slice_filter p a b : srt p ->
    pyslice p (ssl (map f p) a) (ssl (map f p) b) = filter (fun i => (a <=? f i) && (f i <? b)) p.
  Proof.
    induction 1 as [|h t Hs IH Hf]; [reflexivity|]. simpl ssl.
    destruct (Z.leb_spec a (f h)) as [Ha|Ha]; destruct (Z.leb_spec b (f h)) as [Hb|Hb].
    - symmetry. unfold pyslice; simpl. destruct (Z.ltb_spec (f h) b); [lia|]. rewrite andb_false_r.
      apply filter_none. eapply Forall_impl; [|exact Hf]. simpl; intros i Hi.
      destruct (Z.ltb_spec (f i) b); [lia|]. apply andb_false_r.
    - assert (ssl (map f t) a = 0%nat) as E.
      { apply ssl_zero. eapply Forall_impl; [|exact Hf]. simpl; intros; lia. }
      rewrite E in IH. simpl filter. destruct (Z.leb_spec a (f h)); [|lia]. destruct (Z.ltb_spec (f h) b); [|lia].
      simpl. rewrite <- IH. unfold pyslice. simpl. rewrite Nat.sub_0_r. reflexivity.
    - symmetry. simpl filter. destruct (Z.ltb_spec (f h) b); [lia|]. rewrite andb_false_r.
      unfold pyslice. rewrite Nat.sub_0_l. simpl.
      apply filter_none. eapply Forall_impl; [|exact Hf]. simpl; intros i Hi.
      destruct (Z.ltb_spec (f i) b); [lia|]. apply andb_false_r.
    - simpl filter. destruct (Z.leb_spec a (f h)); [lia|]. simpl. rewrite <- IH. reflexivity.
  Qed.

  Lemma slice_filter_ge p a : srt p ->
    pyslice p (ssl (map f p) a) (length p) = filter (fun i => a <=? f i) p.
  Proof.
    induction 1 as [|h t Hs IH Hf]; [reflexivity|]. simpl.
    destruct (Z.leb_spec a (f h)) as [Ha|Ha].
    - unfold pyslice. simpl. rewrite firstn_all. f_equal. symmetry. apply filter_all.
      eapply Forall_impl; [|exact Hf]. simpl; intros; lia.
    - rewrite <- IH. reflexivity.
  Qed.

  Lemma slice_filter_lt p b : srt p ->
    pyslice p 0 (ssl (map f p) b) = filter (fun i => f i <? b) p.
  Proof.
    induction 1 as [|h t Hs IH Hf]; [reflexivity|]. simpl.
    destruct (Z.leb_spec b (f h)) as [Hb|Hb].
    - destruct (Z.ltb_spec (f h) b); [lia|]. unfold pyslice; simpl. symmetry. apply filter_none.
      eapply Forall_impl; [|exact Hf]. simpl; intros; lia.
    - destruct (Z.ltb_spec (f h) b); [|lia]. rewrite <- IH. unfold pyslice; simpl. rewrite Nat.sub_0_r. reflexivity.
  Qed.
End Sorted.

Lemma pyslice_all {A} (l : list A) : pyslice l 0 (length l) = l.
Proof. unfold pyslice. simpl. rewrite Nat.sub_0_r. apply firstn_all. Qed.

Lemma argsort_sorted col perm : is_argsort col perm ->
  StronglySorted (fun i j => nth i col 0 <= nth j col 0) perm.
Proof.
  intros [_ H]. induction perm as [|h t IH]; constructor.
  - apply IH. intros i j a b Hij Ha Hb. apply (H (S i) (S j)); auto. lia.
  - apply Forall_forall. intros x Hx. apply In_nth_error in Hx as (n & Hn).
    apply (H 0%nat (S n)); auto. lia.
Qed.

Lemma argsort_In col perm v : is_argsort col perm ->
  In v perm <-> exists x, nth_error col v = Some x.
Proof.
  intros [H _]. split.
  - intros Hv. apply (Permutation_in v H) in Hv. apply in_seq in Hv.
    destruct (nth_error col v) eqn:E; eauto. apply nth_error_None in E. lia.
  - intros (x & Hx). apply (Permutation_in v (Permutation_sym H)). apply in_seq.
    assert (nth_error col v <> None) as Hn by congruence. apply nth_error_Some in Hn. lia.
Qed.

Lemma argsort_NoDup col perm : is_argsort col perm -> NoDup perm.
Proof. intros [H _]. eapply Permutation_NoDup; [apply Permutation_sym; exact H|]. apply seq_NoDup. Qed.

Lemma nth_of_error (col : list Z) v x : nth_error col v = Some x -> nth v col 0 = x.
Proof. intros H. apply nth_error_nth. auto. Qed.

(** membership in a filtered argsort *)
Lemma argsort_filter col perm (P : Z -> bool) v : is_argsort col perm ->
  In v (filter (fun i => P (nth i col 0)) perm) <-> exists x, nth_error col v = Some x /\ P x = true.
Proof.
  intros Ha. rewrite filter_In, (argsort_In col perm v Ha). split.
  - intros [(x & Hx) Hp]. exists x. rewrite (nth_of_error _ _ _ Hx) in Hp. auto.
  - intros (x & Hx & Hp). rewrite (nth_of_error _ _ _ Hx). eauto.
Qed.

(** * OneD *)
Lemma nth_error_removelast {A} (l : list A) i :
  nth_error (removelast l) i = if (S i <? length l)%nat then nth_error l i else None.
Proof.
  revert i; induction l as [|h t IH]; intros i; [destruct i; reflexivity|].
  destruct t as [|h2 t]; [destruct i; reflexivity|].
  change (removelast (h :: h2 :: t)) with (h :: removelast (h2 :: t)).
  destruct i as [|i]; [reflexivity|].
  change (nth_error (removelast (h2 :: t)) i = if (S (S i) <? S (length (h2 :: t)))%nat then nth_error (h2 :: t) i else None).
  rewrite IH. reflexivity.
Qed.

Lemma nth_error_combine {A B} (l1 : list A) (l2 : list B) i :
  nth_error (combine l1 l2) i =
  match nth_error l1 i, nth_error l2 i with Some a, Some b => Some (a, b) | _, _ => None end.
Proof.
  revert l2 i; induction l1 as [|a l1 IH]; intros [|b l2] [|i]; simpl; auto.
  destruct (nth_error l1 i); auto.
Qed.

Lemma nth_error_tl {A} (l : list A) i : nth_error (tl l) i = nth_error l (S i).
Proof. destruct l; simpl; auto. destruct i; auto. Qed.

Lemma removelast_length {A} (l : list A) : length (removelast l) = (length l - 1)%nat.
Proof.
  induction l as [|h t IH]; auto. destruct t as [|h2 t]; auto.
  change (removelast (h :: h2 :: t)) with (h :: removelast (h2 :: t)). simpl length in *. lia.
Qed.

Lemma oned_length col perm bins : length (oned_slices col perm bins) = (length bins - 1)%nat.
Proof.
  unfold oned_slices. rewrite map_length, combine_length, !map_length, removelast_length.
  destruct bins; simpl; lia.
Qed.

Lemma oned_at col perm bins i sl : is_argsort col perm ->
  nth_error (oned_slices col perm bins) i = Some sl ->
  exists a b, nth_error bins i = Some a /\ nth_error bins (S i) = Some b /\
    sl = filter (fun v => (a <=? nth v col 0) && (nth v col 0 <? b)) perm.
Proof.
  intros Ha H. unfold oned_slices in H. rewrite nth_error_map, nth_error_combine, !nth_error_map, nth_error_removelast, nth_error_tl in H.
  destruct (Nat.ltb_spec (S i) (length bins)) as [Hl|Hl]; [|discriminate].
  destruct (nth_error bins i) as [a|]; cbn [option_map] in H; [|discriminate].
  destruct (nth_error bins (S i)) as [b|]; cbn [option_map fst snd] in H; [|discriminate].
  inversion H; subst; clear H. exists a, b. repeat split; auto.
  unfold take. apply (slice_filter (fun i => nth i col 0)). apply argsort_sorted; auto.
Qed.

Lemma oned_membership col perm bins i sl : is_argsort col perm ->
  nth_error (oned_slices col perm bins) i = Some sl ->
  NoDup sl /\ forall v, In v sl <-> exists x, nth_error col v = Some x /\ in_bin bins i x.
Proof.
  intros Ha H. destruct (oned_at col perm bins i sl Ha H) as (a & b & E1 & E2 & ->). split.
  - apply NoDup_filter. eapply argsort_NoDup; eauto.
  - intros v. rewrite (argsort_filter col perm (fun x => (a <=? x) && (x <? b)) v Ha).
    split; intros (x & Hx & Hp); exists x; split; auto.
    + exists a, b. repeat split; auto; lia.
    + destruct Hp as (a' & b' & G1 & G2 & Hr). rewrite E1 in G1; rewrite E2 in G2.
      inversion G1; inversion G2; subst. lia.
Qed.

Lemma in_bin_unique edges i j x : nondecreasing edges -> in_bin edges i x -> in_bin edges j x -> i = j.
Proof.
  intros Hn (a & b & A1 & A2 & Hr) (a' & b' & B1 & B2 & Hr').
  destruct (Nat.lt_trichotomy i j) as [Hij|[Hij|Hij]]; auto; exfalso.
  - destruct (Nat.eq_dec (S i) j) as [<-|Hne].
    + rewrite A2 in B1; inversion B1; subst; lia.
    + assert (S i < j)%nat as Hlt by lia. pose proof (Hn _ _ _ _ Hlt A2 B1). lia.
  - destruct (Nat.eq_dec (S j) i) as [<-|Hne].
    + rewrite B2 in A1; inversion A1; subst; lia.
    + assert (S j < i)%nat as Hlt by lia. pose proof (Hn _ _ _ _ Hlt B2 A1). lia.
Qed.

Lemma in_bin_exists edges x : forall a b n, nth_error edges 0 = Some a -> length edges = S (S n) ->
  nth_error edges (S n) = Some b -> a <= x < b -> exists i, in_bin edges i x.
Proof.
  induction edges as [|e es IH]; intros a b n Ha Hl Hb Hr; [discriminate|].
  simpl in Ha; inversion Ha; subst e.
  destruct es as [|e2 es]; [simpl in Hl; lia|].
  destruct (Z.ltb_spec x e2) as [Hx|Hx].
  - exists 0%nat, a, e2. repeat split; auto; lia.
  - destruct n as [|n].
    + destruct es; [|simpl in Hl; lia]. simpl in Hb. inversion Hb; subst. lia.
    + destruct (IH e2 b n) as (i & a' & b' & G1 & G2 & G3); auto; try lia.
      exists (S i), a', b'. auto.
Qed.

Lemma oned_nth col perm bins i : (S i < length bins)%nat -> exists sl, nth_error (oned_slices col perm bins) i = Some sl.
Proof.
  intros H. destruct (nth_error (oned_slices col perm bins) i) eqn:E; eauto.
  apply nth_error_None in E. rewrite oned_length in E. lia.
Qed.

Lemma oned_partition col perm bins first last n v x :
  is_argsort col perm -> nondecreasing bins ->
  nth_error bins 0 = Some first -> length bins = S (S n) -> nth_error bins (S n) = Some last ->
  nth_error col v = Some x ->
  (first <= x < last <-> exists i, (i <= n)%nat /\ (exists sl, nth_error (oned_slices col perm bins) i = Some sl /\ In v sl)) /\
  (forall i j si sj, nth_error (oned_slices col perm bins) i = Some si -> nth_error (oned_slices col perm bins) j = Some sj ->
     In v si -> In v sj -> i = j).
Proof.
  intros Ha Hn Hf Hlen Hl Hx. split; [split|].
  - intros Hr. destruct (in_bin_exists bins x first last n Hf Hlen Hl Hr) as (i & Hi).
    assert (S i < length bins)%nat as Hlt.
    { destruct Hi as (a & b & _ & E & _). apply nth_error_Some. congruence. }
    exists i. split; [lia|]. destruct (oned_nth col perm bins i Hlt) as (sl & Hsl). exists sl; split; auto.
    apply (oned_membership col perm bins i sl Ha Hsl). eauto.
  - intros (i & Hi & sl & Hsl & Hv). apply (oned_membership col perm bins i sl Ha Hsl) in Hv as (x' & Hx' & a & b & A1 & A2 & Hr).
    rewrite Hx in Hx'; inversion Hx'; subst x'. split.
    + destruct i as [|i]; [rewrite Hf in A1; inversion A1; lia|].
      assert (0 < S i)%nat as Hlt by lia. pose proof (Hn _ _ _ _ Hlt Hf A1). lia.
    + destruct (Nat.eq_dec i n) as [->|Hne]; [rewrite Hl in A2; inversion A2; lia|].
      assert (S i < S n)%nat as Hlt by lia. pose proof (Hn _ _ _ _ Hlt A2 Hl). lia.
  - intros i j si sj Hi Hj Hvi Hvj.
    apply (oned_membership col perm bins i si Ha Hi) in Hvi as (x1 & E1 & B1).
    apply (oned_membership col perm bins j sj Ha Hj) in Hvj as (x2 & E2 & B2).
    rewrite Hx in E1, E2; inversion E1; inversion E2; subst. eapply in_bin_unique; eauto.
Qed.

(** visits at the last edge are never delivered *)
Lemma oned_last_edge_lost col perm bins last n v :
  is_argsort col perm -> nondecreasing bins -> length bins = S (S n) ->
  nth_error bins (S n) = Some last -> nth_error col v = Some last ->
  forall i sl, nth_error (oned_slices col perm bins) i = Some sl -> ~ In v sl.
Proof.
  intros Ha Hn Hlen Hl Hx i sl Hsl Hv.
  apply (oned_membership col perm bins i sl Ha Hsl) in Hv as (x & E & a & b & A1 & A2 & Hr).
  rewrite Hx in E; inversion E; subst x.
  assert (S i < length bins)%nat as Hlt by (apply nth_error_Some; congruence).
  destruct (Nat.eq_dec i n) as [->|Hne]; [rewrite Hl in A2; inversion A2; lia|].
  assert (S i < S n)%nat as Hlt2 by lia. pose proof (Hn _ _ _ _ Hlt2 A2 Hl). lia.
Qed.

(** bins chosen from the data *)
Lemma nth_error_arange lo hi step i x : nth_error (arange_half lo hi step) i = Some x ->
  x = lo + Z.of_nat i * step.
Proof.
  unfold arange_half. rewrite nth_error_map. intros H.
  match type of H with option_map _ (nth_error (seq 0 ?n) i) = _ => destruct (nth_error (seq 0 n) i) eqn:E end; [|discriminate].
  simpl in H. inversion H; subst. clear H.
  assert (i < length (seq 0 (Z.to_nat ((2 * (hi - lo) + step + (2 * step - 1)) / (2 * step)))))%nat as Hl.
  { apply nth_error_Some. congruence. }
  rewrite seq_length in Hl. rewrite (nth_error_nth' _ 0%nat) in E by (rewrite seq_length; auto).
  rewrite seq_nth in E by auto. inversion E. reflexivity.
Qed.

Lemma arange_nondecreasing lo hi step : 0 <= step -> nondecreasing (arange_half lo hi step).
Proof. intros Hs i j a b Hij Ha Hb. apply nth_error_arange in Ha, Hb. subst. nia. Qed.

Lemma arange_exact lo hi step n : 0 < step -> step * Z.of_nat (S n) = hi - lo ->
  length (arange_half lo hi step) = S (S n) /\ nth_error (arange_half lo hi step) (S n) = Some hi.
Proof.
  intros Hs He.
  assert (Z.to_nat ((2 * (hi - lo) + step + (2 * step - 1)) / (2 * step)) = S (S n)) as Hlen.
  { replace ((2 * (hi - lo) + step + (2 * step - 1)) / (2 * step)) with (Z.of_nat (S (S n))); [lia|].
    apply Z.div_unique with (r := step - 1); lia. }
  assert (length (arange_half lo hi step) = S (S n)) as Hl.
  { unfold arange_half. rewrite map_length, seq_length. exact Hlen. }
  split; auto.
  destruct (nth_error (arange_half lo hi step) (S n)) as [x|] eqn:E.
  - apply nth_error_arange in E. f_equal. lia.
  - apply nth_error_None in E. lia.
Qed.

Lemma zmax_ge l x : In x l -> x <= zmax l.
Proof.
  unfold zmax. generalize (hd 0 l). induction l as [|h t IH]; intros d [].
  - subst. simpl. lia.
  - simpl. specialize (IH d H). lia.
Qed.

Lemma zmin_le l x : In x l -> zmin l <= x.
Proof.
  unfold zmin. generalize (hd 0 l). induction l as [|h t IH]; intros d [].
  - subst. simpl. lia.
  - simpl. specialize (IH d H). lia.
Qed.

Lemma zmax_In l : l <> [] -> In (zmax l) l.
Proof.
  unfold zmax. destruct l as [|h t]; [tauto|]. intros _.
  assert (forall t d, In (fold_right Z.max d t) (d :: t)) as Hg.
  { clear. induction t as [|x t IH]; intros d; simpl; auto.
    destruct (Z.max_spec x (fold_right Z.max d t)) as [[_ E]|[_ E]]; rewrite E; auto.
    destruct (IH d) as [H|H]; auto. }
  destruct (Hg (h :: t) h) as [H|H]; simpl hd; [rewrite <- H at 1; simpl; auto|exact H].
Qed.

Lemma oned_auto_max_lost col perm size nbins v x :
  is_argsort col perm -> zmin col < zmax col -> 0 < size -> size * Z.of_nat (S nbins) = zmax col - zmin col ->
  nth_error col v = Some x -> (forall y, In y col -> y <= x) ->
  forall i sl, nth_error (oned_slices col perm (oned_auto_bins col size)) i = Some sl -> ~ In v sl.
Proof.
  intros Ha Hlt Hs He Hx Hmax.
  assert (x = zmax col) as ->.
  { assert (In x col) as Hin by (eapply nth_error_In; eauto).
    apply Z.le_antisymm; [apply zmax_ge; auto|]. apply Hmax, zmax_In. intros ->. destruct v; discriminate. }
  unfold oned_auto_bins, oned_auto_max. destruct (Z.eqb_spec (zmin col) (zmax col)); [lia|].
  destruct (arange_exact (zmin col) (zmax col) size nbins Hs) as [Hl Hn]; [lia|].
  intros i sl. eapply oned_last_edge_lost; eauto. apply arange_nondecreasing; lia.
Qed.

(** * Sorting of edges *)
Lemma zinsert_perm x l : Permutation (zinsert x l) (x :: l).
Proof.
  induction l as [|h t IH]; simpl; auto. destruct (x <=? h); auto.
  rewrite IH. apply perm_swap.
Qed.
Lemma zsort_perm l : Permutation (zsort l) l.
Proof. induction l as [|h t IH]; simpl; auto. rewrite zinsert_perm. auto. Qed.
Lemma zinsert_sorted x l : StronglySorted Z.le l -> StronglySorted Z.le (zinsert x l).
Proof.
  induction 1 as [|h t Hs IH Hf]; simpl; [repeat constructor|].
  destruct (Z.leb_spec x h).
  - constructor; [constructor; auto|]. constructor; auto. eapply Forall_impl; [|exact Hf]. simpl; intros; lia.
  - constructor; auto. apply (Permutation_Forall (Permutation_sym (zinsert_perm x t))). constructor; auto. lia.
Qed.
Lemma zsort_sorted l : StronglySorted Z.le (zsort l).
Proof. induction l; simpl; [constructor|]. apply zinsert_sorted; auto. Qed.
Lemma sorted_nondecreasing l : StronglySorted Z.le l -> nondecreasing l.
Proof.
  induction 1 as [|h t Hs IH Hf]; intros i j a b Hij Ha Hb; [destruct i; discriminate|].
  destruct i as [|i], j as [|j]; simpl in *; try lia.
  - inversion Ha; subst. rewrite Forall_forall in Hf. apply Hf. eapply nth_error_In; eauto.
  - eapply (IH i j); eauto. lia.
Qed.
Lemma zsort_length l : length (zsort l) = length l.
Proof. apply Permutation_length, zsort_perm. Qed.

(** * ND *)
Lemma lefts_bin col perm edges k a : is_argsort col perm ->
  (S k < length edges)%nat -> nth_error edges k = Some a ->
  let lefts := map (ssl (take col perm)) (removelast edges) ++ [length perm] in
  pyslice perm (nth k lefts 0%nat) (nth (S k) lefts 0%nat) =
  filter (fun v => (a <=? nth v col 0) &&
                   (if (S (S k) <? length edges)%nat then nth v col 0 <? nth (S k) edges 0 else true)) perm.
Proof.
  intros Ha Hk Hek lefts.
  assert (nth k lefts 0%nat = ssl (take col perm) a) as E1.
  { apply nth_error_nth. unfold lefts. rewrite nth_error_app1.
    - rewrite nth_error_map, nth_error_removelast.
      destruct (Nat.ltb_spec (S k) (length edges)); [|lia]. rewrite Hek. reflexivity.
    - rewrite map_length, removelast_length. lia. }
  rewrite E1. destruct (Nat.ltb_spec (S (S k)) (length edges)) as [Hl|Hl].
  - assert (nth (S k) lefts 0%nat = ssl (take col perm) (nth (S k) edges 0)) as E2.
    { apply nth_error_nth. unfold lefts. rewrite nth_error_app1.
      - rewrite nth_error_map, nth_error_removelast.
        destruct (Nat.ltb_spec (S (S k)) (length edges)); [|lia].
        rewrite (nth_error_nth' edges 0) by lia. reflexivity.
      - rewrite map_length, removelast_length. lia. }
    rewrite E2. unfold take. rewrite (slice_filter (fun i => nth i col 0)) by (apply argsort_sorted; auto). reflexivity.
  - assert (nth (S k) lefts 0%nat = length perm) as E2.
    { apply nth_error_nth. unfold lefts. rewrite nth_error_app2; rewrite map_length, removelast_length; [|lia].
      replace (S k - (length edges - 1))%nat with 0%nat by lia. reflexivity. }
    rewrite E2. unfold take. rewrite (slice_filter_ge (fun i => nth i col 0)) by (apply argsort_sorted; auto).
    apply filter_ext. intros i. rewrite andb_true_r. reflexivity.
Qed.

Lemma open_bin_slice col perm edges k v : is_argsort col perm -> (S k < length edges)%nat ->
  let lefts := map (ssl (take col perm)) (removelast edges) ++ [length perm] in
  NoDup (pyslice perm (nth k lefts 0%nat) (nth (S k) lefts 0%nat)) /\
  (In v (pyslice perm (nth k lefts 0%nat) (nth (S k) lefts 0%nat)) <->
   exists x, nth_error col v = Some x /\ in_open_bin edges k x).
Proof.
  intros Ha Hk lefts.
  destruct (nth_error edges k) as [a|] eqn:Ea; [|apply nth_error_None in Ea; lia].
  unfold lefts. rewrite (lefts_bin col perm edges k a Ha Hk Ea). split.
  { apply NoDup_filter. eapply argsort_NoDup; eauto. }
  rewrite (argsort_filter col perm (fun x => (a <=? x) && (if (S (S k) <? length edges)%nat then x <? nth (S k) edges 0 else true)) v Ha).
  split; intros (x & Hx & Hp); exists x; split; auto.
  - split; auto. exists a. repeat split; auto; [lia|]. intros Hl.
    exists (nth (S k) edges 0). split; [apply nth_error_nth'; lia|].
    destruct (Nat.ltb_spec (S (S k)) (length edges)); lia.
  - destruct Hp as (_ & a' & E & Hle & Hup). rewrite Ea in E; inversion E; subst a'.
    destruct (Nat.ltb_spec (S (S k)) (length edges)) as [Hl|Hl]; [|lia].
    destruct (Hup Hl) as (b & Hb & Hlt). rewrite (nth_error_nth _ _ 0 Hb). lia.
Qed.

Lemma in_open_bin_unique edges i j x : nondecreasing edges -> in_open_bin edges i x -> in_open_bin edges j x -> i = j.
Proof.
  assert (forall i j, nondecreasing edges -> in_open_bin edges i x -> in_open_bin edges j x -> (i < j)%nat -> False) as Hg.
  { clear. intros i j Hn (Hi & a & A1 & A2 & A3) (Hj & a' & B1 & B2 & B3) Hij.
    destruct A3 as (b & E & Hb); [lia|].
    destruct (Nat.eq_dec (S i) j) as [<-|Hne].
    - rewrite E in B1; inversion B1; subst; lia.
    - assert (S i < j)%nat as Hlt by lia. pose proof (Hn _ _ _ _ Hlt E B1). lia. }
  intros Hn H1 H2. destruct (Nat.lt_trichotomy i j) as [H|[H|H]]; auto; exfalso; eauto.
Qed.

Lemma in_open_bin_exists edges x first : nth_error edges 0 = Some first -> (2 <= length edges)%nat -> first <= x ->
  exists i, in_open_bin edges i x.
Proof.
  revert first; induction edges as [|e es IH]; intros first Hf Hl Hx; [discriminate|].
  simpl in Hf. inversion Hf; subst e. destruct es as [|e2 es]; [simpl in Hl; lia|].
  destruct es as [|e3 es].
  - exists 0%nat. split; [simpl; lia|]. exists first. repeat split; auto. simpl. lia.
  - destruct (Z.ltb_spec x e2) as [Hx2|Hx2].
    + exists 0%nat. split; [simpl; lia|]. exists first. repeat split; auto. intros _. exists e2. auto.
    + destruct (IH e2) as (i & Hi & a & A1 & A2 & A3); auto; [simpl; lia|].
      exists (S i). split; [simpl in *; lia|]. exists a. repeat split; auto. intros Hl2. apply A3. simpl in *; lia.
Qed.

Lemma in_open_bin_first edges i x first : nondecreasing edges -> nth_error edges 0 = Some first ->
  in_open_bin edges i x -> first <= x.
Proof.
  intros Hn Hf (Hi & a & A1 & A2 & _). destruct i as [|i].
  - rewrite Hf in A1; inversion A1; lia.
  - assert (0 < S i)%nat as Hlt by lia. pose proof (Hn _ _ _ _ Hlt Hf A1). lia.
Qed.

(** ** product and row-major numbering *)
Lemma product_length {A} (ls : list (list A)) :
  length (product ls) = fold_right Nat.mul 1%nat (map (@length A) ls).
Proof.
  induction ls as [|l ls IH]; simpl; auto.
  rewrite <- IH. generalize (product ls). intros P. induction l as [|x l IHl]; simpl; auto.
  rewrite app_length, map_length, IHl. reflexivity.
Qed.

Lemma nth_error_flat_map_block {A B} (g : A -> list B) (l : list A) m : (forall x, length (g x) = m) ->
  forall k x r, nth_error l k = Some x -> (r < m)%nat -> nth_error (flat_map g l) (k * m + r) = nth_error (g x) r.
Proof.
  intros Hm. induction l as [|h t IH]; intros k x r Hk Hr; [destruct k; discriminate|].
  destruct k as [|k]; simpl in Hk.
  - inversion Hk; subst. simpl. apply nth_error_app1. rewrite Hm. auto.
  - simpl flat_map. rewrite nth_error_app2; rewrite Hm; [|simpl; lia].
    replace (S k * m + r - m)%nat with (k * m + r)%nat by (simpl; lia). apply IH; auto.
Qed.

Lemma row_major_lt ns ks : Forall2 lt ks ns -> (row_major ns ks < fold_right Nat.mul 1 ns)%nat.
Proof. induction 1; simpl; [lia|]. nia. Qed.

Lemma product_row_major ns ks : Forall2 lt ks ns ->
  nth_error (product (map (seq 0) ns)) (row_major ns ks) = Some ks.
Proof.
  induction 1 as [|k n ks ns Hk Hf IH]; [reflexivity|]. cbn [map product row_major].
  pose proof (row_major_lt ns ks Hf) as Hr.
  assert (length (product (map (seq 0) ns)) = fold_right Nat.mul 1%nat ns) as Hlen.
  { rewrite product_length. f_equal. rewrite map_map. erewrite map_ext; [apply map_id|]. intros; apply seq_length. }
  rewrite nth_error_flat_map_block with (m := fold_right Nat.mul 1%nat ns) (x := k).
  - rewrite nth_error_map, IH. reflexivity.
  - intros x. rewrite map_length. exact Hlen.
  - rewrite (nth_error_nth' _ 0%nat) by (rewrite seq_length; auto). rewrite seq_nth; auto.
  - exact Hr.
Qed.

Lemma row_major_surj ns i : (i < fold_right Nat.mul 1 ns)%nat ->
  exists ks, Forall2 lt ks ns /\ row_major ns ks = i.
Proof.
  revert i; induction ns as [|n ns IH]; intros i Hi.
  - simpl in Hi. exists []. split; [constructor|simpl; lia].
  - simpl in Hi. set (m := fold_right Nat.mul 1%nat ns) in *.
    assert (m <> 0)%nat as Hm by (intros E; rewrite E in Hi; lia).
    destruct (IH (i mod m)%nat) as (ks & Hks & E). { apply Nat.mod_upper_bound; auto. }
    exists (i / m :: ks)%nat. split.
    + constructor; auto. apply Nat.div_lt_upper_bound; auto. lia.
    + simpl. fold m. rewrite E. pose proof (Nat.div_mod i m Hm). lia.
Qed.

Lemma row_major_inj ns ks ks' : Forall2 lt ks ns -> Forall2 lt ks' ns ->
  row_major ns ks = row_major ns ks' -> ks = ks'.
Proof.
  intros H H' E. pose proof (product_row_major ns ks H) as P. pose proof (product_row_major ns ks' H') as P'.
  rewrite E in P. congruence.
Qed.

(** ** cells *)

Lemma nd_bin_idxs_sides ds : nd_bin_idxs ds = product (map (seq 0) (sides ds)).
Proof.
  unfold nd_bin_idxs, sides. rewrite map_map. f_equal. apply map_ext. intros d.
  unfold d_edges. rewrite removelast_length, zsort_length. reflexivity.
Qed.

Lemma nd_nslice_sides ds : nd_nslice ds = fold_right Nat.mul 1%nat (sides ds).
Proof. unfold nd_nslice, sides, d_edges. f_equal. apply map_ext. intros d. rewrite zsort_length. auto. Qed.

Lemma d_idxs_spec d k v : dim_ok d -> (k < length (d_bins d) - 1)%nat ->
  NoDup (d_idxs d k) /\
  (In v (d_idxs d k) <-> exists x, nth_error (d_col d) v = Some x /\ in_open_bin (zsort (d_bins d)) k x).
Proof.
  intros [Ha Hl] Hk. unfold d_idxs, d_lefts, d_edges. apply open_bin_slice; auto. rewrite zsort_length. lia.
Qed.

Lemma nmemb_In x l : nmemb x l = true <-> In x l.
Proof.
  unfold nmemb. rewrite existsb_exists. split.
  - intros (y & Hy & E). apply Nat.eqb_eq in E. subst; auto.
  - intros H. exists x. split; auto. apply Nat.eqb_refl.
Qed.

Lemma set_intersection_spec ls sl : set_intersection ls = Ok sl ->
  NoDup sl /\ forall v, In v sl <-> Forall (In v) ls.
Proof.
  destruct ls as [|l ls]; simpl; intros H; inversion H; subst; clear H. split.
  - apply NoDup_filter, NoDup_nodup.
  - intros v. rewrite filter_In, nodup_In, forallb_forall. split.
    + intros [H1 H2]. constructor; auto. apply Forall_forall. intros l' Hl'. apply nmemb_In; auto.
    + intros H; inversion H; subst. split; auto. intros l' Hl'. apply nmemb_In. rewrite Forall_forall in H3; auto.
Qed.


Lemma nd_cell ds ks : ds <> [] -> Forall dim_ok ds -> Forall2 lt ks (sides ds) ->
  exists sl, nd_slice ds (row_major (sides ds) ks) = Ok sl /\ NoDup sl /\
    forall v, In v sl <-> Forall2 (cell_member v) ds ks.
Proof.
  intros Hne Hok Hks. unfold nd_slice. rewrite nd_bin_idxs_sides, (product_row_major _ _ Hks).
  assert (exists sl, set_intersection (map (fun dk => d_idxs (fst dk) (snd dk)) (combine ds ks)) = Ok sl) as (sl & Hsl).
  { destruct ds as [|d ds]; [tauto|]. inversion Hks; subst. simpl. eauto. }
  exists sl. split; auto. apply set_intersection_spec in Hsl as [Hnd Hin]. split; auto.
  intros v. rewrite Hin. clear Hin Hnd sl Hne. revert ks Hks. induction Hok as [|d ds Hd Hok IH]; intros ks Hks.
  - inversion Hks; subst. simpl. split; constructor.
  - inversion Hks as [|k n ks' ns Hk Hks']; subst. simpl. rewrite Forall_cons_iff, (IH _ Hks').
    rewrite (proj2 (d_idxs_spec d k v Hd Hk)). split.
    + intros [H1 H2]; constructor; auto.
    + intros H; inversion H; subst; auto.
Qed.

Lemma cell_unique ds v ks ks' : Forall2 (cell_member v) ds ks -> Forall2 (cell_member v) ds ks' -> ks = ks'.
Proof.
  intros H. revert ks'. induction H as [|d k ds ks (x & Hx & Hb) H IH]; intros ks' H'; inversion H' as [|? k' ? ks2 (x' & Hx' & Hb')]; subst; auto.
  f_equal; auto. rewrite Hx in Hx'; inversion Hx'; subst.
  eapply in_open_bin_unique; eauto. apply sorted_nondecreasing, zsort_sorted.
Qed.


Lemma zsort_first l first : In first l -> (forall e, In e l -> first <= e) -> nth_error (zsort l) 0 = Some first.
Proof.
  intros Hi Hm. pose proof (zsort_perm l) as Hp. pose proof (zsort_sorted l) as Hs.
  destruct (zsort l) as [|h t].
  - apply Permutation_nil in Hp. subst. destruct Hi.
  - simpl. f_equal. apply Z.le_antisymm.
    + apply (Permutation_in first (Permutation_sym Hp)) in Hi. destruct Hi as [->|Hi]; [lia|].
      inversion Hs as [|? ? _ Hf]; subst. rewrite Forall_forall in Hf. auto.
    + apply Hm. apply (Permutation_in h Hp). simpl; auto.
Qed.

Lemma list_min_exists (l : list Z) : l <> [] -> exists m, In m l /\ forall e, In e l -> m <= e.
Proof.
  induction l as [|h t IH]; [tauto|]. intros _. destruct t as [|h2 t].
  - exists h. simpl. split; auto. intros e [->|[]]; lia.
  - destruct IH as (m & Hm & Hmin); [discriminate|]. destruct (Z.leb_spec h m).
    + exists h. split; [simpl; auto|]. intros e [->|He]; [lia|]. specialize (Hmin e He). lia.
    + exists m. split; [right; auto|]. intros e [->|He]; [lia|]. auto.
Qed.

Lemma nd_each_visit ds v : ds <> [] -> Forall dim_ok ds ->
  (Forall (above_first v) ds <->
     exists i sl, (i < nd_nslice ds)%nat /\ nd_slice ds i = Ok sl /\ In v sl) /\
  (forall i j si sj, (i < nd_nslice ds)%nat -> (j < nd_nslice ds)%nat ->
     nd_slice ds i = Ok si -> nd_slice ds j = Ok sj -> In v si -> In v sj -> i = j).
Proof.
  intros Hne Hok. split; [split|].
  - intros Hab.
    assert (exists ks, Forall2 lt ks (sides ds) /\ Forall2 (cell_member v) ds ks) as (ks & Hks & Hc).
    { clear Hne. induction Hab as [|d ds (x & first & Hx & Hf & Hmin & Hle) Hab IH].
      - exists []. split; constructor.
      - inversion Hok as [|? ? [Ha Hl] Hok']; subst. destruct (IH Hok') as (ks & K1 & K2).
        destruct (in_open_bin_exists (zsort (d_bins d)) x first) as (k & Hk); auto.
        { apply zsort_first; auto. } { rewrite zsort_length; auto. }
        exists (k :: ks). split; constructor; auto.
        + destruct Hk as [Hk _]. rewrite zsort_length in Hk. lia.
        + exists x; auto. }
    destruct (nd_cell ds ks Hne Hok Hks) as (sl & E & _ & Hin).
    exists (row_major (sides ds) ks), sl. split; [rewrite nd_nslice_sides; apply row_major_lt; auto|].
    split; auto. apply Hin; auto.
  - intros (i & sl & Hi & E & Hv). rewrite nd_nslice_sides in Hi.
    destruct (row_major_surj _ _ Hi) as (ks & Hks & <-).
    destruct (nd_cell ds ks Hne Hok Hks) as (sl' & E' & _ & Hin). rewrite E in E'; inversion E'; subst sl'.
    apply Hin in Hv. clear -Hv Hok. induction Hv as [|d k ds ks (x & Hx & Hb) Hv IH]; constructor.
    + inversion Hok as [|? ? [Ha Hl] _]; subst.
      destruct (list_min_exists (d_bins d)) as (m & Hm & Hmin). { intros E; rewrite E in Hl; simpl in Hl; lia. }
      exists x, m. repeat split; auto. eapply in_open_bin_first; [| |exact Hb].
      * apply sorted_nondecreasing, zsort_sorted.
      * apply zsort_first; auto.
    + apply IH. inversion Hok; auto.
  - intros i j si sj Hi Hj Ei Ej Hvi Hvj. rewrite nd_nslice_sides in Hi, Hj.
    destruct (row_major_surj _ _ Hi) as (ks & Hks & <-). destruct (row_major_surj _ _ Hj) as (ks' & Hks' & <-).
    destruct (nd_cell ds ks Hne Hok Hks) as (s1 & E1 & _ & H1). rewrite Ei in E1; inversion E1; subst s1.
    destruct (nd_cell ds ks' Hne Hok Hks') as (s2 & E2 & _ & H2). rewrite Ej in E2; inversion E2; subst s2.
    f_equal. eapply cell_unique; [apply H1|apply H2]; eauto.
Qed.

(** * Movie *)
Lemma movie_nth_left col perm bins k : (S k < length bins)%nat ->
  nth k (movie_left col perm bins) 0%nat = ssl (take col perm) (nth k bins 0).
Proof.
  intros H. apply nth_error_nth. unfold movie_left. rewrite nth_error_app1.
  - rewrite nth_error_map, nth_error_removelast. destruct (Nat.ltb_spec (S k) (length bins)); [|lia].
    rewrite (nth_error_nth' bins 0) by lia. reflexivity.
  - rewrite map_length, removelast_length. lia.
Qed.
Lemma movie_last_left col perm bins k : length bins = S k -> nth k (movie_left col perm bins) 0%nat = length perm.
Proof.
  intros H. apply nth_error_nth. unfold movie_left.
  rewrite nth_error_app2; rewrite map_length, removelast_length; [|lia].
  replace (k - (length bins - 1))%nat with 0%nat by lia. reflexivity.
Qed.

Lemma movie_cumulative col perm bins i v : is_argsort col perm -> (i < movie_nslice bins)%nat ->
  NoDup (movie_slice true col perm bins i) /\
  (In v (movie_slice true col perm bins i) <->
   exists x, nth_error col v = Some x /\
     ((S (S i) < length bins)%nat -> exists b, nth_error bins (S i) = Some b /\ x < b)).
Proof.
  intros Ha Hi. unfold movie_nslice in Hi. unfold movie_slice.
  destruct (Nat.eq_dec (S (S i)) (length bins)) as [El|Hl].
  - rewrite movie_last_left by auto. rewrite pyslice_all. split; [eapply argsort_NoDup; eauto|].
    rewrite (argsort_In col perm v Ha). split; intros (x & Hx); exists x; [split; auto; lia|tauto].
  - rewrite movie_nth_left by lia. unfold take.
    rewrite (slice_filter_lt (fun i => nth i col 0)) by (apply argsort_sorted; auto).
    split; [apply NoDup_filter; eapply argsort_NoDup; eauto|].
    rewrite (argsort_filter col perm (fun x => x <? nth (S i) bins 0) v Ha).
    split; intros (x & Hx & Hp); exists x; split; auto.
    + intros _. exists (nth (S i) bins 0). split; [apply nth_error_nth'; lia|lia].
    + destruct Hp as (b & Hb & Hlt); [lia|]. rewrite (nth_error_nth _ _ 0 Hb). lia.
Qed.

Lemma movie_plain col perm bins i v : is_argsort col perm -> (i < movie_nslice bins)%nat ->
  NoDup (movie_slice false col perm bins i) /\
  (In v (movie_slice false col perm bins i) <->
   exists x, nth_error col v = Some x /\ in_open_bin bins i x).
Proof.
  intros Ha Hi. unfold movie_nslice in Hi. unfold movie_slice, movie_left. apply open_bin_slice; auto. lia.
Qed.

Lemma movie_grows col perm bins i j v : is_argsort col perm -> nondecreasing bins ->
  (i <= j)%nat -> (j < movie_nslice bins)%nat ->
  In v (movie_slice true col perm bins i) -> In v (movie_slice true col perm bins j).
Proof.
  intros Ha Hn Hij Hj Hv. unfold movie_nslice in Hj.
  apply movie_cumulative in Hv; auto; [|unfold movie_nslice; lia].
  apply movie_cumulative; auto. destruct Hv as (x & Hx & Hb). exists x; split; auto.
  intros Hl. destruct Hb as (b & Eb & Hlt); [lia|].
  exists (nth (S j) bins 0). split; [apply nth_error_nth'; lia|].
  destruct (Nat.eq_dec i j) as [->|Hne].
  - rewrite (nth_error_nth _ _ 0 Eb). auto.
  - assert (S i < S j)%nat as H1 by lia.
    assert (nth_error bins (S j) = Some (nth (S j) bins 0)) as H2 by (apply nth_error_nth'; lia).
    pose proof (Hn _ _ _ _ H1 Eb H2). lia.
Qed.

Lemma movie_plain_partition col perm bins v x first : is_argsort col perm -> nondecreasing bins ->
  (2 <= length bins)%nat -> nth_error bins 0 = Some first -> nth_error col v = Some x ->
  (first <= x <-> exists i, (i < movie_nslice bins)%nat /\ In v (movie_slice false col perm bins i)) /\
  (forall i j, (i < movie_nslice bins)%nat -> (j < movie_nslice bins)%nat ->
     In v (movie_slice false col perm bins i) -> In v (movie_slice false col perm bins j) -> i = j).
Proof.
  intros Ha Hn Hl Hf Hx. split; [split|].
  - intros Hle. destruct (in_open_bin_exists bins x first Hf Hl Hle) as (i & Hi).
    assert (i < movie_nslice bins)%nat by (destruct Hi; unfold movie_nslice; lia).
    exists i. split; auto. apply movie_plain; auto. eauto.
  - intros (i & Hi & Hv). apply movie_plain in Hv; auto. destruct Hv as (x' & Hx' & Hb).
    rewrite Hx in Hx'; inversion Hx'; subst. eapply in_open_bin_first; eauto.
  - intros i j Hi Hj Hvi Hvj. apply movie_plain in Hvi, Hvj; auto.
    destruct Hvi as (x1 & E1 & B1). destruct Hvj as (x2 & E2 & B2). rewrite Hx in E1, E2; inversion E1; inversion E2; subst.
    eapply in_open_bin_unique; eauto.
Qed.

(** * Iteration *)
Lemma for_loop_S nslice f st : for_loop nslice (S f) st =
  match do_next nslice st with
  | (None, st') => ([], true, st')
  | (Some i, st') => let '(l, b, st'') := for_loop nslice f st' in (i :: l, b, st'')
  end.
Proof. reflexivity. Qed.

Lemma for_loop_from nslice k i : (k + i = nslice)%nat ->
  for_loop nslice (S k) {| islice := i |} = (seq i k, true, {| islice := nslice |}).
Proof.
  revert i; induction k as [|k IH]; intros i H.
  - simpl in *. subst i. unfold do_next. simpl. rewrite Nat.leb_refl. reflexivity.
  - rewrite for_loop_S. unfold do_next. cbn [islice].
    destruct (Nat.leb_spec nslice i); [lia|].
    rewrite IH by lia. reflexivity.
Qed.

Lemma full_loop nslice st : for_loop nslice (S nslice) (do_iter st) = (seq 0 nslice, true, {| islice := nslice |}).
Proof. apply for_loop_from. lia. Qed.

Lemma nested_loop_lost nslice : (0 < nslice)%nat ->
  nested_loop nslice (S nslice) (do_iter {| islice := 0 |}) = (map (fun b => (0, b)%nat) (seq 0 nslice), true).
Proof.
  intros H. cbn [nested_loop]. unfold do_iter at 1. unfold do_next at 1. cbn [islice].
  destruct (Nat.leb_spec nslice 0); [lia|]. cbn iota. rewrite full_loop.
  destruct nslice as [|n]; [lia|]. cbn [nested_loop]. unfold do_next. cbn [islice].
  rewrite Nat.leb_refl. rewrite app_nil_r. reflexivity.
Qed.

(** * ND equality *)
Lemma nd_eq_loop_true b1 b2 is : nd_eq_loop b1 b2 is = Ok true ->
  forall i, In i is -> exists x, nth_error b1 i = Some x /\ nth_error b2 i = Some x.
Proof.
  induction is as [|i is IH]; simpl; intros H j; [tauto|].
  unfold arr_get in H. destruct (nth_error b1 i) as [x|] eqn:E1; simpl in H; [|discriminate].
  destruct (nth_error b2 i) as [y|] eqn:E2; simpl in H; [|discriminate].
  destruct (list_eq_dec Z.eq_dec x y); [|discriminate]. subst. intros [->|Hj]; eauto.
Qed.

Lemma nd_eq_implies s o : nd_eq s o = Ok true ->
  length s = length o /\ forall i, (i < length s)%nat ->
    exists x, nth_error (nd_bins s) i = Some x /\ nth_error (nd_bins o) i = Some x.
Proof.
  unfold nd_eq. destruct (Nat.eqb_spec (length o) (length s)) as [E|E]; simpl; [|discriminate].
  intros H. split; auto. intros i Hi. destruct (nd_eq_loop_true _ _ _ H i) as (x & H1 & H2); [apply in_seq; lia|]. eauto.
Qed.

Definition mkdim (bins : list Z) : dim := {| d_col := [1; 3; 6]; d_perm := [0; 1; 2]%nat; d_bins := bins |}.

Lemma is_argsort_intro col perm : Permutation perm (seq 0 (length col)) ->
  StronglySorted (fun i j => nth i col 0 <= nth j col 0) perm -> is_argsort col perm.
Proof.
  intros Hp Hs. split; auto. clear Hp. induction Hs as [|h t Hs IH Hf]; intros i j a b Hij Ha Hb; [destruct i; discriminate|].
  destruct i as [|i], j as [|j]; simpl in *; try lia.
  - inversion Ha; subst. rewrite Forall_forall in Hf. apply Hf. eapply nth_error_In; eauto.
  - eapply (IH i j); eauto. lia.
Qed.

Lemma argsort_sorted_col : is_argsort [1; 3; 6] [0; 1; 2]%nat.
Proof. apply is_argsort_intro; [apply Permutation_refl|]. repeat constructor; simpl; lia. Qed.

Lemma nd_eq_refuted : exists s o i si so, Forall dim_ok s /\ Forall dim_ok o /\ map d_col s = map d_col o /\
  nd_eq s o = Ok true /\ nd_nslice s <> nd_nslice o /\
  nd_slice s i = Ok si /\ nd_slice o i = Ok so /\ ~ (forall v, In v si <-> In v so).
Proof.
  exists [mkdim [0; 5]; mkdim [0; 2; 4]], [mkdim [0; 2; 9]; mkdim [0; 2; 4]], 1%nat, [1; 2]%nat, [].
  split; [|split; [|split; [|split; [|split; [|split; [|split]]]]]]; try reflexivity.
  - repeat constructor; simpl; auto; apply argsort_sorted_col.
  - repeat constructor; simpl; auto; apply argsort_sorted_col.
  - discriminate.
  - intros H. destruct (H 1%nat) as [H1 _]. simpl in H1. tauto.
Qed.

Lemma nd_eq_raises : exists s o, Forall dim_ok s /\ Forall dim_ok o /\ nd_eq s o = Err IndexError.
Proof.
  exists [mkdim [0; 5]; mkdim [0; 5]], [mkdim [0; 5]; mkdim [0; 5]].
  split; [|split]; try reflexivity; repeat constructor; simpl; auto; apply argsort_sorted_col.
Qed.

Lemma oned_last_edge_refuted : exists col perm bins v x, is_argsort col perm /\ nondecreasing bins /\
  (2 <= length bins)%nat /\ nth_error col v = Some x /\ nth_error bins (length bins - 1) = Some x /\
  forall i sl, nth_error (oned_slices col perm bins) i = Some sl -> ~ In v sl.
Proof.
  exists [1; 3; 6], [0; 1; 2]%nat, [0; 3; 6], 2%nat, 6.
  assert (nondecreasing [0; 3; 6]) as Hn.
  { apply sorted_nondecreasing. repeat constructor; lia. }
  split; [apply argsort_sorted_col|]. split; [exact Hn|]. split; [simpl; auto|]. split; [reflexivity|]. split; [reflexivity|].
  apply oned_last_edge_lost with (last := 6) (n := 1%nat); auto. apply argsort_sorted_col.
Qed.

Lemma nd_last_edge_refuted : exists ds i sl v x, Forall dim_ok ds /\ ds <> [] /\
  nd_slice ds i = Ok sl /\ In v sl /\
  (exists d, In d ds /\ nth_error (d_col d) v = Some x /\ forall e, In e (d_bins d) -> e < x).
Proof.
  exists [mkdim [0; 2; 4]], 1%nat, [1; 2]%nat, 2%nat, 6.
  split; [|split; [|split; [|split]]]; try reflexivity; try discriminate.
  - repeat constructor; simpl; auto; apply argsort_sorted_col.
  - simpl; auto.
  - exists (mkdim [0; 2; 4]). simpl. repeat split; auto. intros e He. intuition lia.
Qed.
