(** Lemmas about the metric of the transients given by a spectrum. *)
From Coq Require Import Reals.
From Verif Require Import Base Technical_Model Technical_Proofs Technical_Proofs3 Template_Model Sky_Proofs Ascii_Model Plane_Spec Plane_Props Pop_Props2 Ascii_Spec.
From Coq Require Import Lia Permutation Sorted.
Open Scope Z_scope.

Definition by_at (a b : avisit) : Prop := at_ a <= at_ b.
Lemma insert_perm v l : Permutation (insert_time v l) (v :: l).
Proof. induction l as [|x t IH]; cbn; [reflexivity|]. destruct (at_ v <=? at_ x); [reflexivity|]. rewrite IH. apply perm_swap. Qed.
Lemma sort_perm l : Permutation (sort_time l) l.
Proof. induction l as [|x t IH]; cbn; [reflexivity|]. rewrite insert_perm. now constructor. Qed.
Lemma insert_sorted v l : StronglySorted by_at l -> StronglySorted by_at (insert_time v l).
Proof.
  induction l as [|x t IH]; intros H; cbn; [repeat constructor|]. inversion H as [|? ? H1 H2]; subst. destruct (at_ v <=? at_ x) eqn:E.
  - apply Z.leb_le in E. constructor; [exact H|]. constructor; [exact E|]. eapply Forall_impl; [|exact H2]. intros y Hy. unfold by_at in *. lia.
  - apply Z.leb_gt in E. constructor; [apply IH; exact H1|]. apply Forall_forall. intros y Hy. apply (Permutation_in _ (insert_perm v t)) in Hy. destruct Hy as [<-|Hy]; [unfold by_at; lia|]. rewrite Forall_forall in H2. apply H2, Hy.
Qed.
Lemma sort_sorted l : StronglySorted by_at (sort_time l).
Proof. induction l as [|x t IH]; cbn; [constructor | now apply insert_sorted]. Qed.

(** the part of the visits between the two indices is the group *)
Lemma slice_group (f : avisit -> Z) u : forall vs, StronglySorted (fun a b => f a <= f b) vs ->
  slice (left_of (map f vs) u) (right_of (map f vs) u) vs = filter (fun v => f v =? u) vs.
Proof.
  unfold slice, left_of, right_of. induction vs as [|x t IH]; intros H; [reflexivity|]. inversion H as [|? ? H1 H2]; subst. specialize (IH H1). rewrite Forall_forall in H2. cbn [map filter].
  destruct (Z.lt_trichotomy (f x) u) as [C|[C|C]].
  - replace (f x <? u) with true by (symmetry; apply Z.ltb_lt; lia). replace (f x <=? u) with true by (symmetry; apply Z.leb_le; lia). replace (f x =? u) with false by (symmetry; apply Z.eqb_neq; lia).
    cbn [length skipn]. rewrite Nat.sub_succ. exact IH.
  - replace (f x <? u) with false by (symmetry; apply Z.ltb_ge; lia). replace (f x <=? u) with true by (symmetry; apply Z.leb_le; lia). replace (f x =? u) with true by (symmetry; apply Z.eqb_eq; lia).
    assert (length (filter (fun y => y <? u) (map f t)) = 0%nat) as E0.
    { destruct (filter (fun y => y <? u) (map f t)) as [|y r] eqn:E; [reflexivity|]. assert (In y (y :: r)) as Hy by now left. rewrite <- E in Hy. apply filter_In in Hy. destruct Hy as [Hy Hl]. apply Z.ltb_lt in Hl. apply in_map_iff in Hy. destruct Hy as (z & <- & Hz). specialize (H2 z Hz). lia. }
    rewrite E0 in IH |- *. rewrite Nat.sub_0_r in IH |- *. cbn [length skipn firstn] in IH |- *. f_equal. exact IH.
  - replace (f x <? u) with false by (symmetry; apply Z.ltb_ge; lia). replace (f x <=? u) with false by (symmetry; apply Z.leb_gt; lia). replace (f x =? u) with false by (symmetry; apply Z.eqb_neq; lia).
    assert (forall P, (forall y, f x <= y -> P y = false) -> filter P (map f t) = []) as Z0.
    { intros P HP. destruct (filter P (map f t)) as [|y r] eqn:E; [reflexivity|]. assert (In y (y :: r)) as Hy by now left. rewrite <- E in Hy. apply filter_In in Hy. destruct Hy as [Hy Hl]. apply in_map_iff in Hy. destruct Hy as (z & <- & Hz). specialize (H2 z Hz). rewrite (HP _ H2) in Hl. discriminate. }
    rewrite (Z0 (fun y => y <=? u)) by (intros y Hy; apply Z.leb_gt; lia). rewrite (Z0 (fun y => y <? u)) by (intros y Hy; apply Z.ltb_ge; lia). cbn [length Nat.sub firstn skipn].
    symmetry. destruct (filter (fun v => f v =? u) t) as [|y r] eqn:E; [reflexivity|]. assert (In y (y :: r)) as Hy by now left. rewrite <- E in Hy. apply filter_In in Hy. destruct Hy as [Hy Hl]. apply Z.eqb_eq in Hl. specialize (H2 y Hy). lia.
Qed.
Lemma unique_shift k l : unique_z (map (fun x => x + k) l) = map (fun x => x + k) (unique_z l).
Proof.
  assert (forall x l, insert_uniq_z (x + k) (map (fun x => x + k) l) = map (fun x => x + k) (insert_uniq_z x l)) as I.
  { intros x l0. induction l0 as [|y t IH]; [reflexivity|]. cbn [map insert_uniq_z].
    destruct (x <? y) eqn:E1; [replace (x + k <? y + k) with true by (symmetry; apply Z.ltb_lt; apply Z.ltb_lt in E1; lia); reflexivity|].
    replace (x + k <? y + k) with false by (symmetry; apply Z.ltb_ge; apply Z.ltb_ge in E1; lia).
    destruct (y <? x) eqn:E2; [replace (y + k <? x + k) with true by (symmetry; apply Z.ltb_lt; apply Z.ltb_lt in E2; lia); cbn [map]; f_equal; exact IH|].
    replace (y + k <? x + k) with false by (symmetry; apply Z.ltb_ge; apply Z.ltb_ge in E2; lia). reflexivity. }
  induction l as [|x t IH]; [reflexivity|]. cbn [map unique_z fold_right]. unfold unique_z in IH. rewrite IH, I. reflexivity.
Qed.
Lemma duration_long c L : Long c L -> duration c = L /\ 0 < L.
Proof. intros (E & H & Hn). unfold duration. split; [symmetry; exact E | nia]. Qed.
Lemma number_of c L start v g : Long c L -> (number c start v = g <-> Of L start g v).
Proof.
  intros HL. destruct (duration_long _ _ HL) as [E P]. unfold number, Of. rewrite E. split.
  - intros <-. pose proof (Z.div_mod (at_ v - start) L ltac:(lia)). pose proof (Z.mod_pos_bound (at_ v - start) L P). nia.
  - intros H. symmetry. apply (Z.div_unique (at_ v - start) L g (at_ v - start - g * L)); [left; lia | lia].
Qed.
Lemma epoch_of c L start i v e : Long c L -> (epoch c start i v = e <-> Epoch c L start i v e).
Proof.
  intros HL. destruct (duration_long _ _ HL) as [E P]. unfold epoch, Epoch. rewrite E. set (x := at_ v - start + Z.of_nat i * unit c). split.
  - intros <-. split; [apply Z.mod_pos_bound; exact P|]. exists (x / L). pose proof (Z.div_mod x L ltac:(lia)). nia.
  - intros (B & k & Ek). symmetry. apply (Z.mod_unique x L k e); [left; lia | lia].
Qed.
Lemma above_seen c L start i v : Long c L -> (above c start i v = true <-> Seen c L start i v).
Proof.
  intros HL. unfold above, Seen. destruct (detect_snr c (aband v)) as [s|] eqn:Es.
  - rewrite rleb_true, snr_pow. split.
    + intros H. exists (epoch c start i v), s. split; [apply (epoch_of c L); [exact HL|reflexivity]|]. split; [reflexivity|exact H].
    + intros (e & s' & He & E & H). injection E as <-. apply (epoch_of _ _ _ _ _ _ HL) in He. rewrite He. exact H.
  - split; [discriminate|]. intros (e & s & _ & E & _). discriminate.
Qed.
Lemma number_mono c start a b : 0 < duration c -> by_at a b -> number c start a <= number c start b.
Proof. intros P H. unfold number, by_at in *. apply Z.div_le_mono; lia. Qed.
Lemma sorted_impl {A} (R S : A -> A -> Prop) : (forall a b, R a b -> S a b) -> forall l, StronglySorted R l -> StronglySorted S l.
Proof. intros H l. induction 1 as [|x t H1 IH H2]; constructor; [exact IH|]. eapply Forall_impl; [|exact H2]. intros y. apply H. Qed.

(** the flags of one phase, whatever the numbers start with *)
Definition group (c : conf) (start : Z) (vs : list avisit) (g : Z) : list avisit := filter (fun v => number c start v =? g) vs.
Definition found search (c : conf) (start : Z) (vs : list avisit) (i : nat) : list Z :=
  filter (fun g => detected search c start i (group c start vs g)) (unique_z (map (number c start) vs)).
Lemma flags_of search c dur start vs acc i : 0 < duration c -> StronglySorted by_at vs ->
  flags (step search c dur start vs acc i) = map (fun g => detected search c start i (group c start vs g)) (unique_z (map (number c start) vs)).
Proof.
  intros P H. unfold step. cbn [flags].
  set (k := id_start acc). rewrite <- (map_map (number c start) (fun x => x + k)). rewrite unique_shift, map_map. apply map_ext. intros g.
  f_equal. rewrite map_map. rewrite (slice_group (fun v => number c start v + k)).
  - unfold group. apply filter_ext. intros v. destruct (number c start v =? g) eqn:E; [apply Z.eqb_eq in E; apply Z.eqb_eq; lia | apply Z.eqb_neq in E; apply Z.eqb_neq; lia].
  - eapply sorted_impl; [|exact H]. intros a b Hab. pose proof (number_mono c start a b P Hab). lia.
Qed.
Lemma filter_flags {A} (f : A -> bool) l : length (filter (fun b => b) (map f l)) = length (filter f l).
Proof. induction l as [|x t IH]; [reflexivity|]. cbn. destruct (f x); cbn; rewrite IH; reflexivity. Qed.
Lemma num_of search c dur start vs : 0 < duration c -> StronglySorted by_at vs -> forall l acc,
  num (fold_left (step search c dur start vs) l acc) = num acc + Z.of_nat (length (flat_map (fun i => map (pair i) (found search c start vs i)) l)).
Proof.
  intros P H. induction l as [|i t IH]; intros acc; cbn [fold_left flat_map length]; [lia|]. rewrite IH, app_length, map_length.
  assert (num (step search c dur start vs acc i) = num acc + Z.of_nat (length (found search c start vs i))) as ->; [|lia].
  change (num (step search c dur start vs acc i)) with (num acc + Z.of_nat (length (filter (fun b => b) (flags (step search c dur start vs acc i))))).
  rewrite flags_of by assumption. rewrite filter_flags. reflexivity.
Qed.
Lemma pairs_nodup {A} (f : nat -> list A) : (forall i, NoDup (f i)) -> forall l, NoDup l -> NoDup (flat_map (fun i => map (pair i) (f i)) l).
Proof.
  intros H l. induction 1 as [|i t Hi Ht IH]; cbn; [constructor|].
  assert (forall (a b : list (nat * A)), NoDup a -> NoDup b -> (forall x, In x a -> ~ In x b) -> NoDup (a ++ b)) as NA.
  { intros a b Ha Hb Hd. induction Ha as [|x a' Hx Ha' IHa]; [exact Hb|]. cbn. constructor; [rewrite in_app_iff; intros [Q|Q]; [exact (Hx Q) | exact (Hd x (or_introl eq_refl) Q)]|]. apply IHa. intros y Hy. apply Hd. now right. }
  apply NA; [apply FinFun.Injective_map_NoDup; [intros a b E; now injection E | apply H] | exact IH|].
  intros (j, a) Hj Hin. apply in_map_iff in Hj. destruct Hj as (a' & E & _). injection E as -> ->. apply in_flat_map in Hin. destruct Hin as (k & Hk & Hm). apply in_map_iff in Hm. destruct Hm as (a'' & E & _). injection E as -> ->. exact (Hi Hk).
Qed.
Lemma num_pairs search c dur start vs lo : 0 < duration c -> StronglySorted by_at vs ->
  HowMany (fun p => (fst p < phases c)%nat /\ (exists v, In v vs /\ number c start v = snd p) /\ detected search c start (fst p) (group c start vs (snd p)) = true)
    (num (fold_left (step search c dur start vs) (seq 0 (phases c)) (initial c start lo))).
Proof.
  intros P H. rewrite num_of by assumption. cbn [initial num]. exists (flat_map (fun i => map (pair i) (found search c start vs i)) (seq 0 (phases c))).
  split; [apply pairs_nodup; [intros i; apply NoDup_filter, sorted_lt_nodup, unique_z_sorted | apply seq_NoDup]|]. split; [|lia].
  intros (i, g). cbn [fst snd]. rewrite in_flat_map. unfold found. split.
  - intros (j & Hj & Hm). apply in_map_iff in Hm. destruct Hm as (g' & E & Hg). injection E as -> ->. apply filter_In in Hg. destruct Hg as [Hg Hd]. apply unique_z_in, in_map_iff in Hg. destruct Hg as (v & Ev & Hv). apply in_seq in Hj. split; [lia|]. split; [exists v; tauto | exact Hd].
  - intros (Hi & (v & Hv & Ev) & Hd). exists i. split; [apply in_seq; lia|]. apply in_map. apply filter_In. split; [apply unique_z_in, in_map_iff; exists v; tauto | exact Hd].
Qed.
