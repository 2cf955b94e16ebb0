(** Lemmas about the constrained fit. *)
From Verif Require Import Base Astrom_Model Cheby_Model Cheby_Spec Astrom_Proofs Cheby_Proofs.
From Coq Require Import Reals Lra Lia.
Open Scope R_scope.

(** * Finite sums *)
Lemma sumn_ext n f g : (forall i, (i < n)%nat -> f i = g i) -> sumn n f = sumn n g.
Proof. intros H. apply rsum_ext. intros i Hi. apply in_seq in Hi. apply H. lia. Qed.
Lemma sumn_plus n f g : sumn n (fun i => f i + g i) = sumn n f + sumn n g.
Proof. apply rsum_plus. Qed.
Lemma sumn_scale n f c : sumn n (fun i => c * f i) = c * sumn n f.
Proof. apply rsum_scale. Qed.
Lemma sumn_scale_r n f c : sumn n (fun i => f i * c) = sumn n f * c.
Proof. rewrite (sumn_ext n _ (fun i => c * f i)) by (intros; ring). rewrite sumn_scale. ring. Qed.
Lemma sumn_minus n f g : sumn n (fun i => f i - g i) = sumn n f - sumn n g.
Proof. rewrite (sumn_ext n _ (fun i => f i + -1 * g i)) by (intros; ring). rewrite sumn_plus, sumn_scale. ring. Qed.
Lemma sumn_0 n : sumn n (fun _ => 0) = 0.
Proof. rewrite (sumn_ext n _ (fun _ => 0 * 0)) by (intros; ring). rewrite sumn_scale. ring. Qed.
Lemma sumn_S n f : sumn (S n) f = sumn n f + f n.
Proof. unfold sumn. rewrite seq_S, map_app, rsum_app. cbn. ring. Qed.
Lemma sumn_first n f : sumn (S n) f = f O + sumn n (fun i => f (S i)).
Proof. unfold sumn. cbn [seq map rsum fold_right]. f_equal. rewrite <- seq_shift, map_map. reflexivity. Qed.
Lemma sumn_split n m f : sumn (n + m) f = sumn n f + sumn m (fun i => f (n + i)%nat).
Proof.
  induction m as [|m IH]; [rewrite Nat.add_0_r; cbn; ring|].
  replace (n + S m)%nat with (S (n + m)) by lia. rewrite !sumn_S, IH. ring.
Qed.
Lemma sumn_swap n m (f : nat -> nat -> R) : sumn n (fun i => sumn m (fun j => f i j)) = sumn m (fun j => sumn n (fun i => f i j)).
Proof.
  induction n as [|n IH]; [cbn; rewrite sumn_0; reflexivity|].
  rewrite sumn_S, IH, <- sumn_plus. apply sumn_ext. intros j _. rewrite sumn_S. reflexivity.
Qed.
Lemma sumn_rev n f : sumn n (fun i => f (n - 1 - i)%nat) = sumn n f.
Proof.
  induction n as [|n IH]; [reflexivity|].
  rewrite sumn_first, sumn_S.
  replace (S n - 1 - 0)%nat with n by lia.
  rewrite (sumn_ext n _ (fun i => f (n - 1 - i)%nat)) by (intros i Hi; f_equal; lia). rewrite IH. ring.
Qed.
Lemma sumn_pick n j f : (j < n)%nat -> sumn n (fun i => one_if (Nat.eqb i j) * f i) = f j.
Proof.
  revert j. induction n as [|n IH]; intros j H; [lia|]. rewrite sumn_S. destruct (Nat.eq_dec j n) as [->|N].
  - rewrite Nat.eqb_refl. cbn [one_if]. rewrite (sumn_ext n _ (fun _ => 0)).
    + rewrite sumn_0. ring.
    + intros i Hi. replace (Nat.eqb i n) with false by (symmetry; apply Nat.eqb_neq; lia). cbn. ring.
  - rewrite IH by lia. replace (Nat.eqb n j) with false by (symmetry; apply Nat.eqb_neq; lia). cbn [one_if]. ring.
Qed.
Lemma sumn_pick' n j f : (j < n)%nat -> sumn n (fun i => one_if (Nat.eqb j i) * f i) = f j.
Proof. intros H. rewrite (sumn_ext n _ (fun i => one_if (Nat.eqb i j) * f i)). { apply sumn_pick; exact H. } intros i _. rewrite Nat.eqb_sym. reflexivity. Qed.
Lemma sumn_nonneg n f : (forall i, (i < n)%nat -> 0 <= f i) -> 0 <= sumn n f.
Proof. intros H. apply rsum_nonneg. intros i Hi. apply in_seq in Hi. apply H. lia. Qed.
Lemma sumn_zero n f : (forall i, (i < n)%nat -> 0 <= f i) -> sumn n f = 0 -> forall i, (i < n)%nat -> f i = 0.
Proof. intros H E i Hi. apply (rsum_zero f (seq 0 n)); [|exact E|apply in_seq; lia]. intros j Hj. apply in_seq in Hj. apply H. lia. Qed.

(** * Solutions of the constrained normal equations *)
Section Normal.
  Variables (n m E : nat) (T D : nat -> nat -> R) (w : R) (ends : nat -> nat -> R).
  Definition val (M : nat -> nat -> R) (a : nat -> R) (i : nat) : R := sumn m (fun k => M i k * a k).
  Variables (x d a l : nat -> R).
  Hypothesis normal : forall k, (k < m)%nat ->
    sumn n (fun i => T i k * val T a i) + w * sumn n (fun i => D i k * val D a i) + sumn E (fun e => ends e k * l e) =
    sumn n (fun i => T i k * x i) + w * sumn n (fun i => D i k * d i).
  Definition cost (b : nat -> R) : R := sumn n (fun i => (x i - val T b i) ^ 2) + w * sumn n (fun i => (d i - val D b i) ^ 2).
  Lemma val_plus M b c i : val M (fun k => b k + c k) i = val M b i + val M c i.
  Proof. unfold val. rewrite <- sumn_plus. apply sumn_ext. intros; ring. Qed.
  Lemma val_minus M b c i : val M (fun k => b k - c k) i = val M b i - val M c i.
  Proof. unfold val. rewrite <- sumn_minus. apply sumn_ext. intros; ring. Qed.
  (** the sum over i of [g i] times the value of [c] *)
  Lemma adjoint M c (g : nat -> R) : sumn n (fun i => g i * val M c i) = sumn m (fun k => c k * sumn n (fun i => M i k * g i)).
  Proof.
    unfold val. rewrite (sumn_ext n _ (fun i => sumn m (fun k => c k * (M i k * g i)))).
    - rewrite sumn_swap. apply sumn_ext. intros k _. apply sumn_scale.
    - intros i _. rewrite <- sumn_scale. apply sumn_ext. intros; ring.
  Qed.
  Lemma cross c : (forall e, (e < E)%nat -> sumn m (fun k => ends e k * c k) = 0) ->
    sumn n (fun i => (x i - val T a i) * val T c i) + w * sumn n (fun i => (d i - val D a i) * val D c i) = 0.
  Proof.
    intros Hc. rewrite !adjoint, <- sumn_scale, <- sumn_plus.
    rewrite (sumn_ext m _ (fun k => sumn E (fun e => l e * (ends e k * c k)))).
    - rewrite sumn_swap. rewrite (sumn_ext E _ (fun _ => 0)); [apply sumn_0|].
      intros e He. rewrite sumn_scale, Hc by exact He. ring.
    - intros k Hk. rewrite (sumn_ext n (fun i => T i k * (x i - val T a i)) (fun i => T i k * x i - T i k * val T a i)) by (intros; ring).
      rewrite (sumn_ext n (fun i => D i k * (d i - val D a i)) (fun i => D i k * d i - D i k * val D a i)) by (intros; ring).
      rewrite !sumn_minus. specialize (normal k Hk).
      rewrite (sumn_ext E (fun e => l e * (ends e k * c k)) (fun e => c k * (ends e k * l e))) by (intros; ring). rewrite sumn_scale.
      replace (sumn E (fun e => ends e k * l e)) with
        (sumn n (fun i => T i k * x i) + w * sumn n (fun i => D i k * d i)
         - sumn n (fun i => T i k * val T a i) - w * sumn n (fun i => D i k * val D a i)) by lra.
      ring.
  Qed.
  Lemma optimal b : 0 <= w -> (forall e, (e < E)%nat -> sumn m (fun k => ends e k * b k) = sumn m (fun k => ends e k * a k)) ->
    cost a <= cost b.
  Proof.
    intros Hw Hb. set (c := fun k => b k - a k).
    assert (Hc : forall e, (e < E)%nat -> sumn m (fun k => ends e k * c k) = 0).
    { intros e He. unfold c. rewrite (sumn_ext m _ (fun k => ends e k * b k - ends e k * a k)) by (intros; ring).
      rewrite sumn_minus, Hb by exact He. ring. }
    pose proof (cross c Hc) as X. unfold cost.
    assert (Hv : forall M i, val M b i = val M a i + val M c i).
    { intros M i. unfold c. rewrite val_minus. ring. }
    rewrite (sumn_ext n (fun i => (x i - val T b i) ^ 2)
      (fun i => (x i - val T a i) ^ 2 + (val T c i ^ 2 + -2 * ((x i - val T a i) * val T c i)))) by (intros; rewrite Hv; ring).
    rewrite (sumn_ext n (fun i => (d i - val D b i) ^ 2)
      (fun i => (d i - val D a i) ^ 2 + (val D c i ^ 2 + -2 * ((d i - val D a i) * val D c i)))) by (intros; rewrite Hv; ring).
    rewrite !sumn_plus, !sumn_scale.
    assert (0 <= sumn n (fun i => val T c i ^ 2)) by (apply sumn_nonneg; intros; nra).
    assert (0 <= sumn n (fun i => val D c i ^ 2)) by (apply sumn_nonneg; intros; nra).
    nra.
  Qed.
End Normal.

(** a solution of the system with zero data has zero values at all points *)
Lemma kernel_values n m E T D w ends a l : 0 <= w ->
  (forall k, (k < m)%nat ->
    sumn n (fun i => T i k * val m T a i) + w * sumn n (fun i => D i k * val m D a i) + sumn E (fun e => ends e k * l e) = 0) ->
  (forall e, (e < E)%nat -> sumn m (fun k => ends e k * a k) = 0) ->
  forall i, (i < n)%nat -> val m T a i = 0 /\ w * val m D a i = 0.
Proof.
  intros Hw N Ha.
  pose proof (cross n m E T D w ends (fun _ => 0) (fun _ => 0) a l) as X.
  assert (N' : forall k, (k < m)%nat ->
    sumn n (fun i => T i k * val m T a i) + w * sumn n (fun i => D i k * val m D a i) + sumn E (fun e => ends e k * l e) =
    sumn n (fun i => T i k * 0) + w * sumn n (fun i => D i k * 0)).
  { intros k Hk. rewrite N by exact Hk. rewrite !sumn_scale_r. ring. }
  specialize (X N' a Ha). cbv beta in X.
  rewrite (sumn_ext n _ (fun i => -1 * val m T a i ^ 2)) in X by (intros; ring).
  rewrite (sumn_ext n (fun i => (0 - val m D a i) * _) (fun i => -1 * val m D a i ^ 2)) in X by (intros; ring).
  rewrite !sumn_scale in X.
  assert (P1 : 0 <= sumn n (fun i => val m T a i ^ 2)) by (apply sumn_nonneg; intros; nra).
  assert (P2 : 0 <= sumn n (fun i => val m D a i ^ 2)) by (apply sumn_nonneg; intros; nra).
  intros i Hi. split.
  - assert (Z : sumn n (fun i => val m T a i ^ 2) = 0) by nra.
    pose proof (sumn_zero n _ (fun i _ => pow2_ge_0 (val m T a i)) Z i Hi) as Q. cbv beta in Q. nra.
  - assert (Z : sumn n (fun i => w * val m D a i ^ 2) = 0) by (rewrite sumn_scale; nra).
    assert (Q : w * val m D a i ^ 2 = 0).
    { apply (sumn_zero n (fun i => w * val m D a i ^ 2)); [|exact Z|exact Hi]. intros j _. pose proof (pow2_ge_0 (val m D a j)). nra. }
    apply Rmult_integral in Q as [Q|Q]; [rewrite Q; ring|]. replace (val m D a i) with 0 by nra. ring.
Qed.

(** * The nodes and the entries of the matrices *)
Lemma node_first n : node n 0 = 1.
Proof. unfold node. cbn. ring. Qed.
Lemma INR_pred n : (2 <= n)%nat -> 0 < INR (n - 1).
Proof. intros H. apply lt_0_INR. lia. Qed.
Lemma node_last n : (2 <= n)%nat -> node n (n - 1) = -1.
Proof. intros H. unfold node. field. pose proof (INR_pred n H). lra. Qed.
Lemma unit_length m k : length (unit_vec m k) = m.
Proof. unfold unit_vec. rewrite map_length, seq_length. reflexivity. Qed.
Lemma unit_nth m k i : (i < m)%nat -> nth i (unit_vec m k) 0 = one_if (Nat.eqb i k).
Proof.
  intros H. unfold unit_vec. rewrite (nth_indep _ 0 ((fun i => if Nat.eqb i k then 1 else 0) 0%nat)) by (rewrite map_length, seq_length; exact H).
  rewrite (map_nth (fun i => if Nat.eqb i k then 1 else 0)), seq_nth by exact H. reflexivity.
Qed.
Lemma ser_unit f m k t : (k < m)%nat -> ser f 0 (unit_vec m k) t = f k t.
Proof.
  intros H. rewrite ser_nth, unit_length. rewrite (sumn_ext m _ (fun i => one_if (Nat.eqb i k) * f i t)).
  - apply (sumn_pick m k (fun i => f i t) H).
  - intros i Hi. rewrite unit_nth by exact Hi. reflexivity.
Qed.
Lemma scaled_11 x : scaled (-1) 1 x = x.
Proof. unfold scaled. field. Qed.
Lemma tmat_TT n m i k : (k < m)%nat -> tmat n m i k = TT k (node n i).
Proof. intros H. unfold tmat. rewrite cheb_yv_ser, scaled_11. cbn [fst]. apply ser_unit. exact H. Qed.
Lemma tdot_DD n m i k : (k < m)%nat -> tdot n m i k = DD k (node n i).
Proof. intros H. unfold tdot. rewrite cheb_yv_ser, scaled_11. cbn [snd]. rewrite ser_unit by exact H. field. Qed.

(** * From the inverse to the equations *)
Lemma solve inv s A M (C2 : mat) : inverts inv -> inv s A = Ok M -> forall r c, (r < s)%nat ->
  sumn s (fun k => A r k * dot s M C2 k c) = C2 r c.
Proof.
  intros HI E r c Hr. unfold dot.
  rewrite (sumn_ext s _ (fun k => sumn s (fun j => A r k * M k j * C2 j c))).
  2:{ intros k _. rewrite <- sumn_scale. apply sumn_ext. intros; ring. }
  rewrite sumn_swap. rewrite (sumn_ext s _ (fun j => one_if (Nat.eqb r j) * C2 j c)).
  - apply (sumn_pick' s r (fun j => C2 j c)). exact Hr.
  - intros j Hj. rewrite sumn_scale_r. rewrite (HI _ _ _ E r j Hr Hj). reflexivity.
Qed.
Lemma linear_solve s A (c : nat -> nat -> R) (rhs : nat -> nat -> R) n (col : nat -> nat) (x : nat -> R) r :
  (forall j, sumn s (fun k => A r k * c k j) = rhs r j) ->
  sumn s (fun k => A r k * sumn n (fun i => c k (col i) * x i)) = sumn n (fun i => rhs r (col i) * x i).
Proof.
  intros H. rewrite (sumn_ext s _ (fun k => sumn n (fun i => A r k * c k (col i) * x i))).
  2:{ intros k _. rewrite <- sumn_scale. apply sumn_ext. intros; ring. }
  rewrite sumn_swap. apply sumn_ext. intros i _. rewrite sumn_scale_r, H. reflexivity.
Qed.
