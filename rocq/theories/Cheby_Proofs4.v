(** Elimination, and the uniqueness of the solution of a fit. *)
From Verif Require Import Base Astrom_Model Cheby_Model Cheby_Spec Astrom_Proofs Cheby_Proofs Cheby_Proofs2 Cheby_Proofs3.
From Coq Require Import Reals Lra Lia.
Open Scope R_scope.

(** * Elimination *)
Lemma pivot_some n a p : pivot n a = Some p -> (p < n)%nat /\ a p 0%nat <> 0.
Proof.
  intros H. apply find_some in H as [H1 H2]. apply in_seq in H1. split; [lia|]. destruct (Req_EM_T (a p 0%nat) 0); [discriminate|assumption].
Qed.
Lemma pivot_none n a : pivot n a = None -> forall r, (r < n)%nat -> a r 0%nat = 0.
Proof.
  intros H r Hr. pose proof (find_none _ _ H r) as X. cbv beta in X. destruct (Req_EM_T (a r 0%nat) 0); [assumption|].
  specialize (X ltac:(apply in_seq; lia)). discriminate.
Qed.
Lemma swap_lt p r n : (p < n)%nat -> (r < n)%nat -> (swap p r < n)%nat.
Proof. intros H1 H2. unfold swap. destruct (Nat.eqb r p); [lia|]. destruct (Nat.eqb r 0); lia. Qed.
Lemma swap_swap p r : swap p (swap p r) = r.
Proof. unfold swap. destruct (Nat.eqb_spec r p), (Nat.eqb_spec r 0); subst; repeat (match goal with |- context [Nat.eqb ?a ?b] => destruct (Nat.eqb_spec a b) end); try reflexivity; try lia. Qed.
Lemma elim_sol : forall n a b z, elim n a b = Some z -> forall r, (r < n)%nat -> sumn n (fun k => a r k * z k) = b r.
Proof.
  induction n as [|n IH]; intros a b z H r Hr; [lia|]. cbn [elim] in H.
  destruct (pivot (S n) a) as [p|] eqn:EP; [|discriminate]. apply pivot_some in EP as [Hp Hnz].
  set (a1 := fun r c => a (swap p r) c) in *. set (b1 := fun r => b (swap p r)) in *.
  cbv zeta in H. set (f := fun r => a1 (S r) 0%nat / a1 0%nat 0%nat) in *.
  destruct (elim n _ _) as [y|] eqn:EY; [|discriminate]. injection H as <-.
  assert (H0 : a1 0%nat 0%nat <> 0).
  { unfold a1, swap. destruct (Nat.eqb 0 p) eqn:E0; [apply Nat.eqb_eq in E0; subst; exact Hnz|exact Hnz]. }
  assert (X : forall r, (r < S n)%nat -> sumn (S n) (fun k => a1 r k * match k with
      | O => (b1 0%nat - sumn n (fun c => a1 0%nat (S c) * y c)) / a1 0%nat 0%nat | S k' => y k' end) = b1 r).
  { intros s Hs. rewrite sumn_first. destruct s as [|s].
    - field. exact H0.
    - assert (Q : sumn n (fun k => (a1 (S s) (S k) - f s * a1 0%nat (S k)) * y k) = b1 (S s) - f s * b1 0%nat) by exact (IH _ _ _ EY s ltac:(lia)).
      rewrite (sumn_ext n _ (fun k => a1 (S s) (S k) * y k - f s * (a1 0%nat (S k) * y k))) in Q by (intros; ring).
      rewrite sumn_minus, sumn_scale in Q. unfold f in Q.
      replace (b1 (S s)) with (sumn n (fun i => a1 (S s) (S i) * y i) - a1 (S s) 0%nat / a1 0%nat 0%nat * sumn n (fun i => a1 0%nat (S i) * y i)
        + a1 (S s) 0%nat / a1 0%nat 0%nat * b1 0%nat) by lra.
      field. exact H0. }
  pose proof (X (swap p r) (swap_lt _ _ _ Hp Hr)) as Q. unfold a1 at 1, b1 at 2 in Q.
  rewrite swap_swap in Q. exact Q.
Qed.
Lemma elim_total : forall n a b, regular_matrix n a -> exists z, elim n a b = Some z.
Proof.
  induction n as [|n IH]; intros a b H; [eexists; reflexivity|]. cbn [elim].
  destruct (pivot (S n) a) as [p|] eqn:EP.
  - apply pivot_some in EP as [Hp Hnz].
    set (a1 := fun r c => a (swap p r) c). set (b1 := fun r => b (swap p r)).
    cbv zeta. set (f := fun r => a1 (S r) 0%nat / a1 0%nat 0%nat).
    assert (H0 : a1 0%nat 0%nat <> 0).
    { unfold a1, swap. destruct (Nat.eqb 0 p) eqn:E0; [apply Nat.eqb_eq in E0; subst; exact Hnz|exact Hnz]. }
    destruct (IH (fun r c => a1 (S r) (S c) - f r * a1 0%nat (S c)) (fun r => b1 (S r) - f r * b1 0%nat)) as [z Hz].
    + intros y Hy k Hk.
      set (z := fun k => match k with O => - sumn n (fun c => a1 0%nat (S c) * y c) / a1 0%nat 0%nat | S k' => y k' end).
      assert (Z : forall r, (r < S n)%nat -> sumn (S n) (fun k => a r k * z k) = 0).
      { intros r Hr. rewrite <- (swap_swap p r). pose proof (swap_lt _ _ _ Hp Hr) as Hs. set (s := swap p r) in *. clearbody s.
        change (sumn (S n) (fun k => a1 s k * z k) = 0). rewrite sumn_first. unfold z at 1. destruct s as [|s].
        - unfold z. field. exact H0.
        - assert (Q : sumn n (fun k => (a1 (S s) (S k) - f s * a1 0%nat (S k)) * y k) = 0) by exact (Hy s ltac:(lia)).
          rewrite (sumn_ext n _ (fun k => a1 (S s) (S k) * y k - f s * (a1 0%nat (S k) * y k))) in Q by (intros; ring).
          rewrite sumn_minus, sumn_scale in Q. unfold f in Q. unfold z.
          transitivity (sumn n (fun i => a1 (S s) (S i) * y i) - a1 (S s) 0%nat / a1 0%nat 0%nat * sumn n (fun i => a1 0%nat (S i) * y i)); [|exact Q].
          field. exact H0. }
      apply (H z Z (S k)). lia.
    + match goal with |- context [elim n ?A ?B] => replace (elim n A B) with (Some z) by (symmetry; exact Hz) end. eexists; reflexivity.
  - exfalso. pose proof (pivot_none _ _ EP) as X.
    assert (E : (fun k => one_if (Nat.eqb k 0)) 0%nat = 0).
    { apply (H (fun k => one_if (Nat.eqb k 0))); [|lia]. intros r Hr. rewrite sumn_first, X by exact Hr.
      cbn [Nat.eqb one_if]. rewrite (sumn_ext n _ (fun _ => 0)) by (intros; ring). rewrite sumn_0. ring. }
    cbn in E. lra.
Qed.
Lemma elim_indep : forall n a b b' z, elim n a b = Some z -> exists z', elim n a b' = Some z'.
Proof.
  induction n as [|n IH]; intros a b b' z H; [eexists; reflexivity|]. cbn [elim] in *.
  destruct (pivot (S n) a) as [p|]; [|discriminate]. cbv zeta in *.
  match type of H with context [elim n ?A ?B] => destruct (elim n A B) as [y|] eqn:EY; [|discriminate] end.
  match goal with |- context [elim n ?A ?B] => destruct (IH A _ B y EY) as [y' Hy'] end. rewrite Hy'. eexists; reflexivity.
Qed.
Lemma exact_inverts : inverts exact_inv.
Proof.
  intros n a M H r c Hr Hc. unfold exact_inv in H. destruct (elim n a (fun _ => 0)) as [z|] eqn:E; [|discriminate].
  injection H as <-. destruct (elim_indep n a _ (fun r => one_if (Nat.eqb r c)) z E) as [y Hy]. rewrite Hy.
  rewrite (elim_sol n a _ y Hy r Hr). reflexivity.
Qed.
Lemma exact_total n a : regular_matrix n a -> exists M, exact_inv n a = Ok M.
Proof. intros H. unfold exact_inv. destruct (elim_total n a (fun _ => 0) H) as [z ->]. eexists; reflexivity. Qed.

(** * Polynomials and their roots *)
Fixpoint hor (c : list R) (t : R) : R := match c with [] => 0 | a :: c => a + t * hor c t end.
Fixpoint dhor (c : list R) (t : R) : R := match c with [] => 0 | a :: c => hor c t + t * dhor c t end.
Fixpoint quot (r : R) (c : list R) : list R := match c with [] => [] | a :: c' => match c' with [] => [] | _ => hor c' r :: quot r c' end end.
Lemma quot_cons r a b c : quot r (a :: b :: c) = hor (b :: c) r :: quot r (b :: c).
Proof. reflexivity. Qed.
Lemma quot_length r : forall c, length (quot r c) = pred (length c).
Proof. induction c as [|a [|b c] IH]; [reflexivity|reflexivity|]. rewrite quot_cons. cbn [length] in *. rewrite IH. reflexivity. Qed.
Lemma quot_hor r t : forall c, hor c t = hor c r + (t - r) * hor (quot r c) t.
Proof.
  induction c as [|a [|b c] IH]; [cbn; ring|cbn; ring|]. rewrite quot_cons.
  change (hor (a :: b :: c) t) with (a + t * hor (b :: c) t). change (hor (a :: b :: c) r) with (a + r * hor (b :: c) r).
  change (hor (hor (b :: c) r :: quot r (b :: c)) t) with (hor (b :: c) r + t * hor (quot r (b :: c)) t).
  rewrite IH at 1. ring.
Qed.
Lemma quot_dhor r t : forall c, dhor c t = hor (quot r c) t + (t - r) * dhor (quot r c) t.
Proof.
  induction c as [|a [|b c] IH]; [cbn; ring|cbn; ring|]. rewrite quot_cons.
  change (dhor (a :: b :: c) t) with (hor (b :: c) t + t * dhor (b :: c) t).
  change (hor (hor (b :: c) r :: quot r (b :: c)) t) with (hor (b :: c) r + t * hor (quot r (b :: c)) t).
  change (dhor (hor (b :: c) r :: quot r (b :: c)) t) with (hor (quot r (b :: c)) t + t * dhor (quot r (b :: c)) t).
  rewrite IH, (quot_hor r t (b :: c)). ring.
Qed.
Lemma quot_zero r : forall c, hor c r = 0 -> (forall k, nth k (quot r c) 0 = 0) -> forall k, nth k c 0 = 0.
Proof.
  induction c as [|a [|b c] IH]; intros H0 Hq k; [destruct k; reflexivity| |].
  - cbn in H0. destruct k as [|[|k]]; cbn; lra.
  - rewrite quot_cons in Hq. pose proof (Hq 0%nat) as X0. cbn [nth] in X0.
    change (hor (a :: b :: c) r) with (a + r * hor (b :: c) r) in H0. rewrite X0 in H0.
    destruct k as [|k]; [cbn; lra|]. apply (IH X0). intros j. apply (Hq (S j)).
Qed.
(** as many different roots as coefficients *)
Lemma roots_zero : forall c rs, NoDup rs -> (length c <= length rs)%nat -> (forall r, In r rs -> hor c r = 0) -> forall k, nth k c 0 = 0.
Proof.
  intros c rs. revert c. induction rs as [|r rs IH]; intros c ND HL HR k.
  - destruct c; [destruct k; reflexivity|cbn in HL; lia].
  - inversion ND as [|? ? Hni ND']; subst. apply (quot_zero r); [apply HR; left; reflexivity|].
    apply IH; [exact ND'|rewrite quot_length; cbn in HL; lia|].
    intros s Hs. pose proof (HR s (or_intror Hs)) as X. rewrite (quot_hor r s c), (HR r (or_introl eq_refl)) in X.
    assert (s <> r) by (intros ->; contradiction).
    assert (Y : (s - r) * hor (quot r c) s = 0) by lra. apply Rmult_integral in Y as [Y|Y]; [lra|exact Y].
Qed.
(** ... counting double roots twice *)
Lemma double_roots_zero : forall c rs, NoDup rs -> (length c <= 2 * length rs)%nat ->
  (forall r, In r rs -> hor c r = 0 /\ dhor c r = 0) -> forall k, nth k c 0 = 0.
Proof.
  intros c rs. revert c. induction rs as [|r rs IH]; intros c ND HL HR k.
  - destruct c; [destruct k; reflexivity|cbn in HL; lia].
  - inversion ND as [|? ? Hni ND']; subst. destruct (HR r (or_introl eq_refl)) as [R0 R1].
    assert (Q0 : hor (quot r c) r = 0) by (rewrite (quot_dhor r r c) in R1; lra).
    apply (quot_zero r); [exact R0|]. apply (quot_zero r); [exact Q0|].
    apply IH; [exact ND'|rewrite !quot_length; cbn in HL; lia|].
    intros s Hs. destruct (HR s (or_intror Hs)) as [S0 S1].
    assert (N : s - r <> 0) by (intros E; apply Hni; replace r with s by lra; exact Hs).
    rewrite (quot_hor r s c), R0, (quot_hor r s (quot r c)), Q0 in S0.
    assert (Z0 : hor (quot r (quot r c)) s = 0).
    { assert (Y : (s - r) * ((s - r) * hor (quot r (quot r c)) s) = 0) by lra.
      apply Rmult_integral in Y as [Y|Y]; [contradiction|]. apply Rmult_integral in Y as [Y|Y]; [contradiction|exact Y]. }
    split; [exact Z0|].
    rewrite (quot_dhor r s c), (quot_hor r s (quot r c)), Q0, (quot_dhor r s (quot r c)), Z0 in S1.
    assert (Y : (s - r) * ((s - r) * dhor (quot r (quot r c)) s) = 0) by lra.
    apply Rmult_integral in Y as [Y|Y]; [contradiction|]. apply Rmult_integral in Y as [Y|Y]; [contradiction|exact Y].
Qed.

(** * Monomial coefficients of Chebyshev polynomials *)
Fixpoint tc (k j : nat) : R :=
  match k with
  | O => one_if (Nat.eqb j 0)
  | S k' => match k' with
            | O => one_if (Nat.eqb j 1)
            | S k'' => 2 * match j with O => 0 | S j' => tc k' j' end - tc k'' j
            end
  end.
Lemma tc_SS k j : tc (S (S k)) j = 2 * match j with O => 0 | S j' => tc (S k) j' end - tc k j.
Proof. reflexivity. Qed.
Lemma tc_above : forall k j, (k < j)%nat -> tc k j = 0.
Proof.
  apply (two_step (fun k => forall j, (k < j)%nat -> tc k j = 0)).
  - intros [|j] H; [lia|reflexivity].
  - intros [|[|j]] H; [lia|lia|reflexivity].
  - intros k IH0 IH1 [|j] H; [lia|]. rewrite tc_SS, IH0, IH1 by lia. ring.
Qed.
Lemma tc_top k : tc k k <> 0.
Proof.
  assert (H : forall k, 0 < tc k k /\ 0 < tc (S k) (S k)).
  { induction k0 as [|k0 [A B]]; [cbn; lra|]. split; [exact B|]. rewrite tc_SS, (tc_above k0) by lia. lra. }
  pose proof (H k) as [X _]. lra.
Qed.
Lemma TT_tc t m : forall k, (k < m)%nat -> TT k t = sumn m (fun j => tc k j * t ^ j).
Proof.
  apply (two_step (fun k => (k < m)%nat -> TT k t = sumn m (fun j => tc k j * t ^ j))).
  - intros H. cbn [TT tc]. rewrite (sumn_pick m 0 (fun j => t ^ j) H). reflexivity.
  - intros H. cbn [TT tc]. rewrite (sumn_pick m 1 (fun j => t ^ j) H). cbn. ring.
  - intros k IH0 IH1 H. rewrite TT_SS, IH0, IH1 by lia. destruct m as [|m]; [lia|].
    rewrite (sumn_ext (S m) (fun j => tc (S (S k)) j * t ^ j) (fun j => (2 * match j with O => 0 | S j' => tc (S k) j' end) * t ^ j - tc k j * t ^ j))
      by (intros; rewrite tc_SS; ring).
    rewrite sumn_minus. f_equal. rewrite sumn_S, (tc_above (S k) m) by lia. rewrite sumn_first.
    rewrite (sumn_ext m (fun i => 2 * tc (S k) i * t ^ S i) (fun i => 2 * t * (tc (S k) i * t ^ i))) by (intros; cbn; ring).
    rewrite sumn_scale. ring.
Qed.
Lemma DD_tc t m : forall k, (k < m)%nat -> DD k t = sumn m (fun j => tc k j * (INR j * t ^ pred j)).
Proof.
  apply (two_step (fun k => (k < m)%nat -> DD k t = sumn m (fun j => tc k j * (INR j * t ^ pred j)))).
  - intros H. cbn [DD tc]. rewrite (sumn_pick m 0 (fun j => INR j * t ^ pred j) H). cbn. ring.
  - intros H. cbn [DD tc]. rewrite (sumn_pick m 1 (fun j => INR j * t ^ pred j) H). cbn. ring.
  - intros k IH0 IH1 H. rewrite DD_SS, IH0, IH1, (TT_tc t m (S k)) by lia. destruct m as [|m]; [lia|].
    rewrite (sumn_ext (S m) (fun j => tc (S (S k)) j * (INR j * t ^ pred j))
      (fun j => (2 * match j with O => 0 | S j' => tc (S k) j' end) * (INR j * t ^ pred j) - tc k j * (INR j * t ^ pred j)))
      by (intros; rewrite tc_SS; ring).
    rewrite sumn_minus.
    rewrite (sumn_first m (fun j => 2 * match j with O => 0 | S j' => tc (S k) j' end * _)).
    rewrite (sumn_ext m (fun i => 2 * tc (S k) i * (INR (S i) * t ^ pred (S i)))
       (fun i => 2 * t * (tc (S k) i * (INR i * t ^ pred i)) + 2 * (tc (S k) i * t ^ i))).
    2:{ intros i _. cbn [pred]. rewrite S_INR. destruct i as [|i]; [cbn; ring|]. cbn [pred]. cbn [pow]. ring. }
    rewrite sumn_plus, !sumn_scale, !sumn_S, (tc_above (S k) m) by lia. cbn [INR]. ring.
Qed.
(** a sum of Chebyshev polynomials as a list of coefficients *)
Definition mono (m : nat) (a : nat -> R) : list R := map (fun j => sumn m (fun k => a k * tc k j)) (seq 0 m).
Lemma hor_map (f : nat -> R) t : forall m s, hor (map f (seq s m)) t = sumn m (fun j => f (s + j)%nat * t ^ j).
Proof.
  induction m as [|m IH]; intros s; [reflexivity|]. cbn [seq map hor]. rewrite IH, sumn_first, Nat.add_0_r, <- sumn_scale. cbn [pow]. rewrite Rmult_1_r.
  f_equal. apply sumn_ext. intros i _. replace (S s + i)%nat with (s + S i)%nat by lia. cbn. ring.
Qed.
Lemma dhor_map (f : nat -> R) t : forall m s, dhor (map f (seq s m)) t = sumn m (fun j => f (s + j)%nat * (INR j * t ^ pred j)).
Proof.
  induction m as [|m IH]; intros s; [reflexivity|]. cbn [seq map dhor]. rewrite IH, hor_map, sumn_first, <- sumn_scale. change (INR 0) with 0.
  rewrite (sumn_ext m (fun i => f (s + S i)%nat * (INR (S i) * t ^ pred (S i)))
    (fun i => f (S s + i)%nat * t ^ i + t * (f (S s + i)%nat * (INR i * t ^ pred i)))).
  - rewrite sumn_plus. ring.
  - intros i _. rewrite S_INR. replace (S s + i)%nat with (s + S i)%nat by lia. cbn [pred]. destruct i as [|i]; [cbn; ring|]. cbn [pred]. cbn [pow]. ring.
Qed.
Lemma mono_hor m a t : hor (mono m a) t = sumn m (fun k => TT k t * a k).
Proof.
  unfold mono. rewrite hor_map. cbn [Nat.add].
  rewrite (sumn_ext m _ (fun j => sumn m (fun k => a k * (tc k j * t ^ j)))).
  - rewrite sumn_swap. apply sumn_ext. intros k Hk. rewrite sumn_scale, <- TT_tc by exact Hk. ring.
  - intros j _. rewrite <- sumn_scale_r. apply sumn_ext. intros; ring.
Qed.
Lemma mono_dhor m a t : dhor (mono m a) t = sumn m (fun k => DD k t * a k).
Proof.
  unfold mono. rewrite dhor_map. cbn [Nat.add].
  rewrite (sumn_ext m _ (fun j => sumn m (fun k => a k * (tc k j * (INR j * t ^ pred j))))).
  - rewrite sumn_swap. apply sumn_ext. intros k Hk. rewrite sumn_scale, <- DD_tc by exact Hk. ring.
  - intros j _. rewrite <- sumn_scale_r. apply sumn_ext. intros; ring.
Qed.
Lemma mono_length m a : length (mono m a) = m.
Proof. unfold mono. rewrite map_length, seq_length. reflexivity. Qed.
Lemma mono_nth m a j : (j < m)%nat -> nth j (mono m a) 0 = sumn m (fun k => a k * tc k j).
Proof.
  intros H. unfold mono. set (f := fun j => sumn m (fun k => a k * tc k j)).
  rewrite (nth_indep _ 0 (f 0%nat)) by (rewrite map_length, seq_length; exact H). rewrite (map_nth f), seq_nth by exact H. reflexivity.
Qed.
Lemma mono_zero m a : (forall j, nth j (mono m a) 0 = 0) -> forall k, (k < m)%nat -> a k = 0.
Proof.
  intros H.
  assert (X : forall d k, (k < m)%nat -> (m - k <= d)%nat -> a k = 0).
  { induction d as [|d IH]; intros k Hk Hd; [lia|].
    pose proof (H k) as E. rewrite mono_nth in E by exact Hk.
    rewrite (sumn_ext m _ (fun i => one_if (Nat.eqb i k) * (a i * tc i k))) in E.
    - rewrite (sumn_pick m k (fun i => a i * tc i k) Hk) in E. apply Rmult_integral in E as [E|E]; [exact E|].
      exfalso. exact (tc_top k E).
    - intros i Hi. destruct (Nat.eqb_spec i k) as [->|N]; [cbn; ring|]. cbn [one_if].
      destruct (Nat.lt_ge_cases i k) as [L|G]; [rewrite tc_above by exact L; ring|]. rewrite (IH i) by lia. ring. }
  intros k Hk. apply (X (m - k)%nat k Hk). lia.
Qed.
Lemma node_inj n i j : (2 <= n)%nat -> node n i = node n j -> i = j.
Proof.
  intros H E. unfold node in E. pose proof (INR_pred n H) as P. apply INR_eq.
  apply (Rmult_eq_reg_r ((- 1 - 1) / INR (n - 1))); [lra|]. unfold Rdiv. apply Rmult_integral_contrapositive. split; [lra|].
  apply Rinv_neq_0_compat. lra.
Qed.
Lemma nodes_NoDup n : (2 <= n)%nat -> NoDup (map (node n) (seq 0 n)).
Proof. intros H. apply FinFun.Injective_map_NoDup; [|apply seq_NoDup]. intros i j. apply node_inj. exact H. Qed.
Lemma val_tmat n m a i : val m (tmat n m) a i = sumn m (fun k => TT k (node n i) * a k).
Proof. unfold val. apply sumn_ext. intros k Hk. rewrite tmat_TT by exact Hk. reflexivity. Qed.
Lemma val_tdot n m a i : val m (tdot n m) a i = sumn m (fun k => DD k (node n i) * a k).
Proof. unfold val. apply sumn_ext. intros k Hk. rewrite tdot_DD by exact Hk. reflexivity. Qed.
Lemma values_zero_x n m a : (2 <= n)%nat -> (m <= n)%nat -> (forall i, (i < n)%nat -> val m (tmat n m) a i = 0) ->
  forall k, (k < m)%nat -> a k = 0.
Proof.
  intros Hn Hm H. apply mono_zero. apply (roots_zero _ (map (node n) (seq 0 n)) (nodes_NoDup n Hn)).
  - rewrite mono_length, map_length, seq_length. exact Hm.
  - intros r Hr. apply in_map_iff in Hr as [i [<- Hi]]. apply in_seq in Hi. rewrite mono_hor, <- val_tmat. apply H. lia.
Qed.
Lemma values_zero_v n m a : (2 <= n)%nat -> (m <= 2 * n)%nat ->
  (forall i, (i < n)%nat -> val m (tmat n m) a i = 0 /\ val m (tdot n m) a i = 0) -> forall k, (k < m)%nat -> a k = 0.
Proof.
  intros Hn Hm H. apply mono_zero. apply (double_roots_zero _ (map (node n) (seq 0 n)) (nodes_NoDup n Hn)).
  - rewrite mono_length, map_length, seq_length. exact Hm.
  - intros r Hr. apply in_map_iff in Hr as [i [<- Hi]]. apply in_seq in Hi. rewrite mono_hor, mono_dhor, <- val_tmat, <- val_tdot. apply H. lia.
Qed.

(** * The systems have one solution *)
Lemma regular_x n m : (2 <= m)%nat -> (m <= n)%nat -> regular_matrix (m + 2) (c1_x n m).
Proof.
  intros Hm Hn z Hz.
  assert (A0 : forall k, (k < m)%nat -> z k = 0).
  { apply (values_zero_x n m); [lia|exact Hn|]. intros i Hi.
    apply (kernel_values n m 2 (tmat n m) (tdot n m) 0 (ends_x n m) z (fun e => z (m + e)%nat)); [lra| | |exact Hi].
    - intros k Hk. rewrite Rmult_0_l, Rplus_0_r, <- c1_x_row by exact Hk. apply Hz. lia.
    - intros e He. rewrite <- c1_x_end by exact He. apply Hz. lia. }
  assert (X : forall r, (r < m)%nat -> TT r 1 * z m + TT r (-1) * z (m + 1)%nat = 0).
  { intros r Hr. pose proof (Hz r ltac:(lia)) as E. rewrite c1_x_row in E by exact Hr.
    rewrite (sumn_ext n _ (fun _ => 0)) in E.
    2:{ intros i Hi. unfold val. rewrite (sumn_ext m _ (fun _ => 0)) by (intros k Hk; rewrite A0 by exact Hk; ring). rewrite sumn_0. ring. }
    rewrite sumn_0, !sumn_S in E. cbn [ends_x] in E. rewrite !tmat_TT, node_first, node_last in E by lia.
    unfold sumn in E. cbn in E. rewrite Nat.add_0_r in E. lra. }
  pose proof (X 0%nat ltac:(lia)) as X0. pose proof (X 1%nat ltac:(lia)) as X1. cbn [TT] in X0, X1.
  intros k Hk. destruct (Nat.lt_ge_cases k m) as [L|G]; [apply A0; exact L|].
  destruct (Nat.eq_dec k m) as [->|N]; [lra|]. replace k with (m + 1)%nat by lia. lra.
Qed.
Lemma regular_v n m w : 0 < w -> (4 <= m)%nat -> (m <= 2 * n)%nat -> regular_matrix (m + 4) (c1_v n m w).
Proof.
  intros Hw Hm Hn z Hz.
  assert (A0 : forall k, (k < m)%nat -> z k = 0).
  { apply (values_zero_v n m); [lia|exact Hn|]. intros i Hi.
    assert (X : val m (tmat n m) z i = 0 /\ w * val m (tdot n m) z i = 0).
    { apply (kernel_values n m 4 (tmat n m) (tdot n m) w (ends_v n m) z (fun e => z (m + e)%nat)); [lra| | |exact Hi].
      - intros k Hk. rewrite <- c1_v_row by exact Hk. apply Hz. lia.
      - intros e He. rewrite <- (c1_v_end n m w) by exact He. apply Hz. lia. }
    destruct X as [X0 X1]. split; [exact X0|]. apply Rmult_integral in X1 as [X1|X1]; [lra|exact X1]. }
  assert (X : forall r, (r < m)%nat -> TT r 1 * z m + DD r 1 * z (m + 1)%nat + TT r (-1) * z (m + 2)%nat + DD r (-1) * z (m + 3)%nat = 0).
  { intros r Hr. pose proof (Hz r ltac:(lia)) as E. rewrite c1_v_row in E by exact Hr.
    assert (V : forall M i, val m M z i = 0).
    { intros M i. unfold val. rewrite (sumn_ext m _ (fun _ => 0)) by (intros k Hk; rewrite A0 by exact Hk; ring). apply sumn_0. }
    rewrite (sumn_ext n _ (fun _ => 0)) in E by (intros i _; rewrite V; ring).
    rewrite (sumn_ext n (fun i => tdot n m i r * _) (fun _ => 0)) in E by (intros i _; rewrite V; ring).
    rewrite !sumn_0, !sumn_S in E. cbn [ends_v] in E. rewrite !tmat_TT, !tdot_DD, node_first, node_last in E by lia.
    unfold sumn in E. cbn in E. rewrite Nat.add_0_r in E. lra. }
  pose proof (X 0%nat ltac:(lia)) as X0. pose proof (X 1%nat ltac:(lia)) as X1. pose proof (X 2%nat ltac:(lia)) as X2.
  pose proof (X 3%nat ltac:(lia)) as X3. cbn [TT DD] in X0, X1, X2, X3.
  intros k Hk. destruct (Nat.lt_ge_cases k m) as [L|G]; [apply A0; exact L|].
  destruct (Nat.eq_dec k m) as [->|N0]; [lra|]. destruct (Nat.eq_dec k (m + 1)) as [->|N1]; [lra|].
  destruct (Nat.eq_dec k (m + 2)) as [->|N2]; [lra|]. replace k with (m + 3)%nat by lia. lra.
Qed.
