(** The equations that a fit satisfies, with and without velocities. *)
From Verif Require Import Base Astrom_Model Cheby_Model Cheby_Spec Astrom_Proofs Cheby_Proofs Cheby_Proofs2.
From Coq Require Import Reals Lra Lia.
Open Scope R_scope.

Lemma apply_length q x : length (apply_mult q x) = m_rows q.
Proof. unfold apply_mult. rewrite map_length, seq_length. reflexivity. Qed.
Lemma apply_nth q x k : (k < m_rows q)%nat -> nth k (apply_mult q x) 0 = sumn (m_cols q) (fun i => m_at q k i * nth i x 0).
Proof.
  intros H. unfold apply_mult. set (f := fun k => _).
  rewrite (nth_indep _ 0 (f 0%nat)) by (rewrite map_length, seq_length; exact H).
  rewrite (map_nth f), seq_nth by exact H. reflexivity.
Qed.
Lemma sum_nth p q k : length p = length q -> (k < length p)%nat ->
  nth k (map (fun u : R * R => fst u + snd u) (combine p q)) 0 = nth k p 0 + nth k q 0.
Proof.
  intros HL H. rewrite (nth_indep _ 0 ((fun u : R * R => fst u + snd u) (0, 0))) by (rewrite map_length, combine_length; lia).
  rewrite (map_nth (fun u : R * R => fst u + snd u)), combine_nth by exact HL. reflexivity.
Qed.
Lemma even_2 j : Nat.even (2 * j) = true.
Proof. rewrite Nat.even_mul. reflexivity. Qed.
Lemma even_21 j : Nat.even (2 * j + 1) = false.
Proof. rewrite Nat.even_add, Nat.even_mul. reflexivity. Qed.
Lemma div2_2 j : Nat.div2 (2 * j) = j.
Proof. apply Nat.div2_double. Qed.
Lemma div2_21 j : Nat.div2 (2 * j + 1) = j.
Proof. rewrite Nat.add_1_r. apply Nat.div2_succ_double. Qed.
(** the data in the order of the nodes *)
Definition flip (n : nat) (x : list R) (j : nat) : R := nth (n - 1 - j) x 0.
Lemma flip_sum n x (g : nat -> R) : sumn n (fun i => g (n - 1 - i)%nat * nth i x 0) = sumn n (fun j => g j * flip n x j).
Proof.
  rewrite <- (sumn_rev n (fun j => g j * flip n x j)). apply sumn_ext. intros i Hi. unfold flip. f_equal. f_equal. lia.
Qed.
Lemma pick_first n (b : nat -> bool) j0 (f : nat -> R) : (j0 < n)%nat -> (forall j, (j < n)%nat -> b j = Nat.eqb j j0) ->
  sumn n (fun j => one_if (b j) * f j) = f j0.
Proof. intros H E. rewrite (sumn_ext n _ (fun j => one_if (Nat.eqb j j0) * f j)); [apply sumn_pick; exact H|]. intros j Hj. rewrite E by exact Hj. reflexivity. Qed.
Lemma pick_none n (b : nat -> bool) (f : nat -> R) : (forall j, (j < n)%nat -> b j = false) -> sumn n (fun j => one_if (b j) * f j) = 0.
Proof. intros E. rewrite (sumn_ext n _ (fun _ => 0)); [apply sumn_0|]. intros j Hj. rewrite E by exact Hj. cbn. ring. Qed.
Ltac eqb_cases := intros j Hj; cbv beta;
  repeat match goal with |- context [Nat.eqb ?a ?b] => destruct (Nat.eqb_spec a b) end; try reflexivity; lia.

(** * With velocities *)
Section Velocities.
  Variables (inv : inverter) (n m : nat) (w : R) (qa qb : multiplier) (x d : list R).
  Hypothesis HI : inverts inv.
  Hypothesis Hn : (2 <= n)%nat.
  Hypothesis HQ : make_cheb_matrix inv n m w = Ok (qa, qb).
  Definition coeffs_v := map (fun p : R * R => fst p + snd p) (combine (apply_mult qa x) (apply_mult qb d)).
  Lemma solved_v : m_rows qa = m /\ m_cols qa = n /\ m_rows qb = m /\ m_cols qb = n /\
    exists z : nat -> R, (forall k, (k < m)%nat -> nth k coeffs_v 0 = z k) /\
    forall r, (r < m + 4)%nat -> sumn (m + 4) (fun k => c1_v n m w r k * z k) =
      sumn n (fun j => c2_v n m w r (2 * j)%nat * flip n x j) + sumn n (fun j => c2_v n m w r (2 * j + 1)%nat * flip n d j).
  Proof.
    unfold make_cheb_matrix in HQ. destruct (inv (m + 4)%nat (c1_v n m w)) as [M|e] eqn:EM; [|discriminate HQ].
    cbn [bind] in HQ. injection HQ as Ea Eb. 
    split; [rewrite <- Ea; reflexivity|]. split; [rewrite <- Ea; reflexivity|].
    split; [rewrite <- Eb; reflexivity|]. split; [rewrite <- Eb; reflexivity|].
    set (c := dot (m + 4) M (c2_v n m w)) in *.
    exists (fun k => sumn n (fun i => c k (2 * (n - 1 - i))%nat * nth i x 0) + sumn n (fun i => c k (2 * (n - 1 - i) + 1)%nat * nth i d 0)).
    split.
    - intros k Hk. unfold coeffs_v. rewrite sum_nth.
      + rewrite !apply_nth by (rewrite <- ?Ea, <- ?Eb; exact Hk). rewrite <- Ea, <- Eb. reflexivity.
      + rewrite !apply_length, <- Ea, <- Eb. reflexivity.
      + rewrite apply_length, <- Ea. exact Hk.
    - intros r Hr.
      rewrite (sumn_ext (m + 4) _ (fun k => c1_v n m w r k * sumn n (fun i => c k ((fun i => 2 * (n - 1 - i))%nat i) * nth i x 0)
        + c1_v n m w r k * sumn n (fun i => c k ((fun i => 2 * (n - 1 - i) + 1)%nat i) * nth i d 0))) by (intros; ring).
      rewrite sumn_plus.
      rewrite (linear_solve (m + 4) (c1_v n m w) c (c2_v n m w)) by (intros j; apply (solve inv _ _ _ _ HI EM); exact Hr).
      rewrite (linear_solve (m + 4) (c1_v n m w) c (c2_v n m w)) by (intros j; apply (solve inv _ _ _ _ HI EM); exact Hr).
      rewrite <- (flip_sum n x (fun j => c2_v n m w r (2 * j)%nat)), <- (flip_sum n d (fun j => c2_v n m w r (2 * j + 1)%nat)).
      reflexivity.
  Qed.
  Lemma c1_v_row r (z : nat -> R) : (r < m)%nat -> sumn (m + 4) (fun k => c1_v n m w r k * z k) =
    sumn n (fun i => tmat n m i r * val m (tmat n m) z i) + w * sumn n (fun i => tdot n m i r * val m (tdot n m) z i)
    + sumn 4 (fun e => ends_v n m e r * z (m + e)%nat).
  Proof.
    clear HI Hn HQ. intros Hr. rewrite sumn_split. f_equal.
    - unfold val. rewrite <- sumn_scale, <- sumn_plus.
      rewrite (sumn_ext m _ (fun k => sumn n (fun i => tmat n m i r * (tmat n m i k * z k) + w * (tdot n m i r * (tdot n m i k * z k))))).
      + rewrite sumn_swap. apply sumn_ext. intros i _. rewrite sumn_plus, !sumn_scale. reflexivity.
      + intros k Hk. unfold c1_v. rewrite (proj2 (Nat.ltb_lt r m) Hr), (proj2 (Nat.ltb_lt k m) Hk).
        rewrite Rmult_plus_distr_r, <- !sumn_scale_r, <- sumn_plus. apply sumn_ext. intros; ring.
    - apply sumn_ext. intros e He. unfold c1_v. rewrite (proj2 (Nat.ltb_lt r m) Hr).
      rewrite (proj2 (Nat.ltb_ge (m + e) m)) by lia. replace (m + e - m)%nat with e by lia. reflexivity.
  Qed.
  Lemma c1_v_end e (z : nat -> R) : (e < 4)%nat -> sumn (m + 4) (fun k => c1_v n m w (m + e)%nat k * z k) =
    sumn m (fun k => ends_v n m e k * z k).
  Proof.
    clear HI Hn HQ. intros He. rewrite sumn_split. rewrite (sumn_ext 4 _ (fun _ => 0)).
    - rewrite sumn_0, Rplus_0_r. apply sumn_ext. intros k Hk. unfold c1_v.
      rewrite (proj2 (Nat.ltb_ge (m + e) m)) by lia. rewrite (proj2 (Nat.ltb_lt k m) Hk). replace (m + e - m)%nat with e by lia. reflexivity.
    - intros j Hj. unfold c1_v. rewrite (proj2 (Nat.ltb_ge (m + e) m)) by lia. rewrite (proj2 (Nat.ltb_ge (m + j) m)) by lia. ring.
  Qed.
  Lemma fit_v : exists z l : nat -> R,
    (forall k, (k < m)%nat -> nth k coeffs_v 0 = z k) /\
    (forall k, (k < m)%nat ->
       sumn n (fun i => tmat n m i k * val m (tmat n m) z i) + w * sumn n (fun i => tdot n m i k * val m (tdot n m) z i)
       + sumn 4 (fun e => ends_v n m e k * l e) =
       sumn n (fun i => tmat n m i k * flip n x i) + w * sumn n (fun i => tdot n m i k * flip n d i)) /\
    sumn m (fun k => ends_v n m 0 k * z k) = flip n x 0 /\ sumn m (fun k => ends_v n m 1 k * z k) = flip n d 0 /\
    sumn m (fun k => ends_v n m 2 k * z k) = flip n x (n - 1) /\ sumn m (fun k => ends_v n m 3 k * z k) = flip n d (n - 1).
  Proof.
    destruct solved_v as [_ [_ [_ [_ [z [Hz E]]]]]]. exists z, (fun e => z (m + e)%nat). split; [exact Hz|]. split.
    - intros k Hk. rewrite <- c1_v_row by exact Hk. rewrite E by lia. rewrite <- sumn_scale. f_equal; apply sumn_ext; intros j _; unfold c2_v;
        rewrite (proj2 (Nat.ltb_lt k m) Hk).
      + rewrite even_2, div2_2. reflexivity.
      + rewrite even_21, div2_21. ring.
    - assert (X : forall e, (e < 4)%nat -> sumn m (fun k => ends_v n m e k * z k) =
        sumn n (fun j => c2_v n m w (m + e)%nat (2 * j)%nat * flip n x j) + sumn n (fun j => c2_v n m w (m + e)%nat (2 * j + 1)%nat * flip n d j)).
      { intros e He. rewrite <- c1_v_end by exact He. apply E. lia. }
      rewrite !X by lia. clear X.
      assert (Y : forall e c, (e < 4)%nat -> c2_v n m w (m + e)%nat c =
        one_if (Nat.eqb c (match e with O => 0 | 1 => 1 | 2 => 2 * n - 2 | _ => 2 * n - 1 end)%nat)).
      { intros e c He. unfold c2_v. rewrite (proj2 (Nat.ltb_ge (m + e) m)) by lia.
        destruct e as [|[|[|[|e]]]]; [| | | |lia];
          repeat match goal with |- context [Nat.eqb (m + ?a) ?b] => destruct (Nat.eqb_spec (m + a) b); try lia end; reflexivity. }
      repeat split.
      + rewrite (sumn_ext n _ (fun j => one_if (Nat.eqb (2 * j) 0) * flip n x j)) by (intros; rewrite Y by lia; reflexivity).
        rewrite (sumn_ext n (fun j => _ * flip n d j) (fun j => one_if (Nat.eqb (2 * j + 1) 0) * flip n d j)) by (intros; rewrite Y by lia; reflexivity).
        rewrite (pick_first n _ 0), pick_none; [ring| eqb_cases | lia | eqb_cases].
      + rewrite (sumn_ext n _ (fun j => one_if (Nat.eqb (2 * j) 1) * flip n x j)) by (intros; rewrite Y by lia; reflexivity).
        rewrite (sumn_ext n (fun j => _ * flip n d j) (fun j => one_if (Nat.eqb (2 * j + 1) 1) * flip n d j)) by (intros; rewrite Y by lia; reflexivity).
        rewrite pick_none, (pick_first n _ 0); [ring| lia | eqb_cases | eqb_cases].
      + rewrite (sumn_ext n _ (fun j => one_if (Nat.eqb (2 * j) (2 * n - 2)) * flip n x j)) by (intros; rewrite Y by lia; reflexivity).
        rewrite (sumn_ext n (fun j => _ * flip n d j) (fun j => one_if (Nat.eqb (2 * j + 1) (2 * n - 2)) * flip n d j)) by (intros; rewrite Y by lia; reflexivity).
        rewrite (pick_first n _ (n - 1)), pick_none; [ring| eqb_cases | lia | eqb_cases].
      + rewrite (sumn_ext n _ (fun j => one_if (Nat.eqb (2 * j) (2 * n - 1)) * flip n x j)) by (intros; rewrite Y by lia; reflexivity).
        rewrite (sumn_ext n (fun j => _ * flip n d j) (fun j => one_if (Nat.eqb (2 * j + 1) (2 * n - 1)) * flip n d j)) by (intros; rewrite Y by lia; reflexivity).
        rewrite pick_none, (pick_first n _ (n - 1)); [ring| lia | eqb_cases | eqb_cases].
  Qed.
End Velocities.

(** * Without *)
Section Positions.
  Variables (inv : inverter) (n m : nat) (q : multiplier) (x : list R).
  Hypothesis HI : inverts inv.
  Hypothesis Hn : (2 <= n)%nat.
  Hypothesis HQ : make_cheb_matrix_only_x inv n m = Ok q.
  Lemma solved_x : m_rows q = m /\ m_cols q = n /\
    exists z : nat -> R, (forall k, (k < m)%nat -> nth k (apply_mult q x) 0 = z k) /\
    forall r, (r < m + 2)%nat -> sumn (m + 2) (fun k => c1_x n m r k * z k) = sumn n (fun j => c2_x n m r j * flip n x j).
  Proof.
    unfold make_cheb_matrix_only_x in HQ. destruct (inv (m + 2)%nat (c1_x n m)) as [M|e] eqn:EM; [|discriminate HQ].
    cbn [bind] in HQ. injection HQ as Ea.
    split; [rewrite <- Ea; reflexivity|]. split; [rewrite <- Ea; reflexivity|].
    set (c := dot (m + 2) M (c2_x n m)) in *.
    exists (fun k => sumn n (fun i => c k ((fun i => n - 1 - i)%nat i) * nth i x 0)).
    split.
    - intros k Hk. rewrite apply_nth by (rewrite <- Ea; exact Hk). rewrite <- Ea. reflexivity.
    - intros r Hr.
      rewrite (linear_solve (m + 2) (c1_x n m) c (c2_x n m)) by (intros j; apply (solve inv _ _ _ _ HI EM); exact Hr).
      rewrite <- (flip_sum n x (fun j => c2_x n m r j)). reflexivity.
  Qed.
  Lemma c1_x_row r (z : nat -> R) : (r < m)%nat -> sumn (m + 2) (fun k => c1_x n m r k * z k) =
    sumn n (fun i => tmat n m i r * val m (tmat n m) z i) + sumn 2 (fun e => ends_x n m e r * z (m + e)%nat).
  Proof.
    clear HI Hn HQ. intros Hr. rewrite sumn_split. f_equal.
    - unfold val. rewrite (sumn_ext m _ (fun k => sumn n (fun i => tmat n m i r * (tmat n m i k * z k)))).
      + rewrite sumn_swap. apply sumn_ext. intros i _. rewrite sumn_scale. reflexivity.
      + intros k Hk. unfold c1_x. rewrite (proj2 (Nat.ltb_lt r m) Hr), (proj2 (Nat.ltb_lt k m) Hk).
        rewrite <- !sumn_scale_r. apply sumn_ext. intros; ring.
    - apply sumn_ext. intros e He. unfold c1_x. rewrite (proj2 (Nat.ltb_lt r m) Hr).
      rewrite (proj2 (Nat.ltb_ge (m + e) m)) by lia. replace (m + e - m)%nat with e by lia. reflexivity.
  Qed.
  Lemma c1_x_end e (z : nat -> R) : (e < 2)%nat -> sumn (m + 2) (fun k => c1_x n m (m + e)%nat k * z k) =
    sumn m (fun k => ends_x n m e k * z k).
  Proof.
    clear HI Hn HQ. intros He. rewrite sumn_split. rewrite (sumn_ext 2 _ (fun _ => 0)).
    - rewrite sumn_0, Rplus_0_r. apply sumn_ext. intros k Hk. unfold c1_x.
      rewrite (proj2 (Nat.ltb_ge (m + e) m)) by lia. rewrite (proj2 (Nat.ltb_lt k m) Hk). replace (m + e - m)%nat with e by lia. reflexivity.
    - intros j Hj. unfold c1_x. rewrite (proj2 (Nat.ltb_ge (m + e) m)) by lia. rewrite (proj2 (Nat.ltb_ge (m + j) m)) by lia. ring.
  Qed.
  Lemma fit_x : exists z l : nat -> R,
    (forall k, (k < m)%nat -> nth k (apply_mult q x) 0 = z k) /\
    (forall k, (k < m)%nat ->
       sumn n (fun i => tmat n m i k * val m (tmat n m) z i) + 0 * sumn n (fun i => tdot n m i k * val m (tdot n m) z i)
       + sumn 2 (fun e => ends_x n m e k * l e) =
       sumn n (fun i => tmat n m i k * flip n x i) + 0 * sumn n (fun i => tdot n m i k * 0)) /\
    sumn m (fun k => ends_x n m 0 k * z k) = flip n x 0 /\
    sumn m (fun k => ends_x n m 1 k * z k) = flip n x (n - 1).
  Proof.
    destruct solved_x as [_ [_ [z [Hz E]]]]. exists z, (fun e => z (m + e)%nat). split; [exact Hz|]. split.
    - intros k Hk. rewrite !Rmult_0_l, !Rplus_0_r. rewrite <- c1_x_row by exact Hk. rewrite E by lia. apply sumn_ext; intros j _; unfold c2_x.
      rewrite (proj2 (Nat.ltb_lt k m) Hk). reflexivity.
    - assert (X : forall e, (e < 2)%nat -> sumn m (fun k => ends_x n m e k * z k) = sumn n (fun j => c2_x n m (m + e)%nat j * flip n x j)).
      { intros e He. rewrite <- c1_x_end by exact He. apply E. lia. }
      rewrite !X by lia. clear X.
      assert (Y : forall e c, (e < 2)%nat -> c2_x n m (m + e)%nat c = one_if (Nat.eqb c (match e with O => 0 | _ => n - 1 end)%nat)).
      { intros e c He. unfold c2_x. rewrite (proj2 (Nat.ltb_ge (m + e) m)) by lia.
        destruct e as [|[|e]]; [| |lia];
          repeat match goal with |- context [Nat.eqb (m + ?a) ?b] => destruct (Nat.eqb_spec (m + a) b); try lia end; reflexivity. }
      split.
      + rewrite (sumn_ext n _ (fun j => one_if (Nat.eqb j 0) * flip n x j)) by (intros; rewrite Y by lia; reflexivity).
        rewrite (pick_first n _ 0); [reflexivity| lia | eqb_cases].
      + rewrite (sumn_ext n _ (fun j => one_if (Nat.eqb j (n - 1)) * flip n x j)) by (intros; rewrite Y by lia; reflexivity).
        rewrite (pick_first n _ (n - 1)); [reflexivity| lia | eqb_cases].
  Qed.
End Positions.
