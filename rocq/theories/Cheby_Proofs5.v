(** What a fit that returns says about the positions and velocities that it was given. *)
From Verif Require Import Base Astrom_Model Cheby_Model Cheby_Spec Astrom_Proofs Cheby_Proofs Cheby_Proofs2 Cheby_Proofs3 Cheby_Proofs4.
From Coq Require Import Reals Lra Lia.
Open Scope R_scope.

Lemma value_ser t0 t1 p u : value_at t0 t1 p u = ser TT 0 p (scaled t0 t1 u).
Proof. unfold value_at, chebeval. rewrite cheb_y_ser. reflexivity. Qed.
Lemma slope_ser t0 t1 p u : slope_at t0 t1 p u = 2 * ser DD 0 p (scaled t0 t1 u) / (t1 - t0).
Proof. unfold slope_at, chebeval. rewrite cheb_yv_ser. reflexivity. Qed.
Lemma ser_val f p s : ser f 0 p s = sumn (length p) (fun k => f k s * nth k p 0).
Proof. rewrite ser_nth. apply sumn_ext. intros i _. cbn [Nat.add]. ring. Qed.
Lemma scaled_first a b : a <> b -> scaled a b a = -1.
Proof. intros H. unfold scaled. field. lra. Qed.
Lemma scaled_last a b : a <> b -> scaled a b b = 1.
Proof. intros H. unfold scaled. field. lra. Qed.
Lemma scaled_shift a b u : scaled (a - a) (b - a) (u - a) = scaled a b u.
Proof. unfold scaled. f_equal; ring. Qed.
Lemma scaled_node n t0 h i : (2 <= n)%nat -> h <> 0 -> (i < n)%nat ->
  scaled t0 (t0 + INR (n - 1) * h) (t0 + INR i * h) = node n (n - 1 - i).
Proof.
  intros Hn Hh Hi. unfold scaled, node. pose proof (INR_pred n Hn) as P. rewrite (minus_INR (n - 1) i) by lia. field. split; [lra|].
  replace (t0 + INR (n - 1) * h - t0) with (INR (n - 1) * h) by ring. apply Rmult_integral_contrapositive. split; [lra|exact Hh].
Qed.

(** * Opening a fit *)
Lemma misfit_redo q n m : misfit q n m -> redo q n m = true.
Proof.
  destruct q as [q|]; [|reflexivity]. cbn [misfit redo]. intros [H|H]; apply Nat.eqb_neq in H; rewrite H; [reflexivity|]. rewrite Bool.andb_false_r. reflexivity.
Qed.
Definition t_first (t : list R) : R := nth 0 t 0.
Definition t_last (t : list R) : R := nth (length t - 1) t 0.
Definition halved (t d : list R) : list R := map (fun v => v * (t_last t - t_first t - (t_first t - t_first t)) / 2) d.
Lemma open_x inv t x xm dxm m a res rms mx : from_only_x inv (length t) m xm ->
  chebfit inv t x None xm dxm m = Ok (a, res, rms, mx) ->
  length x = length t /\ (2 <= m <= length t)%nat /\ exists q, make_cheb_matrix_only_x inv (length t) m = Ok q /\ a = apply_mult q x.
Proof.
  intros HF H. unfold chebfit in H. destruct (Nat.eqb_spec (length x) (length t)) as [E|E]; [|discriminate].
  cbn [negb] in H. destruct (Nat.ltb (length t) m || Nat.ltb m 2)%bool eqn:EB; [discriminate|].
  apply Bool.orb_false_iff in EB as [B1 B2]. apply Nat.ltb_ge in B1, B2.
  unfold fit_coeffs in H. split; [exact E|]. split; [lia|].
  assert (X : exists q, make_cheb_matrix_only_x inv (length t) m = Ok q /\
    match xm with Some q => if redo xm (length t) m then make_cheb_matrix_only_x inv (length t) m else Ok q
              | None => make_cheb_matrix_only_x inv (length t) m end = Ok q).
  { destruct HF as [HF|[q [Q1 Q2]]].
    - apply misfit_redo in HF. destruct xm as [q|]; [rewrite HF in H; rewrite HF|];
        (destruct (make_cheb_matrix_only_x inv (length t) m) as [q'|e] eqn:EQ; [|discriminate H]); exists q'; split; reflexivity.
    - exists q. split; [exact Q1|]. subst xm. destruct (redo _ _ _); [exact Q1|reflexivity]. }
  destruct X as [q [Q1 Q2]]. exists q. split; [exact Q1|]. rewrite Q2 in H. cbn [bind] in H. injection H as <- _ _ _. reflexivity.
Qed.
Lemma open_v inv t x d xm dxm m w a res rms mx : from_matrix inv (length t) m w xm dxm ->
  chebfit inv t x (Some d) xm dxm m = Ok (a, res, rms, mx) ->
  length x = length t /\ length d = length t /\ (4 <= m <= 2 * length t)%nat /\
  exists qa qb, make_cheb_matrix inv (length t) m w = Ok (qa, qb) /\ a = coeffs_v qa qb x (halved t d).
Proof.
  intros HF H. unfold chebfit in H. destruct (Nat.eqb_spec (length x) (length t)) as [E|E]; [|discriminate].
  cbn [negb] in H. destruct (Nat.ltb (2 * length t) m || Nat.ltb m 4)%bool eqn:EB; [discriminate|].
  apply Bool.orb_false_iff in EB as [B1 B2]. apply Nat.ltb_ge in B1, B2.
  unfold fit_coeffs in H. split; [exact E|].
  assert (X : exists qa qb, make_cheb_matrix inv (length t) m w = Ok (qa, qb) /\
    match xm, dxm with
              | Some a, Some b => if (redo dxm (length t) m || redo xm (length t) m)%bool then make_cheb_matrix inv (length t) m default_weight else Ok (a, b)
              | _, _ => make_cheb_matrix inv (length t) m default_weight
              end = Ok (qa, qb)).
  { destruct HF as [[HF ->]|[qa [qb [Q1 [Q2 Q3]]]]].
    - assert (HR : (redo dxm (length t) m || redo xm (length t) m)%bool = true)
        by (destruct HF as [HF|HF]; apply misfit_redo in HF; rewrite HF; [apply Bool.orb_true_r|reflexivity]). clear HF. rename HR into HF.
      destruct xm as [qa|], dxm as [qb|]; [rewrite HF in H; rewrite HF| | |];
        (destruct (make_cheb_matrix inv (length t) m default_weight) as [[qa' qb']|e] eqn:EQ; [|discriminate H]); exists qa', qb'; split; reflexivity.
    - exists qa, qb. split; [exact Q1|]. subst xm dxm.
      destruct (make_cheb_matrix inv (length t) m w) as [[qa' qb']|e] eqn:EQ; [|discriminate]. injection Q1 as -> ->.
      assert (R0 : redo (Some qb) (length t) m = false /\ redo (Some qa) (length t) m = false).
      { unfold make_cheb_matrix in EQ. destruct (inv (m + 4)%nat (c1_v (length t) m w)); [|discriminate]. cbn [bind] in EQ. injection EQ as <- <-.
        cbn [redo m_cols m_rows]. rewrite !Nat.eqb_refl. split; reflexivity. }
      destruct R0 as [-> ->]. reflexivity. }
  destruct X as [qa [qb [Q1 Q2]]]. rewrite Q2 in H. cbn [bind] in H.
  destruct (Nat.eqb_spec (length d) (length t)) as [E2|E2]; [|discriminate]. cbn [bind] in H. injection H as <- _ _ _.
  split; [exact E2|]. split; [lia|]. exists qa, qb. split; [exact Q1|]. reflexivity.
Qed.
Lemma coeffs_v_length qa qb x d : m_rows qa = m_rows qb -> length (coeffs_v qa qb x d) = m_rows qa.
Proof. intros H. unfold coeffs_v. rewrite map_length, combine_length, !apply_length. lia. Qed.

(** * C207 *)
Lemma ends_exact_x inv t x xm dxm m a res rms mx : inverts inv -> from_only_x inv (length t) m xm -> t_first t <> t_last t ->
  chebfit inv t x None xm dxm m = Ok (a, res, rms, mx) ->
  length a = m /\ value_at (t_first t) (t_last t) a (t_first t) = nth 0 x 0 /\
  value_at (t_first t) (t_last t) a (t_last t) = nth (length t - 1) x 0.
Proof.
  intros HI HF HT H. destruct (open_x _ _ _ _ _ _ _ _ _ _ HF H) as [HL [Hm [q [HQ ->]]]].
  destruct (solved_x inv (length t) m q x HI HQ) as [Hr _].
  destruct (fit_x inv (length t) m q x HI ltac:(lia) HQ) as [z [l [Hz [_ [E0 E1]]]]].
  assert (La : length (apply_mult q x) = m) by (rewrite apply_length; exact Hr). split; [exact La|].
  rewrite !value_ser, scaled_first, scaled_last, !ser_val, La by exact HT. split.
  - transitivity (flip (length t) x (length t - 1)); [|unfold flip; f_equal; lia]. rewrite <- E1. apply sumn_ext. intros k Hk.
    rewrite Hz by exact Hk. cbn [ends_x]. rewrite tmat_TT, node_last by lia. reflexivity.
  - transitivity (flip (length t) x 0); [|unfold flip; f_equal; lia]. rewrite <- E0. apply sumn_ext. intros k Hk.
    rewrite Hz by exact Hk. cbn [ends_x]. rewrite tmat_TT, node_first by lia. reflexivity.
Qed.

(** * C208 *)
Lemma halved_nth t d i : (i < length d)%nat -> nth i (halved t d) 0 = nth i d 0 * ((t_last t - t_first t) / 2).
Proof.
  intros H. unfold halved. set (f := fun v => _).
  rewrite (nth_indep _ 0 (f 0)) by (rewrite map_length; exact H). rewrite (map_nth f). unfold f. field.
Qed.
Lemma ends_exact_v inv t x d xm dxm m w a res rms mx : inverts inv -> from_matrix inv (length t) m w xm dxm -> t_first t <> t_last t ->
  chebfit inv t x (Some d) xm dxm m = Ok (a, res, rms, mx) ->
  length a = m /\
  value_at (t_first t) (t_last t) a (t_first t) = nth 0 x 0 /\ slope_at (t_first t) (t_last t) a (t_first t) = nth 0 d 0 /\
  value_at (t_first t) (t_last t) a (t_last t) = nth (length t - 1) x 0 /\
  slope_at (t_first t) (t_last t) a (t_last t) = nth (length t - 1) d 0.
Proof.
  intros HI HF HT H. destruct (open_v _ _ _ _ _ _ _ _ _ _ _ _ HF H) as [HL [HD [Hm [qa [qb [HQ ->]]]]]].
  destruct (solved_v inv (length t) m w qa qb x (halved t d) HI HQ) as [Ra [_ [Rb _]]].
  destruct (fit_v inv (length t) m w qa qb x (halved t d) HI ltac:(lia) HQ) as [z [l [Hz [_ [E0 [E1 [E2 E3]]]]]]].
  assert (La : length (coeffs_v qa qb x (halved t d)) = m) by (rewrite coeffs_v_length; lia). split; [exact La|].
  rewrite !value_ser, !slope_ser, scaled_first, scaled_last, !ser_val, La by exact HT.
  unfold flip in E1, E3. rewrite !halved_nth in E1, E3 by lia.
  repeat split.
  - transitivity (flip (length t) x (length t - 1)); [|unfold flip; f_equal; lia]. rewrite <- E2. apply sumn_ext. intros k Hk.
    rewrite Hz by exact Hk. cbn [ends_v]. rewrite tmat_TT, node_last by lia. reflexivity.
  - rewrite (sumn_ext m _ (fun k => ends_v (length t) m 3 k * z k)).
    + rewrite E3. replace (length t - 1 - (length t - 1))%nat with 0%nat by lia. field. lra.
    + intros k Hk. rewrite Hz by exact Hk. cbn [ends_v]. rewrite tdot_DD, node_last by lia. reflexivity.
  - transitivity (flip (length t) x 0); [|unfold flip; f_equal; lia]. rewrite <- E0. apply sumn_ext. intros k Hk.
    rewrite Hz by exact Hk. cbn [ends_v]. rewrite tmat_TT, node_first by lia. reflexivity.
  - rewrite (sumn_ext m _ (fun k => ends_v (length t) m 1 k * z k)).
    + rewrite E1. replace (length t - 1 - 0)%nat with (length t - 1)%nat by lia. field. lra.
    + intros k Hk. rewrite Hz by exact Hk. cbn [ends_v]. rewrite tdot_DD, node_first by lia. reflexivity.
Qed.

(** * C209 *)
Lemma regular_length t0 h n : length (regular t0 h n) = n.
Proof. unfold regular. rewrite map_length, seq_length. reflexivity. Qed.
Lemma regular_nth t0 h n i : (i < n)%nat -> nth i (regular t0 h n) 0 = t0 + INR i * h.
Proof.
  intros H. unfold regular. set (f := fun i => t0 + INR i * h).
  rewrite (nth_indep _ 0 (f 0%nat)) by (rewrite map_length, seq_length; exact H). rewrite (map_nth f), seq_nth by exact H. reflexivity.
Qed.
Lemma regular_first t0 h n : (1 <= n)%nat -> t_first (regular t0 h n) = t0.
Proof. intros H. unfold t_first. rewrite regular_nth by lia. cbn. ring. Qed.
Lemma regular_last t0 h n : (1 <= n)%nat -> t_last (regular t0 h n) = t0 + INR (n - 1) * h.
Proof. intros H. unfold t_last. rewrite regular_length, regular_nth by lia. reflexivity. Qed.
Lemma grid_value n m t0 h p i : (2 <= n)%nat -> h <> 0 -> length p = m -> (i < n)%nat ->
  value_at t0 (t0 + INR (n - 1) * h) p (t0 + INR i * h) = val m (tmat n m) (fun k => nth k p 0) (n - 1 - i).
Proof. intros Hn Hh HL Hi. rewrite value_ser, scaled_node, ser_val, HL, val_tmat by assumption. reflexivity. Qed.
Lemma grid_slope n m t0 h p i : (2 <= n)%nat -> h <> 0 -> length p = m -> (i < n)%nat ->
  slope_at t0 (t0 + INR (n - 1) * h) p (t0 + INR i * h) * ((t0 + INR (n - 1) * h - t0) / 2) = val m (tdot n m) (fun k => nth k p 0) (n - 1 - i).
Proof.
  intros Hn Hh HL Hi. rewrite slope_ser, scaled_node, ser_val, HL, val_tdot by assumption. field.
  pose proof (INR_pred n Hn). replace (t0 + INR (n - 1) * h - t0) with (INR (n - 1) * h) by ring.
  apply Rmult_integral_contrapositive. split; [lra|exact Hh].
Qed.
Lemma squares_cost n m t0 h x p : (2 <= n)%nat -> h <> 0 -> length p = m -> length x = n ->
  squares t0 h x p = cost n m (tmat n m) (tdot n m) 0 (flip n x) (fun _ => 0) (fun k => nth k p 0).
Proof.
  intros Hn Hh HL HX. unfold squares, cost. rewrite HX, Rmult_0_l, Rplus_0_r.
  rewrite <- (sumn_rev n (fun i => (flip n x i - _) ^ 2)). apply sumn_ext. intros i Hi. rewrite (grid_value n m) by assumption.
  unfold flip. f_equal. f_equal. f_equal. lia.
Qed.
Lemma squares_v_cost n m w t0 h x d p : (2 <= n)%nat -> h <> 0 -> length p = m -> length x = n -> length d = n ->
  squares_v w t0 h x d p = cost n m (tmat n m) (tdot n m) w (flip n x) (flip n (halved (regular t0 h n) d)) (fun k => nth k p 0).
Proof.
  intros Hn Hh HL HX HD. unfold squares_v. rewrite (squares_cost n m) by assumption. unfold cost. rewrite HX, Rmult_0_l, Rplus_0_r. f_equal. f_equal.
  rewrite <- (sumn_rev n (fun i => (flip n (halved _ _) i - _) ^ 2)). apply sumn_ext. intros i Hi. rewrite <- (grid_slope n m t0 h) by assumption.
  unfold flip. rewrite halved_nth by lia. rewrite regular_first, regular_last by lia.
  replace (n - 1 - (n - 1 - i))%nat with i by lia. f_equal. ring.
Qed.
Lemma best_x inv t0 h n x xm dxm m a res rms mx b : inverts inv -> from_only_x inv n m xm -> h <> 0 ->
  chebfit inv (regular t0 h n) x None xm dxm m = Ok (a, res, rms, mx) ->
  length b = m -> value_at t0 (t0 + INR (n - 1) * h) b t0 = nth 0 x 0 ->
  value_at t0 (t0 + INR (n - 1) * h) b (t0 + INR (n - 1) * h) = nth (n - 1) x 0 ->
  squares t0 h x a <= squares t0 h x b.
Proof.
  intros HI HF Hh H HB B0 B1. assert (HF' := HF). rewrite <- (regular_length t0 h n) in HF'.
  destruct (open_x _ _ _ _ _ _ _ _ _ _ HF' H) as [HL [Hm [q [HQ ->]]]].
  rewrite regular_length in HL, Hm, HQ.
  destruct (solved_x inv n m q x HI HQ) as [Hr _].
  destruct (fit_x inv n m q x HI ltac:(lia) HQ) as [z [l [Hz [HN [E0 E1]]]]].
  assert (La : length (apply_mult q x) = m) by (rewrite apply_length; exact Hr).
  rewrite !(squares_cost n m) by (assumption || lia).
  assert (VA : forall M i, val m M (fun k => nth k (apply_mult q x) 0) i = val m M z i).
  { intros M i. unfold val. apply sumn_ext. intros k Hk. rewrite Hz by exact Hk. reflexivity. }
  apply (optimal n m 2 (tmat n m) (tdot n m) 0 (ends_x n m) (flip n x) (fun _ => 0) _ l); [|lra|].
  - intros k Hk. rewrite (sumn_ext n _ (fun i => tmat n m i k * val m (tmat n m) z i)) by (intros; rewrite VA; reflexivity).
    rewrite <- (HN k Hk). rewrite !Rmult_0_l. reflexivity.
  - intros e He. rewrite (sumn_ext m (fun k => ends_x n m e k * nth k (apply_mult q x) 0) (fun k => ends_x n m e k * z k)) by (intros k Hk; rewrite Hz by exact Hk; reflexivity).
    assert (HT : t0 <> t0 + INR (n - 1) * h).
    { intros E. pose proof (INR_pred n ltac:(lia)). assert (Y : INR (n - 1) * h = 0) by lra. apply Rmult_integral in Y as [Y|Y]; [lra|contradiction]. }
    rewrite value_ser, scaled_first, ser_val, HB in B0 by exact HT. rewrite value_ser, scaled_last, ser_val, HB in B1 by exact HT.
    destruct e as [|[|e]]; [rewrite E0|rewrite E1|lia]; unfold flip; cbn [ends_x].
    + rewrite Nat.sub_0_r, <- B1. apply sumn_ext. intros k Hk. rewrite tmat_TT, node_first by exact Hk. reflexivity.
    + rewrite Nat.sub_diag, <- B0. apply sumn_ext. intros k Hk. rewrite tmat_TT, node_last by lia. reflexivity.
Qed.
Lemma best_v inv t0 h n x d xm dxm m w a res rms mx b : inverts inv -> from_matrix inv n m w xm dxm -> 0 <= w -> h <> 0 ->
  chebfit inv (regular t0 h n) x (Some d) xm dxm m = Ok (a, res, rms, mx) ->
  length b = m -> value_at t0 (t0 + INR (n - 1) * h) b t0 = nth 0 x 0 ->
  slope_at t0 (t0 + INR (n - 1) * h) b t0 = nth 0 d 0 ->
  value_at t0 (t0 + INR (n - 1) * h) b (t0 + INR (n - 1) * h) = nth (n - 1) x 0 ->
  slope_at t0 (t0 + INR (n - 1) * h) b (t0 + INR (n - 1) * h) = nth (n - 1) d 0 ->
  squares_v w t0 h x d a <= squares_v w t0 h x d b.
Proof.
  intros HI HF Hw Hh H HB B0 D0 B1 D1. assert (HF' := HF). rewrite <- (regular_length t0 h n) in HF'.
  destruct (open_v _ _ _ _ _ _ _ _ _ _ _ _ HF' H) as [HL [HD [Hm [qa [qb [HQ ->]]]]]].
  rewrite regular_length in HL, HD, Hm, HQ.
  set (hd := halved (regular t0 h n) d) in *.
  destruct (solved_v inv n m w qa qb x hd HI HQ) as [Ra [_ [Rb _]]].
  destruct (fit_v inv n m w qa qb x hd HI ltac:(lia) HQ) as [z [l [Hz [HN [E0 [E1 [E2 E3]]]]]]].
  assert (La : length (coeffs_v qa qb x hd) = m) by (rewrite coeffs_v_length; lia).
  rewrite !(squares_v_cost n m) by (assumption || lia). fold hd.
  assert (VA : forall M i, val m M (fun k => nth k (coeffs_v qa qb x hd) 0) i = val m M z i).
  { intros M i. unfold val. apply sumn_ext. intros k Hk. rewrite Hz by exact Hk. reflexivity. }
  apply (optimal n m 4 (tmat n m) (tdot n m) w (ends_v n m) (flip n x) (flip n hd) _ l); [|exact Hw|].
  - intros k Hk. rewrite (sumn_ext n _ (fun i => tmat n m i k * val m (tmat n m) z i)) by (intros; rewrite VA; reflexivity).
    rewrite (sumn_ext n (fun i => tdot n m i k * val m _ _ i) (fun i => tdot n m i k * val m (tdot n m) z i)) by (intros; rewrite VA; reflexivity).
    exact (HN k Hk).
  - intros e He. rewrite (sumn_ext m (fun k => ends_v n m e k * nth k (coeffs_v qa qb x hd) 0) (fun k => ends_v n m e k * z k)) by (intros k Hk; rewrite Hz by exact Hk; reflexivity).
    assert (P : INR (n - 1) * h <> 0).
    { pose proof (INR_pred n ltac:(lia)). apply Rmult_integral_contrapositive. split; [lra|exact Hh]. }
    assert (HT : t0 <> t0 + INR (n - 1) * h) by lra.
    rewrite value_ser, scaled_first, ser_val, HB in B0 by exact HT. rewrite value_ser, scaled_last, ser_val, HB in B1 by exact HT.
    rewrite slope_ser, scaled_first, ser_val, HB in D0 by exact HT. rewrite slope_ser, scaled_last, ser_val, HB in D1 by exact HT.
    unfold flip in E1, E3. unfold hd in E1, E3. rewrite !halved_nth in E1, E3 by lia. rewrite regular_first, regular_last in E1, E3 by lia.
    rewrite Nat.sub_0_r, <- D1 in E1. rewrite Nat.sub_diag, <- D0 in E3.
    destruct e as [|[|[|[|e]]]]; [rewrite E0|rewrite E1|rewrite E2|rewrite E3|lia]; unfold flip; cbn [ends_v].
    + rewrite Nat.sub_0_r, <- B1. apply sumn_ext. intros k Hk. rewrite tmat_TT, node_first by exact Hk. reflexivity.
    + rewrite (sumn_ext m (fun k => tdot n m 0%nat k * nth k b 0) (fun k => DD k 1 * nth k b 0)).
      * field. lra.
      * intros k Hk. rewrite tdot_DD, node_first by exact Hk. reflexivity.
    + rewrite Nat.sub_diag, <- B0. apply sumn_ext. intros k Hk. rewrite tmat_TT, node_last by lia. reflexivity.
    + rewrite (sumn_ext m (fun k => tdot n m (n - 1)%nat k * nth k b 0) (fun k => DD k (-1) * nth k b 0)).
      * field. lra.
      * intros k Hk. rewrite tdot_DD, node_last by lia. reflexivity.
Qed.
(** polynomial data come back *)
Lemma same_list m (a b : list R) : length a = m -> length b = m -> (forall k, (k < m)%nat -> nth k a 0 - nth k b 0 = 0) -> a = b.
Proof. intros HA HB H. apply (nth_ext a b 0 0); [lia|]. intros k Hk. specialize (H k ltac:(lia)). lra. Qed.
Lemma exact_x inv t0 h n xm dxm m b a res rms mx : inverts inv -> from_only_x inv n m xm -> h <> 0 -> length b = m ->
  chebfit inv (regular t0 h n) (map (value_at t0 (t0 + INR (n - 1) * h) b) (regular t0 h n)) None xm dxm m = Ok (a, res, rms, mx) -> a = b.
Proof.
  intros HI HF Hh HB H. set (x := map _ (regular t0 h n)) in H. assert (HF' := HF). rewrite <- (regular_length t0 h n) in HF'.
  destruct (open_x _ _ _ _ _ _ _ _ _ _ HF' H) as [HL [Hm _]]. rewrite regular_length in HL, Hm.
  assert (HX : forall i, (i < n)%nat -> nth i x 0 = value_at t0 (t0 + INR (n - 1) * h) b (t0 + INR i * h)).
  { intros i Hi. unfold x. set (f := value_at _ _ _). rewrite (nth_indep _ 0 (f 0)) by (rewrite map_length, regular_length; exact Hi).
    rewrite (map_nth f), regular_nth by exact Hi. reflexivity. }
  assert (La : length a = m).
  { assert (P : t_first (regular t0 h n) <> t_last (regular t0 h n)).
    { rewrite regular_first, regular_last by lia. pose proof (INR_pred n ltac:(lia)). intros E. assert (Y : INR (n - 1) * h = 0) by lra.
      apply Rmult_integral in Y as [Y|Y]; [lra|contradiction]. }
    apply (ends_exact_x _ _ _ _ _ _ _ _ _ _ HI HF' P H). }
  pose proof (best_x inv t0 h n x xm dxm m a res rms mx b HI HF Hh H HB) as OPT.
  rewrite (HX 0%nat), (HX (n - 1)%nat) in OPT by lia. cbn [INR] in OPT. rewrite Rmult_0_l, Rplus_0_r in OPT.
  specialize (OPT eq_refl eq_refl). rewrite !(squares_cost n m) in OPT by (assumption || lia). unfold cost in OPT.
  rewrite !Rmult_0_l, !Rplus_0_r in OPT.
  rewrite (sumn_ext n (fun i => (flip n x i - val m (tmat n m) (fun k => nth k b 0) i) ^ 2) (fun _ => 0)) in OPT.
  2:{ intros i Hi. unfold flip. rewrite HX by lia. rewrite (grid_value n m) by (assumption || lia).
      replace (n - 1 - (n - 1 - i))%nat with i by lia. ring. }
  rewrite sumn_0 in OPT.
  assert (Z : sumn n (fun i => (flip n x i - val m (tmat n m) (fun k => nth k a 0) i) ^ 2) = 0).
  { apply Rle_antisym; [exact OPT|]. apply sumn_nonneg. intros; apply pow2_ge_0. }
  apply (same_list m); [exact La|exact HB|]. apply (values_zero_x n m (fun k => nth k a 0 - nth k b 0)); [lia|lia|].
  intros i Hi. rewrite val_minus.
  pose proof (sumn_zero n _ (fun i _ => pow2_ge_0 (flip n x i - val m (tmat n m) (fun k => nth k a 0) i)) Z i Hi) as Q. cbv beta in Q.
  unfold flip in Q. rewrite HX in Q by lia. rewrite (grid_value n m) in Q by (assumption || lia).
  replace (n - 1 - (n - 1 - i))%nat with i in Q by lia. nra.
Qed.
Lemma exact_v inv t0 h n xm dxm m w b a res rms mx : inverts inv -> from_matrix inv n m w xm dxm -> 0 < w -> h <> 0 -> length b = m ->
  chebfit inv (regular t0 h n) (map (value_at t0 (t0 + INR (n - 1) * h) b) (regular t0 h n))
    (Some (map (slope_at t0 (t0 + INR (n - 1) * h) b) (regular t0 h n))) xm dxm m = Ok (a, res, rms, mx) -> a = b.
Proof.
  intros HI HF Hw Hh HB H. set (x := map (value_at _ _ _) (regular t0 h n)) in H. set (d := map (slope_at _ _ _) (regular t0 h n)) in H.
  assert (HF' := HF). rewrite <- (regular_length t0 h n) in HF'.
  destruct (open_v _ _ _ _ _ _ _ _ _ _ _ _ HF' H) as [HL [HD [Hm _]]]. rewrite regular_length in HL, HD, Hm.
  assert (HX : forall i, (i < n)%nat -> nth i x 0 = value_at t0 (t0 + INR (n - 1) * h) b (t0 + INR i * h)).
  { intros i Hi. unfold x. set (f := value_at _ _ _). rewrite (nth_indep _ 0 (f 0)) by (rewrite map_length, regular_length; exact Hi).
    rewrite (map_nth f), regular_nth by exact Hi. reflexivity. }
  assert (HV : forall i, (i < n)%nat -> nth i d 0 = slope_at t0 (t0 + INR (n - 1) * h) b (t0 + INR i * h)).
  { intros i Hi. unfold d. set (f := slope_at _ _ _). rewrite (nth_indep _ 0 (f 0)) by (rewrite map_length, regular_length; exact Hi).
    rewrite (map_nth f), regular_nth by exact Hi. reflexivity. }
  assert (La : length a = m).
  { assert (P : t_first (regular t0 h n) <> t_last (regular t0 h n)).
    { rewrite regular_first, regular_last by lia. pose proof (INR_pred n ltac:(lia)). intros E. assert (Y : INR (n - 1) * h = 0) by lra.
      apply Rmult_integral in Y as [Y|Y]; [lra|contradiction]. }
    apply (ends_exact_v _ _ _ _ _ _ _ _ _ _ _ _ HI HF' P H). }
  pose proof (best_v inv t0 h n x d xm dxm m w a res rms mx b HI HF ltac:(lra) Hh H HB) as OPT.
  rewrite (HX 0%nat), (HX (n - 1)%nat), (HV 0%nat), (HV (n - 1)%nat) in OPT by lia. cbn [INR] in OPT. rewrite Rmult_0_l, Rplus_0_r in OPT.
  specialize (OPT eq_refl eq_refl eq_refl eq_refl). rewrite !(squares_v_cost n m) in OPT by (assumption || lia). unfold cost in OPT.
  set (hd := halved (regular t0 h n) d) in *.
  assert (HH : forall i, (i < n)%nat -> flip n hd i = val m (tdot n m) (fun k => nth k b 0) i).
  { intros i Hi. unfold flip, hd. rewrite halved_nth by lia. rewrite HV by lia. rewrite regular_first, regular_last by lia.
    rewrite (grid_slope n m) by (assumption || lia). f_equal. lia. }
  assert (HP : forall i, (i < n)%nat -> flip n x i = val m (tmat n m) (fun k => nth k b 0) i).
  { intros i Hi. unfold flip. rewrite HX by lia. rewrite (grid_value n m) by (assumption || lia). f_equal. lia. }
  rewrite (sumn_ext n (fun i => (flip n x i - val m (tmat n m) (fun k => nth k b 0) i) ^ 2) (fun _ => 0)) in OPT
    by (intros i Hi; rewrite HP by exact Hi; ring).
  rewrite (sumn_ext n (fun i => (flip n hd i - val m (tdot n m) (fun k => nth k b 0) i) ^ 2) (fun _ => 0)) in OPT
    by (intros i Hi; rewrite HH by exact Hi; ring).
  rewrite !sumn_0, Rmult_0_r, Rplus_0_r in OPT.
  assert (P1 : 0 <= sumn n (fun i => (flip n x i - val m (tmat n m) (fun k => nth k a 0) i) ^ 2)) by (apply sumn_nonneg; intros; apply pow2_ge_0).
  assert (P2 : 0 <= sumn n (fun i => (flip n hd i - val m (tdot n m) (fun k => nth k a 0) i) ^ 2)) by (apply sumn_nonneg; intros; apply pow2_ge_0).
  set (S1 := sumn n (fun i => (flip n x i - val m (tmat n m) (fun k => nth k a 0) i) ^ 2)) in *.
  set (S2 := sumn n (fun i => (flip n hd i - val m (tdot n m) (fun k => nth k a 0) i) ^ 2)) in *.
  assert (P3 : 0 <= w * S2) by (apply Rmult_le_pos; lra).
  assert (Z1 : S1 = 0) by lra.
  assert (Z2 : S2 = 0) by (assert (Y : w * S2 = 0) by lra; apply Rmult_integral in Y as [Y|Y]; [lra|exact Y]).
  unfold S1 in Z1. unfold S2 in Z2.
  apply (same_list m); [exact La|exact HB|]. apply (values_zero_v n m (fun k => nth k a 0 - nth k b 0)); [lia|lia|].
  intros i Hi. rewrite !val_minus.
  pose proof (sumn_zero n _ (fun i _ => pow2_ge_0 (flip n x i - val m (tmat n m) (fun k => nth k a 0) i)) Z1 i Hi) as Q1. cbv beta in Q1.
  pose proof (sumn_zero n _ (fun i _ => pow2_ge_0 (flip n hd i - val m (tdot n m) (fun k => nth k a 0) i)) Z2 i Hi) as Q2. cbv beta in Q2.
  rewrite HP in Q1 by exact Hi. rewrite HH in Q2 by exact Hi. split; nra.
Qed.

(** * C210 *)
Lemma fold_max_ge l : forall v, In v l -> v <= fold_right Rmax 0 l.
Proof.
  induction l as [|u l IH]; intros v H; [destruct H|]. cbn [fold_right]. destruct H as [->|H]; [apply Rmax_l|].
  eapply Rle_trans; [apply IH; exact H|apply Rmax_r].
Qed.
Lemma fold_max_in l : l <> [] -> (forall v, In v l -> 0 <= v) -> In (fold_right Rmax 0 l) l.
Proof.
  induction l as [|u l IH]; intros HN H; [contradiction|]. cbn [fold_right].
  destruct (Rle_dec u (fold_right Rmax 0 l)) as [L|G].
  - rewrite Rmax_right by exact L. destruct l as [|v l]; [left; cbn in *; pose proof (H u (or_introl eq_refl)); lra|].
    right. apply IH; [discriminate|]. intros y Hy. apply H. right. exact Hy.
  - rewrite Rmax_left by lra. left. reflexivity.
Qed.
Lemma open_res inv t x d xm dxm m a res rms mx : chebfit inv t x d xm dxm m = Ok (a, res, rms, mx) ->
  length x = length t /\ (1 <= length t)%nat /\ res = map (fun p => fst p - snd p) (combine x (map (value_at (t_first t) (t_last t) a) t)) /\
  rms = sqrt (rsum (map (fun r => r * r) res) / (INR (length t) - 1)) /\ mx = max_abs res.
Proof.
  intros H. unfold chebfit in H. destruct (Nat.eqb_spec (length x) (length t)) as [E|E]; [|discriminate]. cbn [negb] in H.
  destruct (match d with None => _ | Some _ => _ end) eqn:EB; [discriminate|].
  destruct (fit_coeffs inv t x d xm dxm m) as [a'|e]; [|discriminate]. cbn [bind] in H. injection H as <- <- <- <-.
  split; [exact E|]. split; [destruct d; apply Bool.orb_false_iff in EB as [B1 B2]; apply Nat.ltb_ge in B1, B2; lia|].
  split; [|split; reflexivity]. f_equal. f_equal. apply map_ext. intros u. rewrite value_ser. fold (t_first t).
  change (nth (length t - 1) t 0) with (t_last t).
  destruct d; [rewrite cheb_yv_ser; cbn [fst]|rewrite cheb_y_ser]; rewrite scaled_shift; reflexivity.
Qed.
Lemma residuals_ok inv t x d xm dxm m a res rms mx : chebfit inv t x d xm dxm m = Ok (a, res, rms, mx) ->
  length res = length t /\
  (forall i, (i < length t)%nat -> nth i res 0 = nth i x 0 - value_at (t_first t) (t_last t) a (nth i t 0)) /\
  rms = sqrt (rsum (map (fun r => r ^ 2) res) / (INR (length t) - 1)) /\
  (forall i, (i < length t)%nat -> Rabs (nth i res 0) <= mx) /\ (exists i, (i < length t)%nat /\ mx = Rabs (nth i res 0)).
Proof.
  intros H. destruct (open_res _ _ _ _ _ _ _ _ _ _ _ H) as [HL [H1 [ER [ES EM]]]].
  assert (LR : length res = length t) by (rewrite ER, map_length, combine_length, map_length; lia).
  split; [exact LR|]. split; [|split; [|split]].
  - intros i Hi. rewrite ER. rewrite (nth_indep _ 0 ((fun p : R * R => fst p - snd p) (0, value_at (t_first t) (t_last t) a 0)))
      by (rewrite map_length, combine_length, map_length; lia).
    rewrite (map_nth (fun p : R * R => fst p - snd p)), combine_nth by (rewrite map_length; exact HL). cbn [fst snd].
    rewrite (map_nth (value_at (t_first t) (t_last t) a)). reflexivity.
  - rewrite ES. f_equal. f_equal. f_equal. apply map_ext. intros r. ring.
  - intros i Hi. rewrite EM. unfold max_abs. apply fold_max_ge. apply in_map. apply nth_In. lia.
  - assert (X : In mx (map Rabs res)).
    { rewrite EM. apply fold_max_in; [destruct res; [cbn in LR; lia|discriminate]|]. intros v Hv. apply in_map_iff in Hv as [r [<- _]]. apply Rabs_pos. }
    apply in_map_iff in X as [r [<- Hr]]. apply (In_nth _ _ 0) in Hr as [i [Hi <-]]. exists i. split; [lia|reflexivity].
Qed.
Lemma fit_total t x d xm dxm m : length x = length t ->
  match d with None => (2 <= m <= length t)%nat | Some d => length d = length t /\ (4 <= m <= 2 * length t)%nat end ->
  exists r, chebfit exact_inv t x d xm dxm m = Ok r.
Proof.
  intros HL HD. unfold chebfit. rewrite (proj2 (Nat.eqb_eq _ _) HL). cbn [negb].
  assert (X : exists a, fit_coeffs exact_inv t x d xm dxm m = Ok a).
  { unfold fit_coeffs. destruct d as [d|].
    - destruct HD as [HD Hm]. rewrite (proj2 (Nat.eqb_eq _ _) HD).
      destruct (exact_total (m + 4) (c1_v (length t) m default_weight)) as [M HM].
      { apply regular_v; [unfold default_weight; lra|lia|lia]. }
      assert (Q : exists q, make_cheb_matrix exact_inv (length t) m default_weight = Ok q).
      { unfold make_cheb_matrix. rewrite HM. eexists; reflexivity. }
      destruct Q as [q Q]. rewrite Q. destruct xm as [qa|], dxm as [qb|]; try (eexists; reflexivity).
      destruct (_ || _)%bool; eexists; reflexivity.
    - destruct (exact_total (m + 2) (c1_x (length t) m)) as [M HM]; [apply regular_x; lia|].
      assert (Q : exists q, make_cheb_matrix_only_x exact_inv (length t) m = Ok q).
      { unfold make_cheb_matrix_only_x. rewrite HM. eexists; reflexivity. }
      destruct Q as [q Q]. rewrite Q. destruct xm as [qa|]; [|eexists; reflexivity]. destruct (redo _ _ _); eexists; reflexivity. }
  destruct X as [a ->]. cbn [bind].
  destruct (match d with None => _ | Some _ => _ end) eqn:EB; [|eexists; reflexivity].
  exfalso. destruct d; [destruct HD as [_ HD]|]; apply Bool.orb_true_iff in EB as [B|B]; apply Nat.ltb_lt in B; lia.
Qed.
Lemma fit_errors inv t x d xm dxm m :
  (length x <> length t -> chebfit inv t x d xm dxm m = Err ValueError) /\
  (length x = length t -> ~ (match d with None => (2 <= m <= length t)%nat | Some _ => (4 <= m <= 2 * length t)%nat end) ->
   chebfit inv t x d xm dxm m = Err RuntimeError).
Proof.
  split.
  - intros H. unfold chebfit. rewrite (proj2 (Nat.eqb_neq _ _) H). reflexivity.
  - intros HL H. unfold chebfit. rewrite (proj2 (Nat.eqb_eq _ _) HL). cbn [negb].
    destruct (match d with None => _ | Some _ => _ end) eqn:EB; [reflexivity|]. exfalso. apply H.
    destruct d; apply Bool.orb_false_iff in EB as [B1 B2]; apply Nat.ltb_ge in B1, B2; lia.
Qed.
