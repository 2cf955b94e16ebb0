(** Proofs: constellations. *)
From Coq Require Import Reals Ascii Lia Lra Psatz.
From Verif Require Import Base SatConst_Model SatConst_Spec SatConst_Proofs.
Open Scope Z_scope.

(** * Mean motion *)
Lemma mean_motion_form : forall a, (0 <= a -> 0 < mean_motion a /\ mean_motion a ^ 2 * (a + 6378.1) ^ 3 = 398600.4 * 86400 ^ 2 / (4 * PI ^ 2))%R.
Proof.
  intros a A. assert (P := PI_RGT_0). assert (C : (0 < (a + 6378.1) ^ 3)%R) by (apply pow_lt; lra). assert (P2 : (0 < PI ^ 2)%R) by (apply pow_lt; exact P).
  unfold mean_motion. set (x := (4 * PI ^ 2 * (a + 6378.1) ^ 3 / 398600.4)%R).
  assert (X : (0 < x)%R) by (unfold x; apply Rdiv_lt_0_compat; [apply Rmult_lt_0_compat; lra|lra]). assert (S1 := sqrt_lt_R0 x X). assert (S2 := sqrt_sqrt x (Rlt_le _ _ X)).
  split; [apply Rdiv_lt_0_compat; [lra|apply Rdiv_lt_0_compat; lra]|].
  replace ((1 / (sqrt x / 86400)) ^ 2)%R with (86400 ^ 2 / (sqrt x * sqrt x))%R by (field; lra). rewrite S2. unfold x. field. repeat split; lra.
Qed.
Lemma mean_motion_lt : forall a b, (0 <= a < b -> mean_motion b < mean_motion a)%R.
Proof.
  intros a b [A B]. assert (P := PI_RGT_0). assert (P2 : (0 < PI ^ 2)%R) by (apply pow_lt; exact P).
  destruct (mean_motion_form a A) as [MA EA]. destruct (mean_motion_form b ltac:(lra)) as [MB EB]. rewrite <- EA in EB.
  assert (C : (0 < (a + 6378.1) ^ 3 < (b + 6378.1) ^ 3)%R).
  { split; [apply pow_lt; lra|]. set (x := (a + 6378.1)%R). set (y := (b + 6378.1)%R). assert (X : (0 < x)%R) by (unfold x; lra). assert (Y : (x < y)%R) by (unfold x, y; lra). cbn [pow]. rewrite !Rmult_1_r.
    assert (H1 : (x * x < y * y)%R) by (apply Rmult_gt_0_lt_compat; lra). assert (H2 : (0 < x * x)%R) by (apply Rmult_lt_0_compat; lra). apply Rmult_gt_0_lt_compat; lra. }
  destruct (Rlt_dec (mean_motion b) (mean_motion a)) as [L|L]; [exact L|]. exfalso.
  assert (H : (mean_motion a ^ 2 <= mean_motion b ^ 2)%R) by (apply pow_incr; lra). assert (H1 : (0 < mean_motion a ^ 2)%R) by (apply pow_lt; exact MA).
  set (ma := (mean_motion a ^ 2)%R) in *. set (mb := (mean_motion b ^ 2)%R) in *. set (ca := ((a + 6378.1) ^ 3)%R) in *. set (cb := ((b + 6378.1) ^ 3)%R) in *. nra.
Qed.
Lemma mean_motion_small : forall a, (0 <= a -> mean_motion a < 20)%R.
Proof.
  intros a A. destruct (mean_motion_form a A) as [MA EA]. assert (P3 : (3 < PI)%R) by (assert (X := PI2_3_2); lra).
  assert (P2 : (9 < PI ^ 2)%R) by (cbn [pow]; nra).
  assert (C : (6378 ^ 3 <= (a + 6378.1) ^ 3)%R) by (apply pow_incr; lra).
  destruct (Rlt_dec (mean_motion a) 20) as [L|L]; [exact L|]. exfalso. assert (M : (400 <= mean_motion a ^ 2)%R) by (cbn [pow]; nra).
  assert (R1 : (398600.4 * 86400 ^ 2 / (4 * PI ^ 2) < 398600.4 * 86400 ^ 2 / 36)%R).
  { unfold Rdiv. apply Rmult_lt_compat_l; [lra|]. apply Rinv_lt_contravar; lra. }
  assert (R2 : (400 * 6378 ^ 3 <= mean_motion a ^ 2 * (a + 6378.1) ^ 3)%R) by (apply Rmult_le_compat; lra). rewrite EA in R2. lra.
Qed.

Section Create.
  Context (rounded : nat -> R -> Z) (random : nat -> R).
  Lemma circle_length : forall n, length (circle n) = n.
  Proof. intros n. unfold circle. rewrite map_length, seq_length. reflexivity. Qed.
  Lemma flat_map_length_const : forall {A B} (f : A -> list B) k l, (forall x, length (f x) = k) -> length (flat_map f l) = (length l * k)%nat.
  Proof. intros A B f k l H. induction l as [|x l IH]; [reflexivity|]. cbn [flat_map length]. rewrite app_length, H, IH. reflexivity. Qed.
  Lemma shell_length : forall k n s, length (fst (shell random k n s)) = (n * s)%nat.
  Proof.
    intros k n s. unfold shell. destruct (Nat.eqb_spec s 1) as [->|N]; cbn [fst].
    - rewrite combine_length. unfold uniform. rewrite !map_length, !seq_length. lia.
    - rewrite (flat_map_length_const _ s); [rewrite circle_length; reflexivity|]. intros x. rewrite !map_length. apply circle_length.
  Qed.
  Lemma number_length : forall name epoch inc mm l nr, length (number rounded name epoch inc mm nr l) = length l.
  Proof. intros name epoch inc mm. induction l as [|q l IH]; intros nr; [reflexivity|]. cbn [number length]. f_equal. apply IH. Qed.
  Lemma number_nth : forall name epoch inc mm l nr i, nth_error (number rounded name epoch inc mm nr l) i = option_map (one_tle rounded name epoch inc mm (nr + Z.of_nat i)) (nth_error l i).
  Proof.
    intros name epoch inc mm. induction l as [|q l IH]; intros nr [|i]; try reflexivity; cbn [number nth_error option_map].
    - rewrite Z.add_0_r. reflexivity.
    - rewrite IH. replace (nr + 1 + Z.of_nat i) with (nr + Z.of_nat (S i)) by lia. reflexivity.
  Qed.
  Definition size (l : list (R * R * nat * nat)) : nat := zsum (map (fun q => let '(_, _, n, s) := q in (n * s)%nat) l).
  Lemma shells_length : forall name epoch l nr k, length (shells rounded random name epoch nr k l) = size l.
  Proof.
    intros name epoch. induction l as [|[[[alt inc] n] s] l IH]; intros nr k; [reflexivity|]. cbn [shells]. assert (L := shell_length k n s). destruct (shell random k n s) as [sh k']. cbn [fst] in L.
    rewrite app_length, number_length, IH, L. reflexivity.
  Qed.
  (** the TLE of a satellite: a shell, the random numbers before it, and the place in the shell *)
  Lemma shells_nth : forall name epoch l1 alt inc n s l2 nr k, exists k', forall j q, nth_error (fst (shell random k' n s)) j = Some q ->
    nth_error (shells rounded random name epoch nr k (l1 ++ (alt, inc, n, s) :: l2)) (size l1 + j) = Some (one_tle rounded name epoch inc (mean_motion alt) (nr + Z.of_nat (size l1 + j)) q).
  Proof.
    intros name epoch l1. induction l1 as [|[[[a0 i0] n0] s0] l1 IH]; intros alt inc n s l2 nr k.
    - exists k. intros j q J. cbn [app shells]. destruct (shell random k n s) as [sh k'] eqn:E. cbn [fst] in J. change (size []) with 0%nat. cbn [Nat.add].
      rewrite nth_error_app1 by (rewrite number_length; apply nth_error_Some; rewrite J; discriminate). rewrite number_nth, J. reflexivity.
    - cbn [app shells]. assert (L := shell_length k n0 s0). destruct (shell random k n0 s0) as [sh k1]. cbn [fst] in L.
      destruct (IH alt inc n s l2 (nr + Z.of_nat (length sh)) k1) as [k' H]. exists k'. intros j q J. specialize (H j q J).
      assert (SZ : size ((a0, i0, n0, s0) :: l1) = (length sh + size l1)%nat) by (rewrite L; reflexivity). rewrite SZ.
      rewrite nth_error_app2 by (rewrite number_length; lia). rewrite number_length. replace (length sh + size l1 + j - length sh)%nat with (size l1 + j)%nat by lia. rewrite H.
      f_equal. f_equal. lia.
  Qed.
  Lemma shells_some : forall name epoch l nr k i t, nth_error (shells rounded random name epoch nr k l) i = Some t -> exists alt inc n s q k', In (alt, inc, n, s) l /\ In q (fst (shell random k' n s)) /\
    t = one_tle rounded name epoch inc (mean_motion alt) (nr + Z.of_nat i) q.
  Proof.
    intros name epoch. induction l as [|[[[alt inc] n] s] l IH]; intros nr k i t E; [destruct i; discriminate E|]. cbn [shells] in E. destruct (shell random k n s) as [sh k1] eqn:S1.
    destruct (le_lt_dec (length sh) i) as [L|L].
    - rewrite nth_error_app2 in E by (rewrite number_length; exact L). rewrite number_length in E. destruct (IH _ _ _ _ E) as [a [ic [n' [s' [q [k' [I [Q T]]]]]]]]. exists a, ic, n', s', q, k'.
      split; [right; exact I|]. split; [exact Q|]. rewrite T. f_equal. lia.
    - rewrite nth_error_app1 in E by (rewrite number_length; exact L). rewrite number_nth in E. destruct (nth_error sh i) as [q|] eqn:Q; [|discriminate E]. cbn [option_map] in E. injection E as <-.
      exists alt, inc, n, s, q, k. split; [left; reflexivity|]. rewrite S1. split; [exact (nth_error_In _ _ Q)|reflexivity].
  Qed.
  Lemma circle_nth : forall n i, (i < n)%nat -> nth_error (circle n) i = Some (INR i * 360 / INR n)%R.
  Proof. intros n i H. unfold circle. rewrite nth_error_map. rewrite (nth_error_nth' _ 0%nat) by (rewrite seq_length; exact H). rewrite seq_nth by exact H. reflexivity. Qed.
  Lemma flat_map_nth : forall {A B} (f : A -> list B) k l i j x, (forall x, length (f x) = k) -> nth_error l i = Some x -> (j < k)%nat -> nth_error (flat_map f l) (i * k + j) = nth_error (f x) j.
  Proof.
    intros A B f k l. induction l as [|y l IH]; intros i j x H E J; [destruct i; discriminate E|]. cbn [flat_map]. destruct i as [|i].
    - injection E as <-. cbn [Nat.mul Nat.add]. apply nth_error_app1. rewrite H. exact J.
    - cbn [nth_error] in E. rewrite nth_error_app2 by (rewrite H; lia). rewrite H. replace (S i * k + j - k)%nat with (i * k + j)%nat by lia. apply IH; assumption.
  Qed.
  Lemma shell_nth : forall k n s a b, s <> 1%nat -> (a < n)%nat -> (b < s)%nat ->
    nth_error (fst (shell random k n s)) (a * s + b) = Some ((INR b * 360 / INR s + 360 * random k)%R, (INR a * 360 / INR n)%R).
  Proof.
    intros k n s a b N A B. unfold shell. rewrite (proj2 (Nat.eqb_neq s 1) N). cbn [fst].
    rewrite (flat_map_nth _ s _ a b (INR a * 360 / INR n)%R); [|intros x; rewrite !map_length; apply circle_length|apply circle_nth; exact A|exact B].
    rewrite !nth_error_map, circle_nth by exact B. reflexivity.
  Qed.
  Lemma circle_range : forall n x, In x (circle n) -> (0 <= x < 360)%R.
  Proof.
    intros n x I. unfold circle in I. apply in_map_iff in I. destruct I as [i [<- I]]. apply in_seq in I. assert (L : (INR i < INR n)%R) by (apply lt_INR; lia). assert (P := pos_INR i).
    split; [apply Rmult_le_pos; [lra|apply Rlt_le, Rinv_0_lt_compat; lra]|]. apply (Rmult_lt_reg_r (INR n)); [lra|]. unfold Rdiv. rewrite Rmult_assoc, Rinv_l by lra. lra.
  Qed.
  Lemma shell_range : forall k n s ma raan, (forall i, 0 <= random i < 1)%R -> In (ma, raan) (fst (shell random k n s)) -> (0 <= ma < 720 /\ 0 <= raan < 360)%R.
  Proof.
    intros k n s ma raan R0 I. unfold shell in I. destruct (Nat.eqb s 1); cbn [fst] in I.
    - assert (I1 := in_combine_l _ _ _ _ I). assert (I2 := in_combine_r _ _ _ _ I). unfold uniform in *. apply in_map_iff in I1, I2. destruct I1 as [i [<- _]]. destruct I2 as [j [<- _]].
      assert (A := R0 (k + i)%nat). assert (B := R0 (k + n + j)%nat). split; lra.
    - apply in_flat_map in I. destruct I as [x [J I]]. apply in_map_iff in I. destruct I as [m [E I]]. injection E as <- <-. apply in_map_iff in I. destruct I as [c [<- I]].
      apply circle_range in I. apply circle_range in J. assert (A := R0 k). lra.
  Qed.

  (** rounding to d places *)
  Definition rounds : Prop := forall d x, (Rabs (IZR (rounded d x) - x * 10 ^ d) <= 1 / 2)%R.
  Lemma rounded_range : forall d x (m : Z), rounds -> (0 <= x)%R -> (x * 10 ^ d < IZR m - 1 / 2)%R -> 0 <= rounded d x < m.
  Proof.
    intros d x m H X M. specialize (H d x). assert (P : (0 < 10 ^ d)%R) by (apply pow_lt; lra). assert (X0 : (0 <= x * 10 ^ d)%R) by (apply Rmult_le_pos; lra).
    assert (A : (IZR (rounded d x) - x * 10 ^ d <= 1 / 2 /\ - (1 / 2) <= IZR (rounded d x) - x * 10 ^ d)%R).
    { unfold Rabs in H. destruct (Rcase_abs _); lra. }
    split.
    - assert (Y : (-1 < IZR (rounded d x))%R) by lra. apply (lt_IZR (-1)) in Y. lia.
    - apply lt_IZR. lra.
  Qed.
End Create.
