(** Proofs: the rough selections, and what run finds in the end. *)
From Coq Require Import Reals Lra Lia Sorted.
From Verif Require Import Base Orbits_Model OrbitsIO_Model DirectObs_Model DirectObs_Spec DirectObs_Proofs DirectObs_Proofs2.
Open Scope R_scope.

(** * searchsorted and the grid *)
Lemma search_below : forall l t i, (i < searchsorted l t)%nat -> exists x, nth_error l i = Some x /\ x < t.
Proof.
  induction l as [|x l IH]; intros t i H; cbn [searchsorted] in H; [lia|]. destruct (Rlt_dec x t); [|lia].
  destruct i as [|i]; [exists x; split; [reflexivity | assumption]|]. apply IH. lia.
Qed.
Lemma search_at : forall l t x, nth_error l (searchsorted l t) = Some x -> t <= x.
Proof.
  induction l as [|y l IH]; intros t x H; cbn [searchsorted] in H; [discriminate|]. destruct (Rlt_dec y t); [exact (IH t x H)|].
  injection H as <-. lra.
Qed.
Lemma search_in : forall l t x, In x l -> t <= x -> (searchsorted l t < length l)%nat.
Proof.
  induction l as [|y l IH]; intros t x I H; [contradiction|]. cbn [searchsorted length]. destruct (Rlt_dec y t); [|lia].
  destruct I as [-> | I]; [lra|]. specialize (IH t x I H). lia.
Qed.
Lemma int_part_le : forall x, IZR (Int_part x) <= x.
Proof. intro x. pose proof (base_Int_part x). lra. Qed.
Lemma ceil_ge : forall x, x <= IZR (ceil x).
Proof. intro x. unfold ceil. rewrite opp_IZR. pose proof (int_part_le (- x)). lra. Qed.
Lemma fold_min : forall l x y, In y (x :: l) -> fold_left Rmin l x <= y.
Proof.
  induction l as [|z l IH]; intros x y I; cbn [fold_left].
  - destruct I as [-> | []]. lra.
  - destruct I as [-> | [-> | I]].
    + eapply Rle_trans; [apply IH; left; reflexivity | apply Rmin_l].
    + eapply Rle_trans; [apply IH; left; reflexivity | apply Rmin_r].
    + apply IH. right. assumption.
Qed.
Lemma fold_max : forall l x y, In y (x :: l) -> y <= fold_left Rmax l x.
Proof.
  induction l as [|z l IH]; intros x y I; cbn [fold_left].
  - destruct I as [-> | []]. lra.
  - destruct I as [-> | [-> | I]].
    + eapply Rle_trans; [apply Rmax_l | apply IH; left; reflexivity].
    + eapply Rle_trans; [apply Rmax_r | apply IH; left; reflexivity].
    + apply IH. right. assumption.
Qed.
Lemma fold_min_in : forall l x, In (fold_left Rmin l x) (x :: l).
Proof.
  induction l as [|z l IH]; intro x; cbn [fold_left]; [left; reflexivity|]. destruct (IH (Rmin x z)) as [E | I].
  - rewrite <- E. unfold Rmin. destruct (Rle_dec x z); [left | right; left]; reflexivity.
  - right. right. assumption.
Qed.
Lemma fold_max_in : forall l x, In (fold_left Rmax l x) (x :: l).
Proof.
  induction l as [|z l IH]; intro x; cbn [fold_left]; [left; reflexivity|]. destruct (IH (Rmax x z)) as [E | I].
  - rewrite <- E. unfold Rmax. destruct (Rle_dec x z); [right; left | left]; reflexivity.
  - right. right. assumption.
Qed.
Lemma minimum_le : forall l y, In y l -> minimum l <= y.
Proof. intros [|x l] y I; [contradiction|]. apply fold_min. assumption. Qed.
Lemma maximum_ge : forall l y, In y l -> y <= maximum l.
Proof. intros [|x l] y I; [contradiction|]. apply fold_max. assumption. Qed.
Lemma minimum_in : forall l, l <> [] -> In (minimum l) l.
Proof. intros [|x l] H; [contradiction|]. apply fold_min_in. Qed.
Lemma maximum_in : forall l, l <> [] -> In (maximum l) l.
Proof. intros [|x l] H; [contradiction|]. apply fold_max_in. Qed.

(** the grid time used for a visit *)
Lemma grid : forall s obs, 0 < s_tstep s -> exists times, rough_times s obs = Ok times /\
  (obs <> [] -> times <> []) /\
  forall v, In v obs -> exists g, nth_error times (searchsorted times (v_time v)) = Some g /\ v_time v <= g < v_time v + s_tstep s.
Proof.
  intros s obs H. unfold rough_times, arange. destruct (Req_EM_T (s_tstep s) 0) as [Z|_]; [lra|].
  set (h := s_tstep s) in *.
  set (a := floor (minimum (map v_time obs) + 0.16 - 0.5) - h).
  set (b := IZR (ceil (maximum (map v_time obs) + 0.16 + 0.5)) + h + h / 2).
  set (n := Z.to_nat (ceil ((b - a) / h))).
  eexists. split; [reflexivity|].
  set (times := map (fun i => a + INR i * h) (seq 0 n)).
  assert (LT : length times = n) by (unfold times; rewrite map_length, seq_length; reflexivity).
  assert (NT : forall i, (i < n)%nat -> nth_error times i = Some (a + INR i * h)).
  { intros i I. unfold times. rewrite nth_error_map. rewrite (nth_error_nth' (seq 0 n) 0%nat) by (rewrite seq_length; assumption).
    rewrite seq_nth by assumption. reflexivity. }
  assert (K : forall v, In v obs -> exists g, nth_error times (searchsorted times (v_time v)) = Some g /\ v_time v <= g < v_time v + h).
  { intros v I. set (t := v_time v).
    assert (T1 : minimum (map v_time obs) <= t) by (apply minimum_le, in_map; assumption).
    assert (T2 : t <= maximum (map v_time obs)) by (apply maximum_ge, in_map; assumption).
    assert (A : a < t) by (unfold a, floor; pose proof (int_part_le (minimum (map v_time obs) + 0.16 - 0.5)); lra).
    assert (B : t + h < b) by (unfold b; pose proof (ceil_ge (maximum (map v_time obs) + 0.16 + 0.5)); lra).
    assert (N : (b - a) / h <= INR n).
    { unfold n. rewrite INR_IZR_INZ. rewrite Z2Nat.id; [apply ceil_ge|].
      apply le_IZR. eapply Rle_trans; [|apply ceil_ge]. left. apply Rdiv_lt_0_compat; lra. }
    assert (N' : b - a <= INR n * h).
    { apply Rmult_le_compat_r with (r := h) in N; [|lra]. replace ((b - a) / h * h) with (b - a) in N by (field; lra). exact N. }
    assert (NP : (0 < n)%nat). { destruct n; [|lia]. exfalso. cbn in N'. lra. }
    assert (L : t <= a + INR (n - 1) * h). { rewrite minus_INR by lia. cbn [INR]. lra. }
    assert (J : (searchsorted times t < n)%nat).
    { rewrite <- LT. apply (search_in times t (a + INR (n - 1) * h)); [|exact L]. eapply nth_error_In. apply NT. lia. }
    exists (a + INR (searchsorted times t) * h). split; [apply NT; assumption|].
    split; [apply (search_at times t), NT; assumption|].
    destruct (searchsorted times t) as [|j] eqn:E.
    { cbn [INR]. lra. }
    destruct (search_below times t j ltac:(lia)) as [x [X Y]]. rewrite NT in X by lia. injection X as <-. rewrite S_INR. lra. }
  split; [|exact K]. intros NE. destruct obs as [|v obs]; [contradiction|]. destruct (K v (or_introl eq_refl)) as [g [G _]]. intro Z. rewrite Z in G.
  destruct (searchsorted [] (v_time v)); discriminate.
Qed.

Section Rough.
  Context (sep : R -> R -> R -> R -> R) (camera : R -> R -> R -> R -> R -> bool) (ephem : nat -> string -> R -> eph)
          (int_of : string -> option Z) (color : string -> string -> result R).
  Definition basic_type (s : settings) : Prop := lower (s_type s) = "basic"%string.
  (** the rough selection on a grid *)
  Lemma rough_direct_eq : forall s obs mp, 0 < s_tstep s -> obs <> [] -> dynamics (s_prelim s) = Ok mp ->
    (String.eqb (lower (s_type s)) "basic" || String.eqb (lower (s_type s)) "full" = true) ->
    (forall i t, e_time (ephem i mp t) = t) ->
    exists g : R -> R, (forall v, In v obs -> v_time v <= g (v_time v) < v_time v + s_tstep s) /\
    forall i, rough_direct sep ephem s obs i =
      Ok (filter (fun k => in_circle sep s (place_of (ephem i mp (g (v_time (nth k obs dv))))) (nth k obs dv) (s_rough_tol s)) (seq 0 (length obs))).
  Proof.
    intros s obs mp H NE M TY ET. destruct (grid s obs H) as [times [E [NT G]]].
    exists (fun t => nth (searchsorted times t) times 0). split.
    { intros v I. destruct (G v I) as [g [X Y]]. rewrite (nth_error_nth _ _ 0 X). exact Y. }
    intro i. unfold rough_direct. rewrite E. cbn [bind]. unfold ephemerides.
    destruct times as [|t0 ts] eqn:ETS; [exfalso; apply (NT NE); reflexivity|]. rewrite <- ETS in *. rewrite M. cbn [bind]. rewrite TY. cbn [bind].
    assert (EM : map e_time (map (ephem i mp) times) = times).
    { rewrite map_map. rewrite (map_ext _ (fun t => t)) by (intro; apply ET). apply map_id. }
    rewrite EM.
    rewrite (all_ok_of _ (fun v => ephem i mp (nth (searchsorted times (v_time v)) times 0))).
    2: { intros v I. destruct (G v I) as [g [X _]]. unfold arr_get. rewrite nth_error_map, X. cbn [option_map]. rewrite (nth_error_nth _ _ 0 X). reflexivity. }
    cbn [bind]. f_equal.
    rewrite <- (nth_seq_id dv obs) at 1 2. rewrite map_map, combine_map2. apply where_seq.
  Qed.
  (** moves and tolerances *)
  Lemma moves_nth : forall l j, (S j < length l)%nat -> nth_error (moves sep l) j = Some (step sep l j).
  Proof.
    induction l as [|p l IH]; intros j H; [cbn in H; lia|]. destruct l as [|q l]; [cbn in H; lia|].
    destruct j as [|j]; [reflexivity|]. cbn [moves nth_error]. rewrite IH by (cbn [length] in *; lia). reflexivity.
  Qed.
  Lemma moves_length : forall l, length (moves sep l) = (length l - 1)%nat.
  Proof.
    induction l as [|p l IH]; [reflexivity|]. destruct l as [|q l]; [reflexivity|]. change (moves sep (p :: q :: l)) with (sep (fst p) (snd p) (fst q) (snd q) :: moves sep (q :: l)).
    cbn [length] in *. rewrite IH. lia.
  Qed.
  Lemma step_last : forall l j, (length l <= S j)%nat -> step sep l j = 0.
  Proof. intros l j H. unfold step. destruct (nth_error l j); [|reflexivity]. rewrite (proj2 (nth_error_None l (S j))) by assumption. reflexivity. Qed.
  Lemma tol_nth : forall s l j, (j < length l)%nat -> nth_error (object_tol sep s l) j = Some (swing sep l j + s_pre_tol s).
  Proof.
    intros s l j H. unfold object_tol. rewrite nth_error_map.
    assert (A : nth_error (moves sep l ++ [0]) j = Some (step sep l j)).
    { destruct (Nat.eq_dec (S j) (length l)) as [E | E].
      - rewrite nth_error_app2 by (rewrite moves_length; lia). rewrite moves_length. replace (j - (length l - 1))%nat with 0%nat by lia.
        cbn [nth_error]. rewrite (step_last l j) by (apply Nat.eq_le_incl; symmetry; exact E). reflexivity.
      - rewrite nth_error_app1 by (rewrite moves_length; lia). apply moves_nth. lia. }
    assert (B : nth_error (0 :: moves sep l) j = Some (match j with O => 0 | S i => step sep l i end)).
    { destruct j as [|i]; [reflexivity|]. cbn [nth_error]. apply moves_nth. assumption. }
    assert (C : forall (a b : list R) x y i, nth_error a i = Some x -> nth_error b i = Some y -> nth_error (combine a b) i = Some (x, y)).
    { clear. induction a as [|x a IH]; intros b u w i P Q; destruct i, b; try discriminate; cbn in *.
      - congruence.
      - apply IH; assumption. }
    rewrite (C _ _ _ _ _ A B). reflexivity.
  Qed.
  (** the nearest pre-computed time *)
  Lemma nearest_ok : forall mjds t, StronglySorted Rlt mjds -> mjds <> [] -> minimum mjds <= t -> t <= maximum mjds ->
    exists j, nearest mjds t = Ok j /\ (j < length mjds)%nat /\ is_nearest mjds t j.
  Proof.
    intros mjds t S NE L U. unfold nearest.
    assert (J : (searchsorted mjds t < length mjds)%nat) by (apply (search_in mjds t (maximum mjds)); [apply maximum_in|]; assumption).
    destruct (nth_error mjds (searchsorted mjds t)) as [x|] eqn:EX; [|apply nth_error_None in EX; lia].
    pose proof (search_at _ _ _ EX) as X. pose proof (search_below mjds t) as B.
    assert (ORD : forall i j a b, (i < j)%nat -> nth_error mjds i = Some a -> nth_error mjds j = Some b -> a < b).
    { clear -S. induction S as [|y l S IH F]; intros i j a b H P Q; [destruct i; discriminate|].
      destruct j as [|j]; [lia|]. destruct i as [|i]; cbn [nth_error] in P, Q.
      - injection P as <-. rewrite Forall_forall in F. apply F. eapply nth_error_In. exact Q.
      - apply (IH i j); [lia | assumption | assumption]. }
    assert (AB : forall m', In m' mjds -> m' < t \/ x <= m').
    { intros m' I. apply In_nth_error in I. destruct I as [i I]. destruct (lt_dec i (searchsorted mjds t)) as [Q | Q].
      - destruct (B i Q) as [y [Y Z]]. left. congruence.
      - right. destruct (Nat.eq_dec i (searchsorted mjds t)) as [E | E].
        + subst i. assert (x = m') by congruence. lra.
        + left. apply (ORD (searchsorted mjds t) i); [lia | assumption | assumption]. }
    unfold arr_get. rewrite EX. cbn [bind].
    destruct (searchsorted mjds t) as [|k] eqn:EP.
    - destruct (nth_error mjds (length mjds - 1)) as [y|] eqn:EY; [|apply nth_error_None in EY; lia]. cbn [bind].
      assert (t = x).
      { destruct (AB (minimum mjds) (minimum_in mjds NE)) as [Q | Q].
        - exfalso. pose proof (minimum_in mjds NE) as I. apply In_nth_error in I. destruct I as [i I].
          destruct i as [|i]; [assert (x = minimum mjds) by congruence; lra|].
          pose proof (ORD 0%nat (Datatypes.S i) x (minimum mjds) ltac:(lia) EX I). lra.
        - lra. }
      subst x. destruct (Rlt_dec (Rabs (t - y)) (Rabs (t - t))) as [Q | Q].
      { exfalso. rewrite Rminus_diag_eq with (r1 := t) (r2 := t) in Q by reflexivity. rewrite Rabs_R0 in Q. pose proof (Rabs_pos (t - y)). lra. }
      exists 0%nat. split; [reflexivity|]. split; [assumption|]. exists t. split; [assumption|]. intros m' I.
      rewrite Rminus_diag_eq with (r1 := t) (r2 := t) by reflexivity. rewrite Rabs_R0. apply Rabs_pos.
    - destruct (B k ltac:(lia)) as [y [EY Y]]. rewrite EY. cbn [bind].
      assert (BY : forall m', In m' mjds -> m' <= y \/ x <= m').
      { intros m' I. destruct (AB m' I) as [Q | Q]; [|right; assumption]. left. apply In_nth_error in I. destruct I as [i I].
        destruct (lt_eq_lt_dec i k) as [[E | E] | E].
        - left. apply (ORD i k); assumption.
        - subst i. assert (m' = y) by congruence. lra.
        - exfalso. destruct (Nat.eq_dec i (Datatypes.S k)) as [F | F].
          + subst i. assert (m' = x) by congruence. lra.
          + pose proof (ORD (Datatypes.S k) i x m' ltac:(lia) EX I). lra. }
      destruct (Rlt_dec (Rabs (t - y)) (Rabs (t - x))) as [Q | Q].
      + exists k. split; [reflexivity|]. split; [lia|]. exists y. split; [assumption|]. intros m' I.
        destruct (BY m' I); unfold Rabs in *; repeat destruct Rcase_abs; lra.
      + exists (Datatypes.S k). split; [reflexivity|]. split; [lia|]. exists x. split; [assumption|]. intros m' I.
        destruct (BY m' I); unfold Rabs in *; repeat destruct Rcase_abs; lra.
  Qed.
  (** the rough selection from pre-computed positions *)
  Lemma rough_pre_eq : forall s obs mjds positions i l, StronglySorted Rlt mjds -> covered obs mjds = true -> obs <> [] -> mjds <> [] ->
    nth_error positions i = Some l -> length l = length mjds ->
    exists j : R -> nat, (forall v, In v obs -> is_nearest mjds (v_time v) (j (v_time v)) /\ (j (v_time v) < length mjds)%nat /\ nearest mjds (v_time v) = Ok (j (v_time v))) /\
    rough_precomputed sep s obs mjds positions i =
      Ok (filter (fun k => let v := nth k obs dv in in_circle sep s (nth (j (v_time v)) l (0, 0)) v (s_r_fov s + (swing sep l (j (v_time v)) + s_pre_tol s)))
            (seq 0 (length obs))).
  Proof.
    intros s obs mjds positions i l S C NE NM EP EL.
    exists (fun t => match nearest mjds t with Ok j => j | Err _ => 0%nat end).
    assert (J : forall v, In v obs -> exists j, nearest mjds (v_time v) = Ok j /\ (j < length mjds)%nat /\ is_nearest mjds (v_time v) j).
    { intros v I. unfold covered in C. apply negb_true_iff, orb_false_iff in C. destruct C as [C1 C2].
      unfold ltb in C1, C2. destruct (Rlt_dec (minimum (map v_time obs)) (minimum mjds)); [discriminate|].
      destruct (Rlt_dec (maximum mjds) (maximum (map v_time obs))); [discriminate|].
      pose proof (minimum_le (map v_time obs) (v_time v) (in_map _ _ _ I)). pose proof (maximum_ge (map v_time obs) (v_time v) (in_map _ _ _ I)).
      apply nearest_ok; try assumption; lra. }
    split. { intros v I. destruct (J v I) as [j [E [P Q]]]. rewrite E. repeat split; assumption. }
    unfold rough_precomputed. unfold arr_get at 1. rewrite EP. cbn [bind].
    rewrite (all_ok_of _ (fun v => match nearest mjds (v_time v) with Ok j => j | Err _ => 0%nat end)).
    2: { intros v I. destruct (J v I) as [j [E _]]. rewrite E. reflexivity. }
    cbn [bind].
    rewrite (all_ok_of (arr_get l) (fun j => nth j l (0, 0))).
    2: { intros j I. apply in_map_iff in I. destruct I as [v [<- I]]. destruct (J v I) as [j [E [P _]]]. rewrite E. unfold arr_get.
         rewrite (nth_error_nth' l (0, 0)) by lia. reflexivity. }
    cbn [bind].
    rewrite (all_ok_of (arr_get (object_tol sep s l)) (fun j => swing sep l j + s_pre_tol s)).
    2: { intros j I. apply in_map_iff in I. destruct I as [v [<- I]]. destruct (J v I) as [j [E [P _]]]. rewrite E. unfold arr_get.
         rewrite tol_nth by lia. reflexivity. }
    cbn [bind]. f_equal. rewrite !map_map, combine_map2.
    rewrite <- (nth_seq_id dv obs) at 1 2. rewrite map_map, combine_map2. apply where_seq.
  Qed.

  (** * The footprint test and its meaning *)
  Lemma circle_iff : forall s p v r, in_circle sep s p v r = true <-> distance sep s p v <= r.
  Proof. intros s p v r. unfold in_circle, distance, pointing, to_degrees. destruct (s_degrees s); cbn [negb fst snd]; apply leb_iff. Qed.
  Lemma fov_sound : forall s p v, (s_footprint s = "rectangle"%string -> s_degrees s = true) -> fov sep camera s p v = true -> seen sep camera s p v.
  Proof.
    intros s p v D H. unfold fov in H. unfold seen.
    destruct (string_dec (s_footprint s) "camera") as [E | E].
    - rewrite E, String.eqb_refl in H. unfold in_camera in H. unfold pointing, rotation. destruct (s_degrees s); exact H.
    - apply String.eqb_neq in E. rewrite E in H. destruct (string_dec (s_footprint s) "rectangle") as [F | F].
      + rewrite F in H. cbn [String.eqb Ascii.eqb Bool.eqb] in H. apply rectangle_sound; [apply D; assumption | exact H].
      + apply String.eqb_neq in F. rewrite F in H. apply circle_iff in H. exact H.
  Qed.
  Lemma fov_complete : forall s p v, plain_rectangle s p v -> seen sep camera s p v -> fov sep camera s p v = true.
  Proof.
    intros s p v D H. unfold fov. unfold seen in H.
    destruct (string_dec (s_footprint s) "camera") as [E | E].
    - rewrite E, String.eqb_refl. unfold in_camera. unfold pointing, rotation in H. destruct (s_degrees s); exact H.
    - apply String.eqb_neq in E. rewrite E. destruct (string_dec (s_footprint s) "rectangle") as [F | F].
      + destruct (D F) as [D1 D2]. rewrite F. cbn [String.eqb Ascii.eqb Bool.eqb]. apply rectangle_complete; assumption.
      + apply String.eqb_neq in F. rewrite F. apply circle_iff. exact H.
  Qed.
  Lemma letter_dynamics : forall mode m, letter (lower mode) m -> dynamics mode = Ok m.
  Proof.
    intros mode m [[-> [E | E]] | [-> [E | E]]]; unfold dynamics; cbv zeta; rewrite E; reflexivity.
  Qed.
End Rough.
