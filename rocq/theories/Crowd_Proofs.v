(** Proofs about interpolation and crowding. *)
From Coq Require Import String Reals ZArith List Lra Lia Bool Permutation.
From Verif Require Import Base Depth_Model Depth_Proofs Template_Model Sky_Spec Sky_Proofs Crowd_Model Crowd_Spec.
Import ListNotations.
Open Scope R_scope.

Lemma line_at x0 y0 x1 y1 : line x0 y0 x1 y1 x0 = y0.
Proof. unfold line. lra. Qed.
Lemma line_end x0 y0 x1 y1 : x0 < x1 -> line x0 y0 x1 y1 x1 = y1.
Proof. intro H. unfold line. field. lra. Qed.
Lemma line_mono x0 y0 x1 y1 x x' : x0 < x1 -> y0 <= y1 -> x <= x' -> line x0 y0 x1 y1 x <= line x0 y0 x1 y1 x'.
Proof.
  intros H1 H2 H3. unfold line. assert (0 <= (y1 - y0) / (x1 - x0)) by (apply Rmult_le_pos; [lra | apply Rlt_le, Rinv_0_lt_compat; lra]).
  apply Rplus_le_compat_l, Rmult_le_compat_l; lra.
Qed.
Lemma rising_cons x l : Rising (x :: l) -> Rising l.
Proof. intros H i j a b Hij E1 E2. apply (H (S i) (S j) a b); simpl; auto with arith. Qed.
Lemma rising_hd x l y : Rising (x :: l) -> In y l -> x <= y.
Proof. intros H I. apply In_nth_error in I as [j E]. apply (H O (S j) x y); auto with arith. Qed.
Lemma rising_two x y l : Rising (x :: y :: l) -> x <= y.
Proof. intro H. apply (rising_hd _ _ y H). now left. Qed.

Lemma broken_step x0 x1 x2 xt y0 y1 yt x : broken (x0 :: x1 :: x2 :: xt) (y0 :: y1 :: yt) x =
  if rleb x x1 then line x0 y0 x1 y1 x else broken (x1 :: x2 :: xt) (y1 :: yt) x.
Proof. reflexivity. Qed.
Lemma broken_two x0 x1 y0 y1 yt x : broken [x0; x1] (y0 :: y1 :: yt) x = line x0 y0 x1 y1 x.
Proof. reflexivity. Qed.
Lemma broken_interp xs : forall ys x, Increasing xs -> length ys = length xs -> (2 <= length xs)%nat -> hd 0 xs <= x <= last xs 0 ->
  Interp xs ys x (broken xs ys x).
Proof.
  induction xs as [|x0 xs IH]; intros ys x Inc L N B; [simpl in N; lia|].
  destruct xs as [|x1 xt]; [simpl in N; lia|]. destruct ys as [|y0 [|y1 yt]]; try discriminate.
  assert (x0 < x1) by (apply (increasing_hd _ _ _ Inc); now left).
  assert (P : x0 <= x <= x1 -> Interp (x0 :: x1 :: xt) (y0 :: y1 :: yt) x (line x0 y0 x1 y1 x)).
  { intros [P1 P2]. destruct (Req_EM_T x x0) as [->|N0].
    - exists O, x0, x0, y0, y0. rewrite line_at. auto.
    - destruct (Req_EM_T x x1) as [->|N1].
      + exists 1%nat, x1, x1, y1, y1. rewrite line_end by assumption. auto.
      + exists O, x0, x1, y0, y1. split; [reflexivity|]. split; [reflexivity|]. right. split; [reflexivity|]. split; [reflexivity|].
        split; [lra|]. unfold line. field. lra. }
  simpl broken. destruct xt as [|x2 xt]; [apply P; simpl in B; lra|].
  destruct (rleb x x1) eqn:E.
  - apply rleb_true in E. apply P. simpl in B. lra.
  - apply rleb_false in E. destruct (IH (y1 :: yt) x) as (i & a & b & c & d & H1 & H2 & H3).
    + exact (increasing_cons _ _ Inc).
    + (simpl in *; lia).
    + simpl; lia.
    + split; [simpl; lra | exact (proj2 B)].
    + exists (S i), a, b, c, d. exact (conj H1 (conj H2 H3)).
Qed.
Lemma broken_ge xs : forall ys x, Increasing xs -> Rising ys -> length ys = length xs -> (2 <= length xs)%nat -> hd 0 xs <= x ->
  hd 0 ys <= broken xs ys x.
Proof.
  induction xs as [|x0 xs IH]; intros ys x Inc Ri L N B; [simpl in N; lia|].
  destruct xs as [|x1 xt]; [simpl in N; lia|]. destruct ys as [|y0 [|y1 yt]]; try discriminate.
  assert (x0 < x1) by (apply (increasing_hd _ _ _ Inc); now left). pose proof (rising_two _ _ _ Ri).
  assert (Y : y0 <= line x0 y0 x1 y1 x) by (rewrite <- (line_at x0 y0 x1 y1) at 1; now apply line_mono).
  simpl broken. destruct xt as [|x2 xt]; [exact Y|]. destruct (rleb x x1) eqn:E; [exact Y|]. apply rleb_false in E.
  simpl. apply Rle_trans with y1; [assumption|]. apply (IH (y1 :: yt) x).
  - exact (increasing_cons _ _ Inc).
  - exact (rising_cons _ _ Ri).
  - (simpl in *; lia).
  - simpl; lia.
  - simpl. lra.
Qed.
Lemma broken_mono xs : forall ys x x', Increasing xs -> Rising ys -> length ys = length xs -> (2 <= length xs)%nat -> x <= x' ->
  broken xs ys x <= broken xs ys x'.
Proof.
  induction xs as [|x0 xs IH]; intros ys x x' Inc Ri L N B; [simpl in N; lia|].
  destruct xs as [|x1 xt]; [simpl in N; lia|]. destruct ys as [|y0 [|y1 yt]]; try discriminate.
  assert (x0 < x1) by (apply (increasing_hd _ _ _ Inc); now left). pose proof (rising_two _ _ _ Ri).
  pose proof (line_mono x0 y0 x1 y1 x x' ltac:(assumption) ltac:(assumption) B) as M.
  simpl broken. destruct xt as [|x2 xt]; [exact M|]. assert (L' : length (y1 :: yt) = length (x1 :: x2 :: xt)) by (simpl in *; lia).
  destruct (rleb x x1) eqn:E; destruct (rleb x' x1) eqn:E'; [exact M | | |].
  - apply rleb_true in E. apply rleb_false in E'. apply Rle_trans with y1.
    + apply Rle_trans with (line x0 y0 x1 y1 x1); [now apply line_mono | rewrite line_end by assumption; lra].
    + apply (broken_ge (x1 :: x2 :: xt) (y1 :: yt) x'); [exact (increasing_cons _ _ Inc) | exact (rising_cons _ _ Ri) | exact L' | simpl; lia | simpl; lra].
  - apply rleb_false in E. apply rleb_true in E'. lra.
  - apply (IH (y1 :: yt) x x'); [exact (increasing_cons _ _ Inc) | exact (rising_cons _ _ Ri) | exact L' | simpl; lia | exact B].
Qed.
Lemma broken_last xs : forall ys, Increasing xs -> length ys = length xs -> (2 <= length xs)%nat -> broken xs ys (last xs 0) = last ys 0.
Proof.
  induction xs as [|x0 xs IH]; intros ys Inc L N; [simpl in N; lia|].
  destruct xs as [|x1 xt]; [simpl in N; lia|]. destruct ys as [|y0 [|y1 yt]]; try discriminate.
  assert (x0 < x1) by (apply (increasing_hd _ _ _ Inc); now left).
  destruct xt as [|x2 xt].
  - destruct yt; [|discriminate]. simpl. now apply line_end.
  - assert (x1 < last (x0 :: x1 :: x2 :: xt) 0).
    { change (x1 < last (x1 :: x2 :: xt) 0). pose proof (increasing_cons _ _ Inc) as I2.
      apply (increasing_hd _ _ _ I2). change (last (x1 :: x2 :: xt) 0) with (last (x2 :: xt) 0). apply last_in. discriminate. }
    assert (E : rleb (last (x0 :: x1 :: x2 :: xt) 0) x1 = false) by (apply rleb_false; assumption). rewrite broken_step, E.
    transitivity (broken (x1 :: x2 :: xt) (y1 :: yt) (last (x1 :: x2 :: xt) 0)); [reflexivity|].
    rewrite (IH (y1 :: yt)); [|exact (increasing_cons _ _ Inc) | (simpl in *; lia) | simpl; lia]. reflexivity.
Qed.
Lemma broken_hd xs ys : Increasing xs -> length ys = length xs -> (2 <= length xs)%nat -> broken xs ys (hd 0 xs) = hd 0 ys.
Proof.
  intros Inc L N. destruct xs as [|x0 [|x1 xt]]; try (simpl in N; lia). destruct ys as [|y0 [|y1 yt]]; try discriminate.
  assert (x0 < x1) by (apply (increasing_hd _ _ _ Inc); now left). simpl. destruct xt; [apply line_at|].
  assert (E : rleb x0 x1 = true) by (apply rleb_true; lra). rewrite E. apply line_at.
Qed.

(** np.interp of a rising table rises, and stays within the table *)
Lemma np_interp_ok x xs ys : xs <> [] -> length ys = length xs -> exists v, np_interp x xs ys = Ok v.
Proof.
  intros N L. destruct xs as [|x0 xs]; [now elim N|]. destruct ys as [|y0 ys]; [discriminate|]. unfold np_interp. rewrite L, Nat.eqb_refl. simpl negb. cbv iota. eexists. reflexivity.
Qed.
Lemma np_interp_val x xs ys v : np_interp x xs ys = Ok v -> xs <> [] /\ length ys = length xs /\
  v = if rleb x (hd 0 xs) then hd 0 ys else if rleb (last xs 0) x then last ys 0 else broken xs ys x.
Proof.
  unfold np_interp. destruct xs as [|x0 xs]; [discriminate|]. destruct ys as [|y0 ys]; [discriminate|].
  destruct (Nat.eqb _ _) eqn:E; [|discriminate]. apply Nat.eqb_eq in E. simpl negb. cbv iota. intro H. injection H as <-.
  split; [discriminate|]. split; [now symmetry | reflexivity].
Qed.
Lemma last_ge ys : Rising ys -> ys <> [] -> hd 0 ys <= last ys 0.
Proof.
  intros Ri N. destruct ys as [|y0 [|y1 ys]]; [now elim N | simpl; lra|]. simpl hd. apply (rising_hd _ _ _ Ri).
  change (last (y0 :: y1 :: ys) 0) with (last (y1 :: ys) 0). apply last_in. discriminate.
Qed.
Lemma np_interp_mono xs ys x x' v v' : Increasing xs -> Rising ys -> x <= x' -> np_interp x xs ys = Ok v -> np_interp x' xs ys = Ok v' -> v <= v'.
Proof.
  intros Inc Ri B H H'. apply np_interp_val in H as (N & L & ->). apply np_interp_val in H' as (_ & _ & ->).
  assert (Ny : ys <> []) by (intros ->; destruct xs; [now elim N | discriminate]).
  destruct xs as [|x0 [|x1 xt]]; [now elim N | |].
  - destruct ys as [|y0 [|]]; try discriminate. simpl. repeat destruct (rleb _ _); lra.
  - assert (N2 : (2 <= length (x0 :: x1 :: xt))%nat) by (simpl; lia). set (xs := x0 :: x1 :: xt) in *.
    pose proof (last_ge ys Ri Ny) as HL.
    assert (Lo : forall z, hd 0 xs <= z -> hd 0 ys <= broken xs ys z) by (intros; now apply broken_ge).
    assert (Hi : forall z, z <= last xs 0 -> broken xs ys z <= last ys 0).
    { intros z Hz. rewrite <- (broken_last xs ys) by assumption. now apply broken_mono. }
    destruct (rleb x (hd 0 xs)) eqn:E1, (rleb x' (hd 0 xs)) eqn:E1'; try lra;
      destruct (rleb (last xs 0) x) eqn:E2, (rleb (last xs 0) x') eqn:E2';
      repeat match goal with H : rleb _ _ = true |- _ => apply rleb_true in H | H : rleb _ _ = false |- _ => apply rleb_false in H end;
      try lra; try (apply Lo; lra); try (apply Hi; lra); try (now apply broken_mono).
Qed.
Lemma np_interp_range xs ys x v : Increasing xs -> Rising ys -> np_interp x xs ys = Ok v -> hd 0 ys <= v <= last ys 0.
Proof.
  intros Inc Ri H. apply np_interp_val in H as (N & L & ->).
  assert (Ny : ys <> []) by (intros ->; destruct xs; [now elim N | discriminate]). pose proof (last_ge ys Ri Ny) as HL.
  destruct xs as [|x0 [|x1 xt]]; [now elim N | |].
  - destruct ys as [|y0 [|]]; try discriminate. simpl. repeat destruct (rleb _ _); lra.
  - assert (N2 : (2 <= length (x0 :: x1 :: xt))%nat) by (simpl; lia). set (xs := x0 :: x1 :: xt) in *.
    destruct (rleb x (hd 0 xs)) eqn:E1; [lra|]. destruct (rleb (last xs 0) x) eqn:E2; [lra|].
    apply rleb_false in E1, E2. split; [apply broken_ge; auto; lra|]. rewrite <- (broken_last xs ys) by assumption. apply broken_mono; auto; lra.
Qed.
Lemma interp1d_spec xs ys x : Increasing xs -> length ys = length xs -> (2 <= length xs)%nat ->
  (Inside xs x -> exists v, interp1d xs ys x = Ok v /\ Interp xs ys x v) /\ (~ Inside xs x -> interp1d xs ys x = Err ValueError).
Proof.
  intros Inc L N. assert (Nn : xs <> []) by (intros ->; simpl in N; lia).
  assert (I : Inside xs x <-> hd 0 xs <= x <= last xs 0).
  { split.
    - intros (a & b & Ia & Ib & H). pose proof (hd_le _ _ Inc Ia). pose proof (last_le _ _ Inc Ib). lra.
    - intro H. exists (hd 0 xs), (last xs 0). split; [destruct xs; [now elim Nn | now left]|]. split; [now apply last_in | exact H]. }
  rewrite I. unfold interp1d. destruct xs as [|x0 [|x1 xt]]; try (simpl in N; lia). rewrite L, Nat.eqb_refl. simpl negb. cbv iota.
  change (hd 0 (x0 :: x1 :: xt)) with x0. set (xs := x0 :: x1 :: xt) in *. split.
  - intros [A B]. assert (E1 : rltb x x0 = false) by (now apply rltb_false). assert (E2 : rltb (last xs 0) x = false) by (now apply rltb_false).
    rewrite E1, E2. eexists. split; [reflexivity|]. apply broken_interp; auto.
  - intro H. destruct (rltb x x0) eqn:E1; [reflexivity|]. destruct (rltb (last xs 0) x) eqn:E2; [reflexivity|].
    apply rltb_false in E1, E2. elim H. lra.
Qed.
(** * Crowding errors *)
Lemma diff_steps l : Steps l (diff l).
Proof.
  split.
  - induction l as [|a [|b t] IH]; auto. simpl in *. now rewrite IH.
  - induction l as [|a [|b t] IH]; intros k x y E1 E2.
    + destruct k; discriminate.
    + destruct k; [discriminate | destruct k; discriminate].
    + destruct k as [|k]; [simpl in *; congruence|]. apply (IH k); assumption.
Qed.
Lemma steps_unique l d d' : Steps l d -> Steps l d' -> d = d'.
Proof.
  intros [L1 H1] [L2 H2]. apply nth_ext with (d := 0) (d' := 0); [congruence|]. intros k Hk. rewrite L1 in Hk.
  destruct (nth_some l k ltac:(lia)) as [a Ea]. destruct (nth_some l (S k) ltac:(lia)) as [b Eb].
  rewrite (nth_of _ _ _ 0 (H1 k a b Ea Eb)), (nth_of _ _ _ 0 (H2 k a b Ea Eb)). reflexivity.
Qed.
Lemma diff_nonneg l x : Rising l -> In x (diff l) -> 0 <= x.
Proof.
  induction l as [|a [|b t] IH]; intros Ri; simpl; try tauto. intros [<-|H].
  - pose proof (rising_two _ _ _ Ri). lra.
  - apply IH; [exact (rising_cons _ _ Ri) | exact H].
Qed.
Lemma sums_from_nth l : forall i, (i < length l)%nat -> nth i (sums_from l) 0 = rsum (skipn i l).
Proof. induction l as [|x t IH]; intros [|i] H; simpl in *; try lia; [reflexivity|]. apply IH. lia. Qed.
Lemma sums_from_length l : length (sums_from l) = length l.
Proof. induction l; simpl; auto. Qed.
Lemma lum_pos m : 0 < lum m. Proof. unfold lum, Rpower. apply exp_pos. Qed.
Lemma skipn_map {A B} (f : A -> B) n l : skipn n (map f l) = map f (skipn n l).
Proof. revert n. induction l; intros [|n]; simpl; auto. Qed.
Lemma skipn_combine {A B} n (l : list A) (m : list B) : skipn n (combine l m) = combine (skipn n l) (skipn n m).
Proof.
  revert l m. induction n as [|n IH]; intros [|a l] [|b m]; simpl; auto. symmetry. destruct (skipn n l); reflexivity.
Qed.
Lemma rsum_map_scale {A} (f : A -> R) c l : rsum (map (fun x => c * f x) l) = c * rsum (map f l).
Proof. induction l; simpl; [ring | rewrite IHl; ring]. Qed.
Lemma lum_ratio m0 m : lum m * lum m = lum m0 * lum m0 * Rpower 10 (8/10 * (m0 - m)).
Proof. unfold lum. rewrite <- !Rpower_plus. f_equal. lra. Qed.
Lemma light_lum m0 mags counts :
  rsum (map (fun p => fst p * fst p * snd p) (combine (map lum mags) counts)) = lum m0 * lum m0 * Light m0 mags counts.
Proof.
  unfold Light, Sum. fold (rsum). revert counts. induction mags as [|m t IH]; intros [|n counts]; simpl; try ring.
  rewrite IH, (lum_ratio m0 m). ring.
Qed.
Lemma light_nonneg m0 mags counts : (forall n, In n counts -> 0 <= n) -> 0 <= Light m0 mags counts.
Proof.
  unfold Light, Sum. revert counts. induction mags as [|m t IH]; intros [|n counts] H; simpl; try lra.
  apply Rplus_le_le_0_compat; [|apply IH; intros; apply H; now right]. apply Rmult_le_pos; [apply H; now left|]. unfold Rpower. apply Rlt_le, exp_pos.
Qed.
Lemma crowd_temp_length mags counts : length counts = length mags -> length (crowd_temp mags counts) = length mags.
Proof. intro L. unfold crowd_temp. rewrite map_length, combine_length, sums_from_length, !map_length, combine_length, map_length. lia. Qed.
Lemma skipn_in {A} n (l : list A) x : In x (skipn n l) -> In x l.
Proof. revert l. induction n; intros [|a l]; simpl; auto. Qed.
Lemma crowd_temp_nth mags counts i m : length counts = length mags -> (forall n, In n counts -> 0 <= n) -> nth_error mags i = Some m ->
  nth i (crowd_temp mags counts) 0 = sqrt (Light m (skipn i mags) (skipn i counts)).
Proof.
  intros L Pos E. assert (Hi : (i < length mags)%nat) by (apply nth_error_Some; congruence).
  unfold crowd_temp. rewrite (nth_map_at _ _ (0, 0)) by (rewrite combine_length, sums_from_length, !map_length, combine_length, map_length; lia).
  rewrite combine_nth by (rewrite sums_from_length, map_length, combine_length, map_length; lia). simpl fst. simpl snd.
  rewrite sums_from_nth by (rewrite map_length, combine_length, map_length; lia).
  rewrite skipn_map, skipn_combine, skipn_map, (light_lum m).
  rewrite (nth_map_at _ _ 0) by assumption. rewrite (nth_of _ _ _ 0 E).
  pose proof (lum_pos m). rewrite sqrt_mult; [| nra | apply light_nonneg; intros n Hn; apply Pos; exact (skipn_in _ _ _ Hn)].
  rewrite sqrt_square by lra. field. lra.
Qed.
Lemma coeff_spec s : coeff s = sqrt PI / 3600 * (s / 2).
Proof.
  unfold coeff. pose proof PI_RGT_0. rewrite sqrt_div_alt by lra. rewrite sqrt_square by lra. field.
Qed.
Lemma tl_length {A} (l : list A) : length (tl l) = Nat.pred (length l).
Proof. destruct l; reflexivity. Qed.
(** the errors: one for each magnitude after the first *)
Lemma comp_crowd_spec mags lf s err : Rising lf -> comp_crowd mags lf s = Ok err ->
  length lf = length mags /\ length err = Nat.pred (length mags) /\
  forall i e, nth_error err i = Some e -> Crowding s (tl mags) (diff lf) i e.
Proof.
  intros Ri. unfold comp_crowd. destruct (Nat.eqb _ _) eqn:E; [|discriminate]. apply Nat.eqb_eq in E. intro H. injection H as <-.
  destruct (diff_steps lf) as [L _]. assert (L2 : length (diff lf) = length (tl mags)) by (rewrite tl_length, L; congruence).
  split; [now symmetry|]. split; [rewrite map_length, crowd_temp_length by assumption; apply tl_length|].
  intros i e He. assert (Hi : (i < length (tl mags))%nat).
  { assert (X : (i < length (map (fun t => (coeff s * t)%R) (crowd_temp (tl mags) (diff lf))))%nat) by (apply nth_error_Some; congruence).
    rewrite map_length, crowd_temp_length in X by assumption. exact X. }
  destruct (nth_some _ _ Hi) as [m Em]. exists m. split; [exact Em|].
  rewrite <- (nth_of _ _ _ 0 He), (nth_map_at _ _ 0) by (rewrite crowd_temp_length; assumption).
  rewrite (crowd_temp_nth _ _ _ m L2 (fun n => diff_nonneg lf n Ri) Em), coeff_spec. reflexivity.
Qed.
Lemma pmin_spec l x : pmin l = Ok x <-> Least l x.
Proof.
  unfold pmin, Least. destruct l as [|a l]; [split; [discriminate | intros [[] _]]|].
  assert (F : forall l a, In (fold_left Rmin l a) (a :: l) /\ forall y, In y (a :: l) -> fold_left Rmin l a <= y).
  { clear. induction l as [|b l IH]; intro a; simpl fold_left.
    - split; [now left|]. intros y [<-|[]]. lra.
    - destruct (IH (Rmin a b)) as [I J]. split.
      + destruct I as [I|I]; [|right; now right]. rewrite <- I. unfold Rmin. destruct (Rle_dec a b); [now left | right; now left].
      + intros y [<-|[<-|Hy]]; [| | apply J; now right];
        (apply Rle_trans with (Rmin a b); [apply J; now left | first [apply Rmin_l | apply Rmin_r]]). }
  destruct (F l a) as [I J]. split.
  - intro H. injection H as <-. auto.
  - intros [Hx Mx]. f_equal. apply Rle_antisym; [now apply J | now apply Mx].
Qed.
Lemma pmax_spec l x : pmax l = Ok x <-> Greatest l x.
Proof.
  unfold pmax, Greatest. destruct l as [|a l]; [split; [discriminate | intros [[] _]]|].
  assert (F : forall l a, In (fold_left Rmax l a) (a :: l) /\ forall y, In y (a :: l) -> y <= fold_left Rmax l a).
  { clear. induction l as [|b l IH]; intro a; simpl fold_left.
    - split; [now left|]. intros y [<-|[]]. lra.
    - destruct (IH (Rmax a b)) as [I J]. split.
      + destruct I as [I|I]; [|right; now right]. rewrite <- I. unfold Rmax. destruct (Rle_dec a b); [right; now left | now left].
      + intros y [<-|[<-|Hy]]; [| | apply J; now right];
        (apply Rle_trans with (Rmax a b); [first [apply Rmax_l | apply Rmax_r] | apply J; now left]). }
  destruct (F l a) as [I J]. split.
  - intro H. injection H as <-. auto.
  - intros [Hx Mx]. f_equal. apply Rle_antisym; [now apply Mx | now apply J].
Qed.
Lemma first_where_spec {A} (p : A -> bool) l : forall i k, first_where p i l = Some k ->
  (i <= k)%nat /\ (exists x, nth_error l (k - i) = Some x /\ p x = true) /\ forall j x, (j < k - i)%nat -> nth_error l j = Some x -> p x = false.
Proof.
  induction l as [|a l IH]; intros i k; simpl; [discriminate|]. destruct (p a) eqn:E.
  - intro H. injection H as <-. rewrite Nat.sub_diag. split; [lia|]. split; [exists a; auto|]. intros; lia.
  - intro H. destruct (IH _ _ H) as (L & (x & Hx & Px) & F). replace (k - i)%nat with (S (k - S i)) by lia.
    split; [lia|]. split; [exists x; auto|]. intros [|j] y Hj Hy; [simpl in Hy; congruence|]. apply (F j); [lia | exact Hy].
Qed.
Lemma first_where_none {A} (p : A -> bool) l : forall i, first_where p i l = None <-> forall x, In x l -> p x = false.
Proof.
  induction l as [|a l IH]; intro i; simpl; [split; auto; tauto|]. destruct (p a) eqn:E.
  - split; [discriminate|]. intro H. rewrite (H a) in E by now left. discriminate.
  - rewrite IH. split; [intros H x [<-|Hx]; auto | auto].
Qed.
Lemma first_where_le {A} (p q : A -> bool) (f : A -> A) l : (forall x, In x l -> q (f x) = true -> p x = true) -> forall i k k',
  first_where p i l = Some k -> first_where q i (map f l) = Some k' -> (k <= k')%nat.
Proof.
  induction l as [|a l IH]; intros H i k k'; simpl; [discriminate|]. destruct (p a) eqn:E.
  - intro X. injection X as <-. destruct (q (f a)).
    + intro X. injection X as <-. lia.
    + intro X. apply first_where_spec in X as [L _]. lia.
  - destruct (q (f a)) eqn:E'; [rewrite (H a) in E; [discriminate | now left | exact E']|]. apply IH. intros x Hx. apply H. now right.
Qed.
