(** C318-C319: visits in time windows, and blocks of visits in a night. *)
From Coq Require Import String Ascii Reals ZArith List Lra Lia Bool Permutation Sorted.
From Verif Require Import Base Depth_Model Depth_Proofs Template_Model Sky_Spec Sky_Proofs Crowd_Model Crowd_Spec Crowd_Proofs Crowd_Props3.
From Verif Require Small_Model Small_Proofs Astrom_Props.
Import ListNotations.
Open Scope R_scope.

(** * C318 *)
(** strictly inside a window *)
Definition In1 (t : R) (w : R * R) : Prop := fst w < t < snd w.
Lemma within_spec w t : within w t = true <-> In1 t w.
Proof. unfold within, In1. rewrite andb_true_iff, !rltb_true. tauto. Qed.
Lemma num_obs_cons w ws times : num_obs (w :: ws) times = (length (filter (within w) times) + num_obs ws times)%nat.
Proof.
  unfold num_obs. simpl. assert (H : forall l a, fold_left (fun n w0 => n + length (filter (within w0) times))%nat l a
     = (a + fold_left (fun n w0 => n + length (filter (within w0) times))%nat l 0)%nat).
  { induction l as [|x l IH]; intro a; simpl; [lia|]. rewrite IH, (IH (length _)). lia. }
  now rewrite H.
Qed.
(** windows that do not overlap: the number of visits strictly inside one of them *)
Theorem C318_count windows times (inside : R -> bool) :
  (forall t w w' i j, nth_error windows i = Some w -> nth_error windows j = Some w' -> In1 t w -> In1 t w' -> i = j) ->
  (forall t, inside t = true <-> exists w, In w windows /\ In1 t w) ->
  num_obs windows times = length (filter inside times).
Proof.
  revert inside. induction windows as [|w ws IH]; intros inside D I.
  - unfold num_obs. simpl. symmetry. apply length_zero_iff_nil. induction times as [|t ts IHt]; simpl; [reflexivity|].
    destruct (inside t) eqn:E; [apply I in E as (w & [] & _) | exact IHt].
  - rewrite num_obs_cons. rewrite (IH (fun t => existsb (fun w' => within w' t) ws)).
    + assert (X : forall t, inside t = within w t || existsb (fun w' => within w' t) ws).
      { intro t. apply eq_true_iff_eq. rewrite I, orb_true_iff, existsb_exists. split.
        - intros (w' & [<-|H] & K); [left; now apply within_spec | right; exists w'; split; [exact H | now apply within_spec]].
        - intros [K|(w' & H & K)]; [exists w; split; [now left | now apply within_spec] | exists w'; split; [now right | now apply within_spec]]. }
      clear IH. induction times as [|t ts IHt]; [reflexivity|]. cbn [filter]. rewrite X.
      destruct (within w t) eqn:E1; destruct (existsb (fun w' => within w' t) ws) eqn:E2; cbn [orb length]; try lia.
      exfalso. apply existsb_exists in E2 as (w' & H & K). destruct (In_nth_error _ _ H) as (j & Ej).
      pose proof (D t w w' 0%nat (S j) eq_refl Ej (proj1 (within_spec _ _) E1) (proj1 (within_spec _ _) K)). discriminate.
    + intros t w1 w2 i j E1 E2 H1 H2. pose proof (D t w1 w2 (S i) (S j) E1 E2 H1 H2). lia.
    + intro t. rewrite existsb_exists. split; intros (w' & H & K); exists w'; (split; [exact H | now apply within_spec]).
Qed.
Print Assumptions C318_count.
(** refuted for overlapping windows: a visit is counted more than once *)
Theorem C318_overlap_refuted : exists windows times, (length times < num_obs windows times)%nat.
Proof.
  exists [(0, 2); (0, 2)], [1]. rewrite !num_obs_cons. assert (E : within (0, 2) 1 = true) by (apply within_spec; unfold In1; simpl; lra).
  cbn [filter]. rewrite E. simpl. lia.
Qed.
Print Assumptions C318_overlap_refuted.
(** the order of the visits and of the windows does not matter *)
Theorem C318_order windows windows' times times' : Permutation windows windows' -> Permutation times times' ->
  num_obs windows times = num_obs windows' times'.
Proof.
  intros Pw Pt. transitivity (num_obs windows times').
  - clear Pw windows'. induction windows as [|w ws IH]; [reflexivity|]. rewrite !num_obs_cons, IH. f_equal.
    apply Permutation_length. now apply Astrom_Props.filter_perm.
  - clear times Pt. induction Pw; rewrite ?num_obs_cons in *; auto; try lia.
Qed.
Print Assumptions C318_order.
Theorem C318_intervals_order stat windows times times' : Permutation times times' -> intervals_run stat windows times = intervals_run stat windows times'.
Proof. intro P. unfold intervals_run, gaps. now rewrite (Small_Proofs.rsort_perm_eq _ _ P). Qed.
Print Assumptions C318_intervals_order.
Lemma filter_sorted (p : R -> bool) l : StronglySorted Rle l -> StronglySorted Rle (filter p l).
Proof.
  induction 1 as [|a l _ IH F]; simpl; [constructor|]. destruct (p a); [|exact IH]. constructor; [exact IH|].
  apply Forall_forall. intros x Hx. rewrite Forall_forall in F. apply F. apply filter_In in Hx. tauto.
Qed.
Lemma diff_sorted_nonneg l x : StronglySorted Rle l -> In x (diff l) -> 0 <= x.
Proof.
  induction 1 as [|a l S IH F]; [intros []|]. destruct l as [|b t]; [intros []|]. simpl. intros [<-|H]; [|now apply IH].
  inversion F; subst. lra.
Qed.
Lemma diff_sum a l : StronglySorted Rle (a :: l) -> exists z, Greatest (a :: l) z /\ rsum (diff (a :: l)) = z - a.
Proof.
  revert a. induction l as [|b t IH]; intros a S.
  - exists a. split; [split; [now left | intros y [<-|[]]; lra]|]. simpl. unfold rsum. simpl. lra.
  - inversion S as [|? ? S' F]; subst. destruct (IH b S') as (z & [I G] & E). exists z. split.
    + split; [now right|]. intros y [<-|Hy]; [|now apply G]. inversion F; subst. pose proof (G b (or_introl eq_refl)). lra.
    + change (diff (a :: b :: t)) with ((b - a) :: diff (b :: t)). change (rsum ((b - a) :: diff (b :: t))) with (b - a + rsum (diff (b :: t))). rewrite E. lra.
Qed.
Lemma diff_length l : length (diff l) = Nat.pred (length l).
Proof. exact (proj1 (diff_steps l)). Qed.
(** no interval is negative, and none spans two windows *)
Theorem C318_nonneg windows times g : In g (gaps windows times) -> 0 <= g /\ exists w s t, In w windows /\ In s times /\ In t times /\ In1 s w /\ In1 t w /\ g = t - s.
Proof.
  intro H. unfold gaps in H. apply in_flat_map in H as (w & Hw & Hg).
  set (l := filter (within w) (Small_Model.rsort times)) in *.
  assert (S : StronglySorted Rle l) by (apply filter_sorted, Small_Proofs.rsort_sorted). split; [exact (diff_sorted_nonneg _ _ S Hg)|].
  assert (X : forall x, In x l -> In x times /\ In1 x w).
  { intros x Hx. unfold l in Hx. apply filter_In in Hx as [I W]. split; [exact (Permutation_in _ (Small_Proofs.rsort_perm times) I) | now apply within_spec]. }
  clear S. clearbody l. induction l as [|a l IH]; [elim Hg|]. destruct l as [|b t]; [elim Hg|]. destruct Hg as [<-|Hg].
  - exists w, a, b. pose proof (X a (or_introl eq_refl)). pose proof (X b (or_intror (or_introl eq_refl))). tauto.
  - apply IH; [exact Hg|]. intros; apply X; now right.
Qed.
Print Assumptions C318_nonneg.
(** one window: the mean interval is the time from the first to the last visit over the number of visits less one *)
Theorem C318_mean w times first last : (2 <= length (filter (within w) times))%nat ->
  Least (filter (within w) times) first -> Greatest (filter (within w) times) last ->
  intervals_run "mean" [w] times = Ok (Some ((last - first) / (INR (num_obs [w] times) - 1))).
Proof.
  intros N L G. unfold intervals_run. simpl String.eqb. cbv iota. f_equal. unfold gaps. cbn [flat_map]. rewrite app_nil_r.
  assert (P : Permutation (filter (within w) (Small_Model.rsort times)) (filter (within w) times)) by (apply Astrom_Props.filter_perm, Small_Proofs.rsort_perm).
  assert (S : StronglySorted Rle (filter (within w) (Small_Model.rsort times))) by apply filter_sorted, Small_Proofs.rsort_sorted.
  pose proof (Permutation_length P) as Ln. set (l := filter (within w) (Small_Model.rsort times)) in *.
  rewrite num_obs_cons. unfold num_obs at 1. cbn [fold_left]. rewrite Nat.add_0_r, <- Ln.
  destruct l as [|a t] eqn:El; [simpl in Ln; lia|].
  assert (a = first).
  { destruct L as [I Lo]. pose proof (Permutation_in _ (Permutation_sym P) I) as I'. pose proof (Lo a (Permutation_in _ P (or_introl eq_refl))).
    destruct I' as [->|I']; [reflexivity|]. inversion S as [|? ? _ F]; subst. rewrite Forall_forall in F. pose proof (F _ I'). lra. }
  subst a. destruct (diff_sum first t S) as (z & [Iz Gz] & E).
  assert (z = last).
  { destruct G as [I Hi]. pose proof (Hi z (Permutation_in _ P Iz)). pose proof (Gz last (Permutation_in _ (Permutation_sym P) I)). lra. }
  subst z. unfold mean. pose proof (diff_length (first :: t)) as Ld. cbn [length Nat.pred] in Ld.
  destruct (diff (first :: t)) as [|g gs] eqn:Ed; [simpl in Ld, Ln; lia|]. f_equal. rewrite E, Ld. f_equal. cbn [length]. rewrite S_INR. lra.
Qed.
Print Assumptions C318_mean.
(** without two visits in one window: not a number; an unknown statistic raises *)
Theorem C318_empty stat windows times : In stat ["mean"; "median"; "std"]%string ->
  (forall w, In w windows -> (length (filter (within w) times) <= 1)%nat) -> intervals_run stat windows times = Ok None.
Proof.
  intros Hs H. assert (E : gaps windows times = []).
  { unfold gaps. induction windows as [|w ws IH]; [reflexivity|]. cbn [flat_map]. rewrite IH by (intros; apply H; now right). rewrite app_nil_r.
    apply length_zero_iff_nil. rewrite diff_length.
    rewrite (Permutation_length (Astrom_Props.filter_perm (within w) _ _ (Small_Proofs.rsort_perm times))). pose proof (H w (or_introl eq_refl)). lia. }
  unfold intervals_run. rewrite E. simpl in Hs. repeat destruct Hs as [<-|Hs]; try reflexivity. elim Hs.
Qed.
Print Assumptions C318_empty.
Theorem C318_unknown stat windows times : ~ In stat ["mean"; "median"; "std"]%string -> intervals_run stat windows times = Err UnboundLocalError.
Proof.
  intro H. unfold intervals_run.
  destruct (String.eqb_spec stat "mean"); [elim H; subst; simpl; tauto|]. destruct (String.eqb_spec stat "median"); [elim H; subst; simpl; tauto|].
  destruct (String.eqb_spec stat "std"); [elim H; subst; simpl; tauto | reflexivity].
Qed.
Print Assumptions C318_unknown.
Example C318_case : In1 1 (0, 2) /\ Least [1; 3; 5] 1 /\ Greatest [1; 3; 5] 5.
Proof. unfold In1, Least, Greatest. simpl. repeat split; try lra; try tauto; intros y H; repeat destruct H as [<-|H]; try lra; elim H. Qed.

(** * C319 *)
(** two visits in a row belong together: the same filter and at most two minutes apart *)
Definition Together (p v : R * string) : Prop := snd v = snd p /\ Rabs (fst p - fst v) <= 120 / 3600 / 24.
Lemma break_spec vs j p v : nth_error vs j = Some p -> nth_error vs (S j) = Some v -> (break_at vs (S j) = false <-> Together p v).
Proof.
  intros Hp Hv. unfold break_at, Together. rewrite (nth_of _ _ _ _ Hp), (nth_of _ _ _ _ Hv), orb_false_iff, negb_false_iff, String.eqb_eq, rltb_false. tauto.
Qed.
Lemma seq_sorted a n : StronglySorted lt (seq a n).
Proof. revert a. induction n; intro a; simpl; constructor; [apply IHn|]. apply Forall_forall. intros x Hx. apply in_seq in Hx. lia. Qed.
Lemma nfilter_sorted (p : nat -> bool) l : StronglySorted lt l -> StronglySorted lt (filter p l).
Proof.
  induction 1 as [|a l _ IH F]; simpl; [constructor|]. destruct (p a); [|exact IH]. constructor; [exact IH|].
  apply Forall_forall. intros x Hx. rewrite Forall_forall in F. apply F. apply filter_In in Hx. tauto.
Qed.
Lemma blocks_cover a t : StronglySorted lt (a :: t) -> flat_map (fun b => seq (fst b) (S (snd b) - fst b)) (blocks_of (a :: t)) = seq a (last (a :: t) 0%nat - a).
Proof.
  revert a. induction t as [|b t IH]; intros a S; [simpl; now rewrite Nat.sub_diag|].
  inversion S as [|? ? S' F]; subst. inversion F as [|? ? Hab _]; subst.
  change (blocks_of (a :: b :: t)) with ((a, b - 1)%nat :: blocks_of (b :: t)). cbn [flat_map fst snd]. rewrite (IH b S').
  change (last (a :: b :: t) 0%nat) with (last (b :: t) 0%nat).
  assert (Lb : (b <= last (b :: t) 0)%nat).
  { clear - S'. revert b S'. induction t as [|c t IH]; intros b S; [simpl; lia|]. inversion S as [|? ? S' F]; subst. inversion F; subst. pose proof (IH c S').
    change (last (b :: c :: t) 0%nat) with (last (c :: t) 0%nat). lia. }
  replace (Datatypes.S (b - 1) - a)%nat with (b - a)%nat by lia.
  replace (last (b :: t) 0 - a)%nat with ((b - a) + (last (b :: t) 0 - b))%nat by lia. rewrite seq_app. f_equal. f_equal. lia.
Qed.
Lemma blocks_in good l r : StronglySorted lt good -> In (l, r) (blocks_of good) ->
  In l good /\ In (S r) good /\ (l <= r)%nat /\ forall i, (l < i <= r)%nat -> ~ In i good.
Proof.
  induction 1 as [|a t S IH F]; [intros []|]. destruct t as [|b t]; [intros []|]. inversion F as [|? ? Hab Fa]; subst.
  change (blocks_of (a :: b :: t)) with ((a, b - 1)%nat :: blocks_of (b :: t)). intros [H|H].
  - injection H as <- <-. replace (Datatypes.S (b - 1)) with b by lia. repeat split; [now left | now (right; left) | lia|].
    intros i Hi [E|[E|I]]; try lia. inversion S as [|? ? _ Fb]; subst. rewrite Forall_forall in Fb. pose proof (Fb i I). lia.
  - destruct (IH H) as (I1 & I2 & L & N). repeat split; [now right | now right | exact L|]. intros i Hi [E|I]; [|now apply (N i)].
    subst i. assert (a < l)%nat; [|lia]. destruct I1 as [<-|I1]; [exact Hab|]. rewrite Forall_forall in Fa. now apply Fa.
Qed.
Lemma breaks_sorted vs : StronglySorted lt (breaks vs).
Proof. apply nfilter_sorted, seq_sorted. Qed.
Lemma breaks_in vs i : In i (breaks vs) <-> (i <= length vs)%nat /\ ((i < length vs)%nat /\ break_at vs i = true \/ i = O \/ i = length vs).
Proof. unfold breaks. rewrite filter_In, in_seq, !orb_true_iff, andb_true_iff, Nat.ltb_lt, !Nat.eqb_eq. intuition lia. Qed.
Lemma last_app1 {A} (l : list A) x d : last (l ++ [x]) d = x.
Proof. apply last_last. Qed.
(** the blocks are runs of visits, one after the other, that together are all visits *)
Theorem C319_blocks vs : flat_map (fun b => seq (fst b) (S (snd b) - fst b)) (blocks vs) = seq 0 (length vs) /\
  forall l r, In (l, r) (blocks vs) -> (l <= r < length vs)%nat.
Proof.
  unfold blocks. pose proof (breaks_sorted vs) as S. split.
  - assert (E : exists t, breaks vs = O :: t).
    { unfold breaks. cbn [seq filter]. exists (filter (fun i => (Nat.ltb i (length vs) && break_at vs i) || Nat.eqb i 0 || Nat.eqb i (length vs)) (seq 1 (length vs))).
      now rewrite Nat.eqb_refl, orb_true_r. }
    assert (La : last (breaks vs) O = length vs).
    { unfold breaks. rewrite seq_S, filter_app. cbn [filter]. rewrite Nat.add_0_l, Nat.eqb_refl, orb_true_r. apply last_last. }
    destruct E as (t & E). rewrite E in *. rewrite (blocks_cover O t S), La. now rewrite Nat.sub_0_r.
  - intros l r H. destruct (blocks_in _ _ _ S H) as (_ & I & L & _). apply breaks_in in I. lia.
Qed.
Print Assumptions C319_blocks.
(** neighbours belong together exactly inside the blocks: a block starts where the filter changes or after two minutes *)
Theorem C319_inside vs l r j p v : In (l, r) (blocks vs) -> nth_error vs j = Some p -> nth_error vs (S j) = Some v ->
  ((l <= j /\ S j <= r)%nat -> Together p v) /\ (S j = l -> ~ Together p v).
Proof.
  intros H Hp Hv. unfold blocks in H. destruct (blocks_in _ _ _ (breaks_sorted vs) H) as (I1 & I2 & L & N).
  assert (Lj : (S j < length vs)%nat) by (apply nth_error_Some; congruence). split.
  - intros [L1 L2]. apply (break_spec vs j p v Hp Hv). destruct (break_at vs (S j)) eqn:E; [|reflexivity].
    elim (N (S j) ltac:(lia)). apply breaks_in. split; [lia|]. left. split; [exact Lj | exact E].
  - intros E T. apply (break_spec vs j p v Hp Hv) in T. apply breaks_in in I1 as (_ & [[_ B]|[B|B]]); subst l; [congruence | lia | lia].
Qed.
Print Assumptions C319_inside.
Lemma search_le l x : (search l x <= length l)%nat.
Proof. induction l; simpl; [lia|]. destruct (rltb _ _); simpl; lia. Qed.
Lemma search_below l x : forall i y, (i < search l x)%nat -> nth_error l i = Some y -> y < x.
Proof.
  induction l as [|a l IH]; intros i y; simpl; [lia|]. destruct (rltb a x) eqn:E; [|lia]. destruct i as [|i]; simpl.
  - intros _ H. injection H as <-. now apply rltb_true. - intros L H. apply (IH i y); [lia | exact H].
Qed.
Lemma search_above l x y : nth_error l (search l x) = Some y -> x <= y.
Proof. induction l as [|a l IH]; simpl; [discriminate|]. destruct (rltb a x) eqn:E; simpl; [exact IH|]. intro H. injection H as <-. now apply rltb_false. Qed.
(** the midnight of a block edge is the nearest of the midnights *)
Theorem C319_midnight midnights mjd : Increasing midnights -> midnights <> [] -> exists m, midnight_of midnights mjd = Ok m /\ Nearest midnights mjd m.
Proof.
  intros Inc N. unfold midnight_of. destruct midnights as [|m0 mt] eqn:Em; [congruence|]. rewrite <- Em in *. clear N.
  set (n := length midnights). set (i0 := search midnights mjd). cbv zeta. eexists. split; [reflexivity|].
  assert (Hn : (0 < n)%nat) by (unfold n; rewrite Em; simpl; lia).
  assert (Li : (i0 <= n)%nat) by apply search_le.
  assert (Bl : forall i y, (i < i0)%nat -> nth_error midnights i = Some y -> y < mjd) by (intros i y; apply search_below).
  assert (Ab : forall i y, (i0 <= i)%nat -> nth_error midnights i = Some y -> mjd <= y).
  { intros i y L E. assert (Hi : (i < n)%nat) by (apply nth_error_Some; congruence). destruct (nth_some midnights i0) as (z & Ez); [fold n; lia|].
    pose proof (search_above _ _ _ Ez). destruct (Nat.eq_dec i0 i) as [<-|Ne]; [fold i0 in Ez; congruence|]. pose proof (Inc i0 i z y ltac:(lia) Ez E). lra. }
  assert (At : forall i, (i < n)%nat -> nth_error midnights i = Some (nth i midnights 0)).
  { intros i Hi. destruct (nth_some midnights i Hi) as (z & Ez). now rewrite (nth_of _ _ _ 0 Ez). }
  assert (Mono : forall i j, (i <= j < n)%nat -> nth i midnights 0 <= nth j midnights 0).
  { intros i j H. destruct (Nat.eq_dec i j) as [->|Ne]; [lra|]. pose proof (Inc i j _ _ ltac:(lia) (At i ltac:(lia)) (At j ltac:(lia))). lra. }
  assert (Goal1 : forall k, (k < n)%nat ->
     (forall j, (j < n)%nat -> Rabs (mjd - nth k midnights 0) <= Rabs (mjd - nth j midnights 0)) -> Nearest midnights mjd (nth k midnights 0)).
  { intros k Hk H. split; [exact (nth_error_In _ _ (At k Hk))|]. intros y Hy. destruct (In_nth_error _ _ Hy) as (j & Ej).
    assert (Hj : (j < n)%nat) by (apply nth_error_Some; congruence). rewrite (At j Hj) in Ej. injection Ej as <-. now apply H. }
  destruct (Nat.leb_spec n i0) as [Ln|Ln].
  - assert (i0 = n) by lia. destruct n as [|n'] eqn:En; [lia|]. replace i0 with (S n') in * by lia. replace (S n' - 1)%nat with n' by lia.
    match goal with |- context[rltb ?a ?a] => assert (rltb a a = false) as -> by (apply rltb_false; lra) end.
    apply Goal1; [lia|]. intros j Hj. pose proof (Bl j _ ltac:(lia) (At j Hj)). pose proof (Bl n' _ ltac:(lia) (At n' ltac:(lia))). pose proof (Mono j n' ltac:(lia)).
    rewrite !Rabs_right by lra. lra.
  - pose proof (Ab i0 _ ltac:(lia) (At i0 Ln)) as A0. destruct i0 as [|k] eqn:Ek.
    + pose proof (Mono O (n - 1)%nat ltac:(lia)) as M1.
      match goal with |- context[rltb ?a ?b] => assert (rltb a b = false) as -> by (apply rltb_false; rewrite !Rabs_left1 by lra; lra) end.
      apply Goal1; [lia|]. intros j Hj. pose proof (Mono O j ltac:(lia)). rewrite !Rabs_left1 by lra. lra.
    + pose proof (Bl k _ ltac:(lia) (At k ltac:(lia))) as B0.
      assert (D1 : Rabs (mjd - nth k midnights 0) = mjd - nth k midnights 0) by (apply Rabs_right; lra).
      assert (D2 : Rabs (mjd - nth (S k) midnights 0) = nth (S k) midnights 0 - mjd) by (rewrite Rabs_left1 by lra; lra).
      rewrite D1, D2. destruct (rltb _ _) eqn:E; [apply rltb_true in E | apply rltb_false in E]; apply Goal1; try lia; intros j Hj; rewrite ?D1, ?D2;
        (destruct (Nat.le_gt_cases j k) as [J|J];
         [pose proof (Mono j k ltac:(lia)); pose proof (Bl j _ ltac:(lia) (At j Hj)); rewrite (Rabs_right (mjd - nth j midnights 0)) by lra; lra
         |pose proof (Mono (S k) j ltac:(lia)); rewrite (Rabs_left1 (mjd - nth j midnights 0)) by lra; lra]).
Qed.
Print Assumptions C319_midnight.
Example C319_case : Increasing [1; 2; 3] /\ Together (0, "r"%string) (1/1000, "r"%string) /\ ~ Together (0, "r"%string) (1/1000, "g"%string).
Proof.
  split; [apply sorted_increasing; repeat constructor; lra|]. unfold Together. simpl. split; [split; [reflexivity|]|].
  - rewrite Rabs_left1 by lra. lra. - intros [H _]. discriminate.
Qed.
