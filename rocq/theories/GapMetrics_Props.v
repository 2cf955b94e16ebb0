(** Property theorems about gaps between visits: C20, C21, C23, C24, C61, C62, C63. *)
From Verif Require Import Base Slicer_Model Slicer_Spec Slicer_Proofs GapMetrics_Model GapMetrics_Spec GapMetrics_Proofs.
From Coq Require Import Permutation Sorted Lia.
Open Scope Z_scope.

(** C20: with all_gaps, bin [k] of the histogram counts the unordered pairs of visits whose time
    difference falls in the bin; there are n(n-1)/2 pairs. *)
Theorem C20_all_gaps : forall bins col res,
  tgaps_run true bins col = Ok (Some res) ->
  length res = (length bins - 1)%nat /\
  (forall k c, nth_error res k = Some c ->
     c = countb (fun p => hist_bin bins k (Z.abs (fst p - snd p))) (pairs col)) /\
  (2 * length (pairs col) = length col * (length col - 1))%nat.
Proof.
  intros bins col res H. destruct (tgaps_all bins col res H) as [H1 H2]. split; auto. split; auto. apply pairs_length.
Qed.
Print Assumptions C20_all_gaps.
Example C20_all_gaps_case : tgaps_run true [0; 15; 25; 30] [30; 10; 40; 20] = Ok (Some [3; 2; 1])%nat.
Proof. reflexivity. Qed.

(** without all_gaps the histogram counts the n-1 differences of time-consecutive visits *)
Theorem C20_consecutive_gaps : forall bins col s g res,
  time_ordered col s -> successive s g -> tgaps_run false bins col = Ok (Some res) ->
  length res = (length bins - 1)%nat /\
  forall k c, nth_error res k = Some c -> c = countb (hist_bin bins k) g.
Proof. exact tgaps_consecutive. Qed.
Print Assumptions C20_consecutive_gaps.
Example C20_consecutive_case :
  time_ordered [30; 10; 40; 20] [10; 20; 30; 40] /\ successive [10; 20; 30; 40] [10; 10; 10] /\
  tgaps_run false [0; 15; 25; 30] [30; 10; 40; 20] = Ok (Some [3; 0; 0])%nat.
Proof.
  split; [apply time_ordered_zsort; reflexivity|]. split; [|reflexivity].
  split; auto. intros [|[|[|[|i]]]] a b Ha Hb; inversion Ha; inversion Hb; reflexivity || (destruct i; discriminate).
Qed.

(** the consecutive gaps are never negative and add up to the time span *)
Theorem C20_consecutive_sum : forall col s g first last,
  time_ordered col s -> successive s g ->
  hd_error s = Some first -> nth_error s (length s - 1) = Some last ->
  (forall d, In d g -> 0 <= d) /\ zsum g = last - first /\
  (forall t, In t col -> first <= t <= last) /\ S (length g) = length col.
Proof.
  intros col s g first last Ht Hg Hf Hl.
  assert (g = diff s) as ->.
  { destruct Hg as [Hlen Hn]. apply nth_ext with (d := 0) (d' := 0); [rewrite diff_length; lia|].
    intros n Hlt. assert (exists a b, nth_error s n = Some a /\ nth_error s (S n) = Some b) as (a & b & Ea & Eb).
    { destruct (nth_error s n) eqn:E1; [|apply nth_error_None in E1; lia].
      destruct (nth_error s (S n)) eqn:E2; [|apply nth_error_None in E2; lia]. eauto. }
    rewrite (nth_error_nth _ _ 0 (Hn n a b Ea Eb)). symmetry. apply nth_error_nth. rewrite nth_error_diff, Ea, Eb. auto. }
  pose proof Ht as [Hp Hnd]. split; [|split; [apply diff_sum; auto|split]].
  - apply diff_nonneg. apply nondecreasing_sorted. exact Hnd.
  - intros t Hi. apply (Permutation_in _ (Permutation_sym Hp)) in Hi. apply In_nth_error in Hi as (i & Hi).
    assert (i < length s)%nat by (apply nth_error_Some; congruence). destruct s as [|s0 s]; [discriminate|]. inversion Hf; subst s0.
    split.
    + destruct i; [inversion Hi; lia|]. apply (Hnd 0%nat (S i)); auto. lia.
    + destruct (Nat.eq_dec i (length (first :: s) - 1)); [subst; rewrite Hl in Hi; inversion Hi; lia|].
      apply (Hnd i (length (first :: s) - 1)%nat); auto. simpl in *. lia.
  - rewrite <- (Permutation_length Hp). apply Hg.
Qed.
Print Assumptions C20_consecutive_sum.
Example C20_sum_case : exists col s g first last,
  time_ordered col s /\ successive s g /\ hd_error s = Some first /\ nth_error s (length s - 1) = Some last /\ g = [10; 5].
Proof.
  exists [20; 10; 25], [10; 20; 25], [10; 5], 10, 25.
  split; [apply time_ordered_zsort; reflexivity|]. split; [|repeat split].
  split; auto. intros [|[|[|i]]] a b Ha Hb; inversion Ha; inversion Hb; reflexivity || (destruct i; discriminate).
Qed.

(** TgapsPercentMetric: the returned percentage is a fraction of the gaps, at most 100 percent, and never
    a division by zero *)
Theorem C20_percent_range : forall all_gaps lo hi col, (2 <= length col)%nat -> exists n d,
  tgaps_percent_run all_gaps lo hi col = Ok (Some (n, d)) /\ (0 < d)%nat /\ (n <= d)%nat /\
  d = (if all_gaps then length (pairs col) else length col - 1)%nat.
Proof. exact tgaps_percent_range. Qed.
Print Assumptions C20_percent_range.
(** it is the number of gaps from min_time to max_time (ends included) over the number of gaps *)
Theorem C20_percent_count : forall lo hi col s g n d,
  (tgaps_percent_run true lo hi col = Ok (Some (n, d)) ->
    n = countb (fun p => (lo <=? Z.abs (fst p - snd p)) && (Z.abs (fst p - snd p) <=? hi)) (pairs col) /\ d = length (pairs col)) /\
  (time_ordered col s -> successive s g -> tgaps_percent_run false lo hi col = Ok (Some (n, d)) ->
    n = countb (fun x => (lo <=? x) && (x <=? hi)) g /\ d = length g).
Proof. intros. split; [apply tgaps_percent_all | apply tgaps_percent_consecutive]. Qed.
Print Assumptions C20_percent_count.
Example C20_percent_case : tgaps_percent_run true 10 20 [30; 10; 40; 20] = Ok (Some (5, 6))%nat.
Proof. reflexivity. Qed.

(** C21 as documented ("min_gap ... max_gap") is false at the interval ends: two visits exactly min_gap
    apart -- only one of them counts as paired. *)
Theorem C21_pair_fraction_refuted : exists lo hi col num den,
  0 < lo < hi /\ pair_fraction lo hi col = Ok (num, den) /\
  num <> countb (has_partner lo hi col) (seq 0 (length col)).
Proof. exists 15, 90, [0; 15], 1%nat, 2%nat. split; [lia|]. split; [reflexivity|]. discriminate. Qed.
Print Assumptions C21_pair_fraction_refuted.

(** with min_gap = 0 every visit is its own partner and the fraction is 1, also for a single visit *)
Theorem C21_zero_min_gap_refuted : forall hi col num den, 0 < hi ->
  pair_fraction 0 hi col = Ok (num, den) -> num = den.
Proof. exact pair_fraction_zero_min. Qed.
Print Assumptions C21_zero_min_gap_refuted.
Example C21_zero_case : pair_fraction 0 90 [5] = Ok (1, 1)%nat /\ has_partner 0 90 [5] 0 = false.
Proof. split; reflexivity. Qed.

(** what the code computes: visits with a partner [min_gap, max_gap) later or (min_gap, max_gap] earlier *)
Theorem C21_pair_fraction_half_open : forall lo hi col num den, 0 < lo -> lo <= hi ->
  pair_fraction lo hi col = Ok (num, den) ->
  den = length col /\ num = countb (has_partner_code lo hi col) (seq 0 (length col)) /\ (num <= den)%nat.
Proof. exact pair_fraction_code. Qed.
Print Assumptions C21_pair_fraction_half_open.
Example C21_half_open_case : pair_fraction 15 90 [0; 20; 500; 515] = Ok (3, 4)%nat.
Proof. reflexivity. Qed.

(** the documented meaning holds when no two visits are exactly min_gap or max_gap apart.
    Missing for the full property: visits exactly at the ends. *)
Theorem C21_pair_fraction_partial : forall lo hi col num den, 0 < lo -> lo <= hi ->
  (forall x y, In x col -> In y col -> x - y <> lo /\ x - y <> hi) ->
  pair_fraction lo hi col = Ok (num, den) ->
  den = length col /\ num = countb (has_partner lo hi col) (seq 0 (length col)) /\ (num <= den)%nat.
Proof.
  intros lo hi col num den Hlo Hle Hne H. destruct (pair_fraction_code lo hi col num den Hlo Hle H) as (H1 & H2 & H3).
  split; auto. split; auto. rewrite H2. apply countb_ext. intros i _. apply partner_no_edge; auto.
Qed.
Print Assumptions C21_pair_fraction_partial.
Example C21_partial_case : pair_fraction 15 90 [20; 0; 500] = Ok (2, 3)%nat /\
  forall x y, In x [20; 0; 500] -> In y [20; 0; 500] -> x - y <> 15 /\ x - y <> 90.
Proof. split; [reflexivity|]. simpl. intuition lia. Qed.

(** C23 *)
Theorem C23_intra_night : forall data, intra_night_gaps data = or_bad (map gap (filter same_night (adj data))).
Proof.
  intros data. rewrite intra_night_spec. unfold or_bad.
  change (fun p : visit * visit => mjd (snd p) - mjd (fst p)) with gap.
  change (fun p : visit * visit => night (fst p) =? night (snd p)) with same_night.
  change (fun p : visit * visit => negb (night (fst p) =? night (snd p))) with (fun p => negb (same_night p)).
  destruct (map gap _); reflexivity.
Qed.
Print Assumptions C23_intra_night.
Definition v (t n : Z) : visit := {| mjd := t; night := n |}.
Example C23_intra_case : intra_night_gaps [v 0 1; v 3 1; v 20 2; v 21 2; v 40 4] = Some [3; 1].
Proof. reflexivity. Qed.

Theorem C23_inter_night : forall data, nights_in_order data ->
  inter_night_gaps data = or_bad (map gap (filter (fun p => negb (same_night p)) (adj data))).
Proof.
  intros data H. rewrite inter_night_spec; [|apply nondecreasing_sorted].
  { unfold or_bad.
  change (fun p : visit * visit => mjd (snd p) - mjd (fst p)) with gap.
  change (fun p : visit * visit => night (fst p) =? night (snd p)) with same_night.
  change (fun p : visit * visit => negb (night (fst p) =? night (snd p))) with (fun p => negb (same_night p)).
  destruct (map gap _); reflexivity. }
  intros i j a b Hij Ha Hb.
  rewrite nth_error_map in Ha, Hb. destruct (nth_error data i) eqn:E1; [|discriminate].
  destruct (nth_error data j) eqn:E2; [|discriminate]. simpl in *. inversion Ha; inversion Hb; subst.
  eapply (H i j); eauto.
Qed.
Print Assumptions C23_inter_night.
Example C23_inter_case : inter_night_gaps [v 0 1; v 3 1; v 20 2; v 21 2; v 40 4] = Some [17; 19] /\
  nights_in_order [v 0 1; v 3 1; v 20 2; v 21 2; v 40 4].
Proof.
  split; [reflexivity|]. intros i j a b Hij Ha Hb.
  destruct i as [|[|[|[|[|i]]]]]; destruct j as [|[|[|[|[|j]]]]]; simpl in *; try lia;
    try match goal with H : nth_error [] ?k = Some _ |- _ => destruct k; discriminate end;
    inversion Ha; inversion Hb; subst; simpl; lia.
Qed.

(** adjacent visits in different nights are the last visit of one night and the first visit of the
    next night that has visits *)
Theorem C23_adjacent_nights : forall data i a b, nights_in_order data ->
  nth_error data i = Some a -> nth_error data (S i) = Some b -> night a <> night b ->
  night a < night b /\
  forall j c, nth_error data j = Some c ->
    (night c = night a -> (j <= i)%nat) /\ (night c = night b -> (i < j)%nat) /\ ~ night a < night c < night b.
Proof.
  intros data i a b H Ha Hb Hne. pose proof (H i (S i) a b ltac:(lia) Ha Hb). split; [lia|].
  intros j c Hc. destruct (Nat.lt_trichotomy j i) as [Hl|[Hl|Hl]].
  - pose proof (H j i c a Hl Hc Ha). lia.
  - subst. assert (c = a) by congruence. subst. lia.
  - destruct (Nat.eq_dec j (S i)); [subst; assert (c = b) by congruence; subst; lia|].
    pose proof (H (S i) j b c ltac:(lia) Hb Hc). lia.
Qed.
Print Assumptions C23_adjacent_nights.

(** together the two metrics see every consecutive gap once *)
Theorem C23_all_gaps_once : forall data intra inter, nights_in_order data ->
  or_bad intra = intra_night_gaps data -> or_bad inter = inter_night_gaps data ->
  Permutation (intra ++ inter) (visit_gaps data).
Proof.
  intros data intra inter Hn H1 H2. rewrite C23_intra_night in H1. rewrite C23_inter_night in H2 by auto.
  assert (forall x y, or_bad x = or_bad y -> x = y) as Hinj.
  { intros [|x xs] [|y ys] H; try discriminate; auto. inversion H; auto. }
  apply Hinj in H1, H2. subst. rewrite <- map_app.
  assert (visit_gaps data = map gap (adj data)) as ->.
  { unfold visit_gaps. clear. induction data as [|a [|b t] IH]; auto.
    change (adj (a :: b :: t)) with ((a, b) :: adj (b :: t)). simpl map in *. rewrite <- IH. reflexivity. }
  apply Permutation_map. clear. generalize (adj data) as l. induction l as [|x l IH]; auto. simpl.
  destruct (same_night x); simpl; [constructor; auto|].
  apply Permutation_trans with (x :: (filter same_night l ++ filter (fun p => negb (same_night p)) l)); [|constructor; auto].
  apply Permutation_sym, Permutation_middle.
Qed.
Print Assumptions C23_all_gaps_once.

(** C24 *)
Theorem C24_season_runs : forall unit seasons firsts lasts, 0 < unit -> nondecreasing seasons ->
  find_season_edges unit seasons = (firsts, lasts) ->
  let season i := option_map (fun s => s / unit) (nth_error seasons i) in
  length firsts = length lasts /\
  (forall k f l, nth_error firsts k = Some f -> nth_error lasts k = Some l ->
     (f <= l)%nat /\ exists s, forall i, (f <= i <= l)%nat -> season i = Some s) /\
  (forall f, nth_error firsts 0 = Some f -> f = 0%nat) /\
  (forall k f l, nth_error firsts (S k) = Some f -> nth_error lasts k = Some l ->
     f = S l /\ season f <> season l) /\
  (forall l, nth_error lasts (length lasts - 1) = Some l -> S l = length seasons) /\
  (seasons <> [] -> firsts <> []).
Proof.
  intros unit seasons firsts lasts Hu Hn H season.
  assert (forall i, season i = nth_error (map (fun s => s / unit) seasons) i) as Hse by (intros; unfold season; rewrite nth_error_map; auto).
  destruct (season_runs unit seasons firsts lasts) as (H1 & H2 & H3 & H4 & H5 & H6); auto.
  { apply nondecreasing_sorted. intros i j a b Hij Ha Hb. rewrite nth_error_map in Ha, Hb.
    destruct (nth_error seasons i) eqn:E1; [|discriminate]. destruct (nth_error seasons j) eqn:E2; [|discriminate].
    cbn in Ha, Hb. inversion Ha; inversion Hb; subst. apply Z.div_le_mono; auto. apply (Hn i j); auto. }
  split; auto. split; [|split; auto; split; [|split; auto]].
  - intros k f l Hf Hl. destruct (H2 k f l Hf Hl) as (Hfl & s & Hs). split; auto. exists s. intros i Hi. rewrite Hse. auto.
  - intros k f l Hf Hl. rewrite !Hse. apply (H4 k); auto.
Qed.
Print Assumptions C24_season_runs.
Example C24_case : find_season_edges 10 [-3; 1; 5; 9; 12; 31; 38] = ([0; 1; 4; 5], [0; 3; 4; 6])%nat /\
  nondecreasing [-3; 1; 5; 9; 12; 31; 38].
Proof.
  split; [reflexivity|]. apply sorted_nondecreasing.
  repeat constructor; lia.
Qed.

(** C61: all the visits of a slice in one night, all_gaps: NightgapsMetric raises ValueError *)
Theorem C61_nightgaps_refuted : forall bins n k, nightgaps_run true bins (repeat n (S (S k))) = Err ValueError.
Proof. exact nightgaps_one_night. Qed.
Print Assumptions C61_nightgaps_refuted.
(** with at least two nights the histogram counts the pairs of distinct nights ([u] lists the nights) *)
Theorem C61_nightgaps_partial : forall bins col a b u, In a col -> In b col -> a <> b -> nondecreasing bins ->
  NoDup u -> (forall x, In x u <-> In x col) ->
  exists h, nightgaps_run true bins col = Ok (Some h) /\ length h = (length bins - 1)%nat /\
  forall k c, nth_error h k = Some c -> c = countb (fun p => hist_bin bins k (Z.abs (fst p - snd p))) (pairs u).
Proof.
  intros bins col a b u Ha Hb Hne Hm Hnd Hu.
  destruct (nightgaps_two_nights bins col a b Ha Hb Hne (nondecreasing_monotone bins Hm)) as (h & H1 & H2 & H3).
  exists h. split; auto. split; auto. intros k c Hc. rewrite (H3 k c Hc).
  rewrite <- !(countb_map absdiff (hist_bin bins k)). apply countb_perm, pairs_perm, NoDup_Permutation; auto.
  - apply sorted_lt_NoDup, np_unique_sorted.
  - intros x. rewrite np_unique_In. symmetry. apply Hu.
Qed.
Print Assumptions C61_nightgaps_partial.
Example C61_case : nightgaps_run true [0; 1; 2; 3; 4] [7; 5; 7; 8] = Ok (Some [0; 1; 1; 1])%nat.
Proof. reflexivity. Qed.

(** C62 *)
Theorem C62_max_gap : forall col m, max_gap_run col = Some m ->
  (forall first last t, In first col -> In last col -> first <= t <= last ->
     exists v, In v col /\ v <= t /\ t - v <= m) /\
  (exists a b, In a col /\ In b col /\ b - a = m /\ forall v, In v col -> v <= a \/ b <= v).
Proof. exact max_gap_spec. Qed.
Print Assumptions C62_max_gap.
Theorem C62_max_gap_defined : forall col, (2 <= length col)%nat <-> max_gap_run col <> None.
Proof.
  intros col. unfold max_gap_run. pose proof (diff_length (zsort col)) as H. rewrite zsort_length in H.
  destruct (diff (zsort col)); simpl in H; split; intros; try lia; try congruence.
Qed.
Print Assumptions C62_max_gap_defined.
Example C62_case : max_gap_run [9; 1; 3; 20] = Some 11.
Proof. reflexivity. Qed.

(** C63 *)
Theorem C63_template_exists : forall seeing,
  template_exists_run seeing = (countb (earlier_as_good seeing) (seq 0 (length seeing)), length seeing).
Proof. exact template_count. Qed.
Print Assumptions C63_template_exists.
Example C63_case : template_exists_run [7; 9; 5; 6; 5] = (3, 5)%nat.
Proof. reflexivity. Qed.
