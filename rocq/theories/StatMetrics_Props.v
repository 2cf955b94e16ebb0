(** Property theorems about statistics metrics: C22, C25, C26, C27, C64-C67. *)
From Verif Require Import Base Slicer_Model Slicer_Spec Slicer_Proofs GapMetrics_Model GapMetrics_Spec GapMetrics_Proofs.
From Verif Require Import StatMetrics_Model StatMetrics_Spec StatMetrics_Proofs.
From Coq Require Import QArith Qabs Permutation Sorted Lia Lqa.
Open Scope Z_scope.

(** C22: the documented range [0,1] is false: visits at 0 and twice at the end of the survey give 4/3. *)
Theorem C22_uniformity_range_refuted : exists survey col r,
  0 < survey /\ inside_survey survey col /\ uniformity_run survey col = Ok r /\ (1 < r)%Q.
Proof.
  exists 1, [0; 1; 1]. eexists. split; [lia|]. split; [|split; [reflexivity|reflexivity]].
  intros x y Hx Hy. simpl in *. intuition lia.
Qed.
Print Assumptions C22_uniformity_range_refuted.

(** what holds: the value of n >= 2 visits inside the survey lies between 0 and 2 - 2/n, does not depend on
    the order of the visits, and is 0 exactly for visits evenly spaced by (survey length)/n.
    Missing for the full property: the upper bound 1 (false). *)
Theorem C22_uniformity_partial : forall survey col r,
  0 < survey -> (2 <= length col)%nat -> inside_survey survey col ->
  uniformity_run survey col = Ok r ->
  (0 <= r <= 2 - (2 # Pos.of_nat (length col)))%Q /\
  (forall s, time_ordered col s ->
     ((r == 0)%Q <-> forall first k x, nth_error s 0 = Some first -> nth_error s k = Some x ->
        (inject_Z (x - first) == inject_Z survey * (Z.of_nat k # Pos.of_nat (length col)))%Q)).
Proof.
  intros survey col r H1 H2 H3 H4. split; [exact (uniformity_bounds survey col r H1 H2 H3 H4)|].
  intros s Hs. exact (uniformity_zero survey col s r H1 H2 H3 Hs H4).
Qed.
Print Assumptions C22_uniformity_partial.
Example C22_partial_case : exists r, uniformity_run 100 [75; 0; 50; 25] = Ok r /\ (r == 0)%Q /\
  inside_survey 100 [75; 0; 50; 25].
Proof. eexists. split; [reflexivity|]. split; [reflexivity|]. intros x y Hx Hy; simpl in *; intuition lia. Qed.

Theorem C22_order_independent : forall survey col col', Permutation col col' ->
  uniformity_run survey col = uniformity_run survey col'.
Proof. exact uniformity_perm. Qed.
Print Assumptions C22_order_independent.

(** a single visit, and visits all at one time, are "perfectly non-uniform" *)
Theorem C22_same_time : forall survey t n, 0 < survey -> exists r,
  uniformity_run survey (repeat t (S n)) = Ok r /\ (r == 1)%Q.
Proof.
  intros survey t n Hs. destruct n as [|n]; [exists 1%Q; split; reflexivity|].
  set (col := repeat t (S (S n))).
  assert (inside_survey survey col) as Hin.
  { intros x y Hx Hy. apply repeat_spec in Hx, Hy. subst. lia. }
  assert (length col = S (S n)) as Hl by apply repeat_length.
  destruct (uniformity_dates_ok survey col Hs ltac:(rewrite Hl; lia) Hin) as (E & Hd & _ & _ & _).
  destruct (ks_dmax_total (map (fun x => inject_Z (x - zmin col) / inject_Z survey)%Q (zsort col)) ltac:(rewrite Hd, Hl; lia)) as (r & Hr).
  exists r. rewrite E. split; auto.
  set (dates := map _ _) in *.
  assert (forall k d, nth_error dates k = Some d -> (d == 0)%Q) as Hz.
  { intros k d Hk. unfold dates in Hk. rewrite nth_error_map in Hk. destruct (nth_error (zsort col) k) as [x|] eqn:Ex; [|discriminate].
    cbn [option_map] in Hk. apply (f_equal (fun o => match o with Some q => q | None => 0%Q end)) in Hk. cbv beta iota in Hk. rewrite <- Hk.
    apply zsort_nth_range in Ex as [_ Ex]. apply repeat_spec in Ex. subst x.
    assert (zmin col = t) as -> by (apply (repeat_spec (S (S n))); apply zmin_In; discriminate).
    rewrite Z.sub_diag. unfold Qdiv. change (inject_Z 0) with 0%Q. ring. }
  destruct (nth_error dates 1) as [d1|] eqn:E1; [|apply nth_error_None in E1; rewrite Hd, Hl in E1; lia].
  destruct (ks_value dates d1 r E1 Hr) as (Hub & Hlub & _). pose proof (Hz _ _ E1) as Z1.
  apply Qle_antisym.
  - apply Hlub. intros k d Hk. pose proof (Hz k d Hk) as Zk.
    assert (k < length dates)%nat as Hlt by (apply nth_error_Some; congruence).
    pose proof (nfrac_le1 (S k) (length dates) ltac:(lia) ltac:(lia)). apply Qabs_Qle_condition. lra.
  - destruct (nth_error dates (S n)) as [d|] eqn:Ed; [|apply nth_error_None in Ed; rewrite Hd, Hl in Ed; lia].
    pose proof (Hz _ _ Ed) as Zd. specialize (Hub _ _ Ed). rewrite Hd, Hl in Hub.
    pose proof (nfrac_full (S (S n)) ltac:(lia)) as F. apply Qabs_Qle_condition in Hub. lra.
Qed.
Print Assumptions C22_same_time.

(** C66: RapidRevisitUniformityMetric uses the same formula and also leaves [0,1] *)
Theorem C66_rapid_revisit_range_refuted : exists lo hi col r, lo < hi /\
  rapid_revisit_uniformity_run 2 lo hi col = Ok (Some r) /\ (1 < r)%Q.
Proof. exists 1, 11, [0; 1; 12; 23]. eexists. split; [lia|]. split; [reflexivity|reflexivity]. Qed.
Print Assumptions C66_rapid_revisit_range_refuted.
Theorem C66_rapid_revisit_partial : forall mn lo hi col r, lo < hi ->
  rapid_revisit_uniformity_run mn lo hi col = Ok (Some r) ->
  exists n, (2 <= n)%nat /\ (mn <= n)%nat /\
    (forall s g, time_ordered col s -> successive s g -> n = countb (fun d => (lo <=? d) && (d <=? hi)) g) /\
    (0 <= r <= 2 - (2 # Pos.of_nat n))%Q.
Proof.
  intros mn lo hi col r Hlt H. destruct (rapid_bounds mn lo hi col r Hlt H) as (n & H1 & H2 & H3 & H4).
  exists n. split; auto. split; auto. split; auto. intros s g Hs Hg.
  apply time_ordered_zsort in Hs. subst s. rewrite H3. f_equal.
  destruct Hg as [Hl Hn]. symmetry. apply nth_ext with (d := 0) (d' := 0); [rewrite diff_length; lia|].
  intros i Hi. destruct (nth_error (zsort col) i) as [a|] eqn:Ea; [|apply nth_error_None in Ea; lia].
  destruct (nth_error (zsort col) (S i)) as [b|] eqn:Eb; [|apply nth_error_None in Eb; lia].
  rewrite (nth_error_nth _ _ 0 (Hn i a b Ea Eb)). symmetry. apply nth_error_nth. rewrite nth_error_diff, Ea, Eb. auto.
Qed.
Print Assumptions C66_rapid_revisit_partial.
Example C66_case : exists r, rapid_revisit_uniformity_run 2 0 10 [0; 2; 2; 30] = Ok (Some r) /\ (r == 3 # 5)%Q.
Proof. eexists. split; [reflexivity|reflexivity]. Qed.

(** C64: GeneralUniformityMetric divides by max_value instead of the range: evenly spaced values from 10 to 20
    do not give 0 *)
Theorem C64_general_uniformity_refuted : exists col r,
  evenly_spaced 10 10 col /\ general_uniformity_run None None col = Ok (Some r) /\ ~ (r == 0)%Q.
Proof.
  exists [10; 20]. eexists. split; [|split; [reflexivity|]].
  - intros [|[|k]] x Hx; inversion Hx; try reflexivity. destruct k; discriminate.
  - intros H. discriminate H.
Qed.
Print Assumptions C64_general_uniformity_refuted.
(** ... and it can be any amount above 1 (values below zero) *)
Theorem C64_general_uniformity_range_refuted : exists col r,
  general_uniformity_run None None col = Ok (Some r) /\ (1 < r)%Q.
Proof. exists [-4; -1]. eexists. split; [reflexivity|reflexivity]. Qed.
Print Assumptions C64_general_uniformity_range_refuted.
(** true when min_value is 0: in [0,1], and 0 exactly for values evenly spaced from 0 to max_value *)
Theorem C64_general_uniformity_partial : forall mx col s r,
  0 < mx -> (2 <= length col)%nat -> (forall x, In x col -> 0 <= x <= mx) ->
  time_ordered col s -> general_uniformity_run (Some 0) (Some mx) col = Ok (Some r) ->
  (0 <= r <= 1)%Q /\
  ((r == 0)%Q <-> forall k x, nth_error s k = Some x ->
     (inject_Z x == inject_Z mx * (Z.of_nat k # Pos.of_nat (length col - 1)))%Q).
Proof. exact general_uniformity_ok. Qed.
Print Assumptions C64_general_uniformity_partial.
Example C64_case : exists r, general_uniformity_run (Some 0) (Some 30) [30; 0; 20; 10] = Ok (Some r) /\ (r == 0)%Q.
Proof. eexists. split; [reflexivity|reflexivity]. Qed.

(** C25: with a value equal to the cutoff the fractions sum to more than 1 *)
Theorem C25_frac_complement_refuted : exists cutoff col a b n,
  frac_above_run cutoff col = (a, n) /\ frac_below_run cutoff col = (b, n) /\ (a + b <> n)%nat.
Proof. exists 5, [4; 5; 6], 2%nat, 2%nat, 3%nat. split; [reflexivity|]. split; [reflexivity|]. discriminate. Qed.
Print Assumptions C25_frac_complement_refuted.
(** the excess is exactly the number of ties; so they are complementary iff no value equals the cutoff *)
Theorem C25_frac_complement_partial : forall cutoff col a b n m,
  frac_above_run cutoff col = (a, n) -> frac_below_run cutoff col = (b, m) ->
  n = length col /\ m = length col /\ (a + b = n + countb (fun x => (x =? cutoff)%Z) col)%nat /\
  ((a + b)%nat = n <-> ~ In cutoff col).
Proof.
  intros cutoff col a b n m Ha Hb. unfold frac_above_run in Ha. unfold frac_below_run in Hb. inversion Ha; inversion Hb; subst.
  change (length (filter (fun x : Z => cutoff <=? x) col)) with (countb (fun x : Z => cutoff <=? x) col).
  change (length (filter (fun x : Z => x <=? cutoff) col)) with (countb (fun x : Z => x <=? cutoff) col).
  assert (countb (fun x => (cutoff <=? x)%Z) col + countb (fun x => (x <=? cutoff)%Z) col =
          length col + countb (fun x => (x =? cutoff)%Z) col)%nat as E.
  { clear. induction col as [|x t IH]; [reflexivity|]. rewrite !countb_cons. simpl length.
    destruct (Z.leb_spec cutoff x), (Z.leb_spec x cutoff), (Z.eqb_spec x cutoff); lia. }
  split; auto. split; auto. split; auto. rewrite E. split.
  - intros H Hin. assert (0 < countb (fun x => (x =? cutoff)%Z) col)%nat; [|lia].
    apply countb_pos. exists cutoff. split; auto. apply Z.eqb_refl.
  - intros H. rewrite (countb_none _ col); [lia|]. intros x Hx. destruct (Z.eqb_spec x cutoff); auto. subst. tauto.
Qed.
Print Assumptions C25_frac_complement_partial.
Example C25_case : frac_above_run 5 [4; 7; 6] = (2, 3)%nat /\ frac_below_run 5 [4; 7; 6] = (1, 3)%nat.
Proof. split; reflexivity. Qed.

(** C26 *)
Theorem C26_fonv : forall npix col, (1 <= npix)%nat -> (npix <= length col)%nat -> exists m2 mn top,
  fonv_run npix col = Ok (Some (m2, mn)) /\ best_pixels npix col top /\
  twice_median top m2 /\ In mn top /\ (forall x, In x top -> mn <= x).
Proof. exact fonv_ok. Qed.
Print Assumptions C26_fonv.
Example C26_fonv_case : fonv_run 3 [5; 9; 1; 7; 9] = Ok (Some (18, 7)).
Proof. reflexivity. Qed.
Theorem C26_fonv_too_few : forall npix col, (length col < npix)%nat -> fonv_run npix col = Ok None.
Proof. intros npix col H. unfold fonv_run. apply Nat.ltb_lt in H. rewrite H. reflexivity. Qed.
Print Assumptions C26_fonv_too_few.
(** the number of pixels covers the area and is the smallest such number *)
Theorem C26_npix : forall asky scale, (0 <= asky)%Q -> (0 < scale)%Q ->
  (asky <= inject_Z (Z.of_nat (npix_asky asky scale)) * scale)%Q /\
  (inject_Z (Z.of_nat (npix_asky asky scale)) * scale < asky + scale)%Q.
Proof. exact npix_covers. Qed.
Print Assumptions C26_npix.
(** fOArea counts the pixels with at least nvisit visits *)
Theorem C26_foarea : forall nvisit col, foarea_run nvisit col =
  match countb (fun x => nvisit <=? x) col with O => None | n => Some n end.
Proof. exact foarea_count. Qed.
Print Assumptions C26_foarea.
(** the two agree: at least npix pixels have >= v visits exactly when the minimum over the best npix is >= v *)
Theorem C26_fonv_foarea : forall npix col m2 mn v, (1 <= npix)%nat -> fonv_run npix col = Ok (Some (m2, mn)) ->
  (v <= mn <-> exists c, foarea_run v col = Some c /\ (npix <= c)%nat).
Proof.
  intros npix col m2 mn v H1 H.
  assert (npix <= length col)%nat as H2.
  { unfold fonv_run in H. destruct (Nat.ltb_spec (length col) npix); [discriminate|]. auto. }
  destruct (fonv_ok npix col H1 H2) as (m2' & mn' & top & E & Hb & _ & Hin & Hle).
  rewrite E in H. inversion H; subst. rewrite (best_count npix col top mn v Hb Hin Hle), foarea_count.
  destruct (countb _ col) eqn:Ec.
  - split; [lia|]. intros (c & X & _). discriminate.
  - split; [intros Hc; eauto|]. intros (c & X & Hc). inversion X; subst. auto.
Qed.
Print Assumptions C26_fonv_foarea.
Example C26_fonv_foarea_case : fonv_run 3 [5; 9; 1; 7; 9] = Ok (Some (18, 7)) /\ foarea_run 7 [5; 9; 1; 7; 9] = Some 3%nat.
Proof. split; reflexivity. Qed.
(** asking for zero area is answered for the whole map ([l[-0:]]), not for zero pixels *)
Theorem C26_zero_area_refuted : exists col m2 mn, fonv_run 0 col = Ok (Some (m2, mn)) /\
  fonv_run 1 col <> Ok (Some (m2, mn)).
Proof. exists [1; 5]. do 2 eexists. split; [reflexivity|]. discriminate. Qed.
Print Assumptions C26_zero_area_refuted.

(** C27 *)
Theorem C27_count_unique : forall col, col <> [] ->
  (1 <= count_unique_run col <= count_run col)%nat /\
  unique_ratio_run col = (count_unique_run col, count_run col) /\
  (count_unique_run col = count_run col <-> NoDup col) /\
  (forall u, NoDup u -> (forall x, In x u <-> In x col) -> count_unique_run col = length u).
Proof.
  intros col Hne. unfold count_unique_run, count_run. split; [|split; [reflexivity|split; [apply unique_full|]]].
  - split; [|apply unique_length_le]. destruct col as [|a t]; [congruence|].
    assert (In a (np_unique (a :: t))) as H by (apply np_unique_In; left; auto).
    destruct (np_unique (a :: t)); [destruct H|simpl; lia].
  - intros u Hu Hin. apply Permutation_length, NoDup_Permutation; auto; [apply np_unique_NoDup|].
    intros x. rewrite np_unique_In. symmetry. apply Hin.
Qed.
Print Assumptions C27_count_unique.
Example C27_case : count_unique_run [3; 1; 3; 2] = 3%nat /\ unique_ratio_run [3; 1; 3; 2] = (3, 4)%nat.
Proof. split; reflexivity. Qed.
Theorem C27_subset_total : forall col u, NoDup u -> (forall x, In x col -> In x u) ->
  fold_right Nat.add 0%nat (map (fun x => count_subset_run x col) u) = count_run col.
Proof. intros col u. exact (subset_sum u col). Qed.
Print Assumptions C27_subset_total.
Example C27_subset_case : map (fun x => count_subset_run x [3; 1; 3; 2]) [1; 2; 3; 9] = [1; 1; 2; 0]%nat.
Proof. reflexivity. Qed.

(** C65: with both thresholds CountBeyondThreshold raises for every column with at least two values *)
Theorem C65_count_beyond_refuted : forall lo up x y t, count_beyond_run (Some lo) (Some up) (x :: y :: t) = Err ValueError.
Proof. reflexivity. Qed.
Print Assumptions C65_count_beyond_refuted.
(** with at most one threshold, or for a single value, the count is right *)
Theorem C65_count_beyond_partial : forall lower upper col, (lower = None \/ upper = None \/ length col = 1%nat) ->
  count_beyond_run lower upper col =
  Ok (countb (fun x => match lower with Some lo => lo <? x | None => true end &&
                       match upper with Some up => x <? up | None => true end) col).
Proof.
  intros lower upper col H. unfold count_beyond_run.
  destruct lower as [lo|], upper as [up|].
  - destruct H as [H|[H|H]]; try discriminate. destruct col as [|x [|y t]]; try discriminate.
    rewrite countb_cons. destruct ((lo <? x) && (x <? up)); reflexivity.
  - f_equal. apply countb_ext. intros x _. rewrite andb_true_r. auto.
  - f_equal. 
  - f_equal. symmetry. apply countb_all. auto.
Qed.
Print Assumptions C65_count_beyond_partial.
Example C65_case : count_beyond_run (Some 3) None [1; 4; 3; 9] = Ok 2%nat.
Proof. reflexivity. Qed.

(** C67: FullRangeAngleMetric is the length of the smallest arc that contains all angles (which must span
    less than a full turn), and does not change when all angles are rotated *)
Theorem C67_smallest_arc : forall turn angles, 0 < turn -> angles <> [] ->
  (forall x y, In x angles -> In y angles -> x - y < turn) ->
  exists r, full_range_angle_run turn angles = Ok r /\
    (exists a, In a angles /\ on_arc turn a r angles) /\
    (forall a r', on_arc turn a r' angles -> r <= r').
Proof.
  intros turn angles Ht Hne Hs. destruct (full_range_value turn angles Ht Hne Hs) as (r & a & H1 & H2 & H3 & _).
  exists r. split; auto. split; eauto. intros a' r' H. eapply full_range_minimal; eauto.
Qed.
Print Assumptions C67_smallest_arc.
Example C67_case : full_range_angle_run 360 [350; 10; 20; 5] = Ok 30.
Proof. reflexivity. Qed.
Theorem C67_rotation_invariant : forall turn angles c r r', 0 < turn -> angles <> [] ->
  (forall x, In x angles -> 0 <= x < turn) ->
  full_range_angle_run turn angles = Ok r ->
  full_range_angle_run turn (map (fun x => (x + c) mod turn) angles) = Ok r' -> r' = r.
Proof. exact full_range_rotation. Qed.
Print Assumptions C67_rotation_invariant.
(** angles that span more than a full turn: the arc is not the smallest *)
Theorem C67_beyond_turn_refuted : exists turn angles r a r', 0 < turn /\
  full_range_angle_run turn angles = Ok r /\ on_arc turn a r' angles /\ r' < r.
Proof.
  exists 360, [0; 10; 370], 350, 0, 10. split; [lia|]. split; [reflexivity|]. split; [|lia].
  intros x Hx. simpl in Hx. destruct Hx as [<-|[<-|[<-|[]]]]; vm_compute; discriminate.
Qed.
Print Assumptions C67_beyond_turn_refuted.
