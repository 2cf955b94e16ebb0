(** C266-C269: area summaries, year coverage, cumulative counts. *)
From Coq Require Import Reals ZArith Lra Lia List Permutation Sorted.
From Verif Require Import Base Small_Model Small_Spec Small_Proofs.
Open Scope R_scope.

(** ** C266 AreaSummaryMetric *)
Definition as_good (larger : bool) (v x : R) : Prop := ~ better larger v x.

(** The result is a pixel value; if enough valid pixels exist, at least the asked
    area is as good as it; strictly less than the asked area is better. *)
Theorem C266_area nside_ok area dec data v :
  0 < area -> area_summary nside_ok area dec data = Ok v ->
  In (Some v) data /\
  exists good best,
    CountIs (fun o => exists x, o = Some x /\ ~ better dec v x) data good
    /\ CountIs (fun o => exists x, o = Some x /\ better dec x v) data best
    /\ (forall valid, CountIs (fun o => o <> None) data valid ->
          (area <= sky / INR (length data) * INR valid -> area <= sky / INR (length data) * INR good)
          /\ (sky / INR (length data) * INR valid < area -> good = valid))
    /\ sky / INR (length data) * INR best < area.
Proof.
  intros Ha H. unfold area_summary in H. destruct (nside_ok (length data)); [|discriminate].
  cbv zeta in H. set (n := Z.to_nat (ceil (area / pix_area (length data)))) in *.
  assert (H' : (if dec then np_min else np_max) (firstn n (if dec then rev (rsort (finite data)) else rsort (finite data))) = Ok v)
    by exact H.
  apply best_area in H' as (I & G & B). apply in_finite in I. split; [exact I|].
  assert (L : (0 < length data)%nat) by (destruct data; [destruct I|cbn; lia]).
  pose proof (pix_area_pos _ L) as PA.
  assert (AP : 0 < area / pix_area (length data)) by now apply Rdiv_lt_0_compat.
  pose proof (needed_bounds _ AP) as [N1 N2]. fold n in N1, N2.
  exists (length (filter (at_least dec v) (finite data))), (length (filter (strictly dec v) (finite data))).
  split; [|split; [|split]].
  - rewrite <- finite_filter. apply count_filter. intros [x|] _.
    + unfold at_least, better. destruct dec; rewrite Rle_b; split.
      * intros Q. exists x. split; [reflexivity|lra].
      * intros (y & E & Q). injection E as <-. lra.
      * intros Q. exists x. split; [reflexivity|lra].
      * intros (y & E & Q). injection E as <-. lra.
    + split; [discriminate|]. intros (x & E & _). discriminate.
  - rewrite <- finite_filter. apply count_filter. intros [x|] _.
    + unfold strictly, better. destruct dec; rewrite Rlt_b; split.
      * intros Q. exists x. split; [reflexivity|lra].
      * intros (y & E & Q). injection E as <-. lra.
      * intros Q. exists x. split; [reflexivity|lra].
      * intros (y & E & Q). injection E as <-. lra.
    + split; [discriminate|]. intros (x & E & _). discriminate.
  - intros valid V.
    assert (E : valid = length (finite data)).
    { eapply count_unique; [exact V|].
      replace (length (finite data)) with (length (filter (fun _ => true) (finite data))).
      - rewrite <- finite_filter. apply count_filter. intros [x|] _; split; congruence.
      - generalize (finite data). intro l0. induction l0; cbn; congruence. }
    rewrite <- pix_area_sky. split.
    + intro Q. rewrite E in Q.
      assert (K : (n <= length (finite data))%nat).
      { apply INR_le. assert (area / pix_area (length data) <= INR (length (finite data))).
        { apply Rmult_le_reg_l with (pix_area (length data)); [exact PA|].
          replace (pix_area (length data) * (area / pix_area (length data))) with area by (field; lra). exact Q. }
        assert (M : INR n < INR (S (length (finite data)))) by (rewrite S_INR; lra).
        apply INR_lt in M. apply le_INR. lia. }
      rewrite Nat.min_l in G by exact K. apply le_INR in G.
      replace area with (pix_area (length data) * (area / pix_area (length data))) by (field; lra).
      apply Rmult_le_compat_l; lra.
    + intro Q. rewrite E in Q |- *.
      assert (INR (length (finite data)) < area / pix_area (length data)).
      { apply Rmult_lt_reg_l with (pix_area (length data)); [exact PA|].
        replace (pix_area (length data) * (area / pix_area (length data))) with area by (field; lra). exact Q. }
      assert (M : INR (length (finite data)) < INR n) by lra. apply INR_lt in M.
      rewrite Nat.min_r in G by lia. pose proof (filter_length_le (at_least dec v) (finite data)). lia.
  - rewrite <- pix_area_sky.
    assert (INR (length (filter (strictly dec v) (finite data))) < area / pix_area (length data)).
    { assert (M : INR (S (length (filter (strictly dec v) (finite data)))) <= INR n) by (apply le_INR; lia).
      rewrite S_INR in M. lra. }
    replace area with (pix_area (length data) * (area / pix_area (length data))) by (field; lra).
    apply Rmult_lt_compat_l; lra.
Qed.
Print Assumptions C266_area.

(** A value is returned exactly when the map size is valid and a pixel is finite. *)
Theorem C266_defined nside_ok area dec data :
  0 < area -> data <> [] ->
  ((exists v, area_summary nside_ok area dec data = Ok v) <->
   nside_ok (length data) = true /\ exists x, In (Some x) data).
Proof.
  intros Ha Hd. split.
  - intros [v H]. split.
    + unfold area_summary in H. destruct (nside_ok (length data)); [reflexivity|discriminate].
    + exists v. now apply (C266_area nside_ok area dec data v Ha H).
  - intros [E [x I]]. unfold area_summary. rewrite E. cbv zeta.
    assert (PA : 0 < pix_area (length data)) by (apply pix_area_pos; destruct data; [easy|cbn; lia]).
    assert (AP : 0 < area / pix_area (length data)) by now apply Rdiv_lt_0_compat.
    pose proof (needed_bounds _ AP) as [N1 N2].
    set (n := Z.to_nat _) in *.
    assert (NP : (0 < n)%nat) by (apply INR_lt; cbn; lra).
    apply in_finite in I.
    assert (NE : firstn n (if dec then rev (rsort (finite data)) else rsort (finite data)) <> []).
    { assert (Q : (if dec then rev (rsort (finite data)) else rsort (finite data)) <> []).
      { intro Z. assert (P : Permutation (finite data) []).
        { rewrite <- Z. destruct dec; [rewrite <- Permutation_rev|]; now rewrite rsort_perm. }
        apply Permutation_sym, Permutation_nil in P. rewrite P in I. destruct I. }
      destruct (if dec then _ else _); [easy|]. destruct n; [lia|]. discriminate. }
    destruct dec; [now apply np_min_some|now apply np_max_some].
Qed.
Print Assumptions C266_defined.

(** "the best [area] square degrees" is not guaranteed: with fewer valid pixels the
    worst valid value is returned although less area than asked reaches it. *)
Theorem C266_short_refuted :
  exists data v, area_summary (fun n => Nat.eqb n 12) 18000 true data = Ok v
    /\ exists good, CountIs (fun o => exists x, o = Some x /\ v <= x) data good
                 /\ sky / INR (length data) * INR good < 18000.
Proof.
  exists (Some 1 :: repeat None 11), 1.
  assert (HI : sky <= 12 * 3600).
  { unfold sky. pose proof PI_4. assert (3 < PI) by (pose proof PI2_3_2; unfold PI2 in *; lra).
    replace (4 * PI * (180 / PI) * (180 / PI)) with (129600 / PI) by (field; lra).
    apply Rmult_le_reg_r with PI; [lra|]. replace (129600 / PI * PI) with 129600 by (field; lra). lra. }
  split.
  - unfold area_summary. cbn [Nat.eqb length repeat]. cbv zeta.
    assert (F : finite (Some 1 :: repeat None 11) = [1]) by reflexivity.
    change (Some 1 :: repeat None 11) with (Some 1 :: repeat (@None R) 11) in F.
    cbn [repeat] in F. rewrite F. cbn [rsort fold_right rinsert rev app].
    assert (PA : 0 < pix_area 12) by (apply pix_area_pos; lia).
    assert (AP : 0 < 18000 / pix_area 12) by (apply Rdiv_lt_0_compat; lra).
    pose proof (needed_bounds _ AP) as [N1 N2]. set (n := Z.to_nat _) in *.
    assert (NP : (0 < n)%nat) by (apply INR_lt; cbn; lra).
    destruct n; [lia|]. cbn [firstn]. destruct n; reflexivity.
  - exists 1%nat. split.
    + cbn [repeat]. apply count_yes; [exists 1; split; [reflexivity|lra]|].
      repeat (apply count_no; [intros (x & E & _); discriminate|]). constructor.
    + assert (E : INR (length (Some 1 :: repeat (@None R) 11)) = 12) by (cbn; lra).
      rewrite E. cbn [INR]. lra.
Qed.
Print Assumptions C266_short_refuted.

Example C266_case : 0 < 18000 /\ [Some 1; None] <> ([] : list (option R)) /\ exists x, In (Some x) [Some 1; @None R].
Proof. split; [lra|]. split; [discriminate|]. exists 1. now left. Qed.

(** ** C267 AreaThresholdMetric *)
(** With at least one bound: the area of the valid pixels strictly inside. *)
Theorem C267_area nside_ok upper lower data :
  nside_ok (length data) = true -> upper <> None \/ lower <> None ->
  exists n, CountIs (meets upper lower) data n
         /\ area_threshold nside_ok upper lower data = Ok (sky / INR (length data) * INR n).
Proof.
  intros E H. unfold area_threshold. rewrite E. cbv zeta. rewrite <- pix_area_sky.
  destruct upper as [hi|], lower as [lo|].
  - eexists. split; [|reflexivity]. apply count_filter. intros [x|] _; cbn.
    + rewrite andb_true_iff, !Rlt_b. split.
      * intros [A B]. exists x. repeat split; congruence.
      * intros (y & Q & A & B). injection Q as <-. split; auto.
    + split; [discriminate|]. intros (y & Q & _); discriminate.
  - eexists. split; [|reflexivity]. apply count_filter. intros [x|] _; cbn.
    + rewrite Rlt_b. split.
      * intros A. exists x. repeat split; congruence.
      * intros (y & Q & A & B). injection Q as <-. auto.
    + split; [discriminate|]. intros (y & Q & _); discriminate.
  - eexists. split; [|reflexivity]. apply count_filter. intros [x|] _; cbn.
    + rewrite Rlt_b. split.
      * intros A. exists x. repeat split; congruence.
      * intros (y & Q & A & B). injection Q as <-. auto.
    + split; [discriminate|]. intros (y & Q & _); discriminate.
  - destruct H as [H|H]; now elim H.
Qed.
Print Assumptions C267_area.

(** Tightening a bound never increases the area. *)
Theorem C267_monotone nside_ok hi lo hi' lo' data a a' :
  lo <= lo' -> hi' <= hi ->
  area_threshold nside_ok (Some hi) (Some lo) data = Ok a ->
  area_threshold nside_ok (Some hi') (Some lo') data = Ok a' -> a' <= a.
Proof.
  intros L U H H'.
  assert (E : nside_ok (length data) = true) by (unfold area_threshold in H; destruct (nside_ok (length data)); [reflexivity|discriminate]).
  destruct (C267_area nside_ok (Some hi) (Some lo) data E) as (n & C & Q); [left; discriminate|].
  destruct (C267_area nside_ok (Some hi') (Some lo') data E) as (n' & C' & Q'); [left; discriminate|].
  assert (K : (n' <= n)%nat).
  { eapply count_mono; [|exact C'|exact C]. intros o _ (x & -> & A & B). exists x. repeat split.
    - intros h Eh; injection Eh as <-. specialize (A hi' eq_refl). lra.
    - intros h Eh; injection Eh as <-. specialize (B lo' eq_refl). lra. }
  assert (a = sky / INR (length data) * INR n) by congruence.
  assert (a' = sky / INR (length data) * INR n') by congruence. subst.
  apply Rmult_le_compat_l; [|now apply le_INR].
  destruct (length data) as [|m] eqn:Z.
  - cbn. unfold Rdiv. rewrite Rinv_0. lra.
  - apply Rlt_le, Rdiv_lt_0_compat; [apply sky_pos|apply lt_0_INR; lia].
Qed.
Print Assumptions C267_monotone.

(** Without bounds every pixel counts, also the ones without a value: a lower bound
    that every value exceeds then shrinks the area. *)
Theorem C267_all_refuted :
  exists data lo a b,
    (forall x, In (Some x) data -> lo < x)
    /\ area_threshold (fun _ => true) None None data = Ok a
    /\ area_threshold (fun _ => true) None (Some lo) data = Ok b
    /\ b < a.
Proof.
  exists [Some 1; None], 0. do 2 eexists. split; [|split; [reflexivity|split; [reflexivity|]]].
  - intros x [E|[E|[]]]; [injection E as <-; lra|discriminate].
  - cbn [length]. unfold filter, above. destruct (Rlt_dec 0 1); [|lra]. cbn [length].
    apply Rmult_lt_compat_l; [apply pix_area_pos; lia|cbn; lra].
Qed.
Print Assumptions C267_all_refuted.

(** The unbounded area is the whole sky whatever the values. *)
Theorem C267_whole nside_ok data :
  data <> [] -> nside_ok (length data) = true -> area_threshold nside_ok None None data = Ok sky.
Proof.
  intros Hd E. unfold area_threshold. rewrite E. cbv zeta. rewrite pix_area_sky. f_equal.
  field. apply not_0_INR. destruct data; [easy|discriminate].
Qed.
Print Assumptions C267_whole.

Example C267_case : (fun _ : nat => true) (length [Some 1; None]) = true /\ (Some 2 <> @None R \/ Some 0 <> @None R).
Proof. split; [reflexivity|]. left; discriminate. Qed.

(** ** C268 YearCoverageMetric *)
Lemma hist_nth edges data : length (hist edges data) = (length edges - 1)%nat.
Proof. induction edges as [|a [|b t] IH]; cbn in *; lia. Qed.

(** For any edges: the number of bins holding a night, each bin closed on the left,
    open on the right, the last one closed. *)
Theorem C268_bins edges nights :
  CountIs (fun i => exists n, In n nights
             /\ (nth i edges 0 <= 4 * n)%Z
             /\ ((4 * n < nth (S i) edges 0)%Z \/ (S (S i) = length edges /\ 4 * n = nth (S i) edges 0)%Z))
          (seq 0 (length edges - 1)) (year_coverage edges nights).
Proof.
  unfold year_coverage.
  set (data := map (fun n => (4 * n)%Z) nights).
  assert (G : forall e k off, (forall i, nth (off + i) edges 0%Z = nth i e 0%Z) -> length edges = (off + length e)%nat -> k = off ->
    CountIs (fun i => exists n, In n nights
             /\ (nth i edges 0 <= 4 * n)%Z
             /\ ((4 * n < nth (S i) edges 0)%Z \/ (S (S i) = length edges /\ 4 * n = nth (S i) edges 0)%Z))
          (seq k (length e - 1)) (length (filter (fun h => Nat.ltb 0 h) (hist e data)))).
  { induction e as [|a e IH]; intros k off N L ->; [constructor|].
    destruct e as [|b t]; [constructor|].
    replace (length (a :: b :: t) - 1)%nat with (S (length (b :: t) - 1)) by (cbn; lia).
    cbn [seq].
    assert (NA : nth off edges 0%Z = a) by (rewrite <- (Nat.add_0_r off), N; reflexivity).
    assert (NB : nth (S off) edges 0%Z = b) by (replace (S off) with (off + 1)%nat by lia; rewrite N; reflexivity).
    assert (T : CountIs (fun i => exists n, In n nights
             /\ (nth i edges 0 <= 4 * n)%Z
             /\ ((4 * n < nth (S i) edges 0)%Z \/ (S (S i) = length edges /\ 4 * n = nth (S i) edges 0)%Z))
          (seq (S off) (length (b :: t) - 1)) (length (filter (fun h => Nat.ltb 0 h) (hist (b :: t) data)))).
    { apply (IH (S off) (S off)); [|cbn in *; lia|reflexivity].
      intro i. replace (S off + i)%nat with (off + S i)%nat by lia. rewrite N. reflexivity. }
    change (hist (a :: b :: t) data) with
      (length (filter (match t with [] => fun x => (a <=? x)%Z && (x <=? b)%Z | _ => fun x => (a <=? x)%Z && (x <? b)%Z end) data) :: hist (b :: t) data).
    set (h := length (filter _ data)). cbn [filter].
    assert (HH : Nat.ltb 0 h = true <-> exists n, In n nights
             /\ (nth off edges 0 <= 4 * n)%Z
             /\ ((4 * n < nth (S off) edges 0)%Z \/ (S (S off) = length edges /\ 4 * n = nth (S off) edges 0)%Z)).
    { rewrite Nat.ltb_lt, NA, NB. unfold h, data. split.
      - intro Q. match type of Q with (_ < length ?f)%nat => destruct f as [|z l] eqn:F end; [cbn in Q; lia|].
        assert (Iz : In z (z :: l)) by now left. rewrite <- F in Iz. apply filter_In in Iz as [I B].
        apply in_map_iff in I as (n & <- & I). exists n. split; [exact I|].
        destruct t; apply andb_true_iff in B as [B1 B2]; apply Z.leb_le in B1;
          [apply Z.leb_le in B2|apply Z.ltb_lt in B2]; split; auto.
        destruct (Z.eq_dec (4 * n) b); [right; split; [cbn in L; lia|assumption]|left; lia].
      - intros (n & I & A & B).
        assert (J : In (4 * n)%Z (filter (match t with [] => fun x => (a <=? x)%Z && (x <=? b)%Z | _ => fun x => (a <=? x)%Z && (x <? b)%Z end) (map (fun n => (4 * n)%Z) nights))).
        { apply filter_In. split; [apply in_map_iff; eauto|]. destruct t.
          - apply andb_true_iff. split; apply Z.leb_le; lia.
          - apply andb_true_iff. split; [apply Z.leb_le; lia|apply Z.ltb_lt]. destruct B as [B|[B _]]; [exact B|cbn in L; lia]. }
        match goal with |- (_ < length ?f)%nat => destruct f end; [destruct J|cbn; lia]. }
    destruct (Nat.ltb 0 h) eqn:Hh.
    - cbn [length]. apply count_yes; [now apply HH|exact T].
    - apply count_no; [|exact T]. intro Q. apply HH in Q. discriminate. }
  apply (G edges 0%nat 0%nat); auto.
Qed.
Print Assumptions C268_bins.

(** Default bins: the number of survey years in which the point is visited. *)
Theorem C268_years nights :
  CountIs (fun y => exists n, In n nights /\ in_year y n) (seq 0 10) (year_coverage default_year_edges nights).
Proof.
  eapply count_ext; [|exact (C268_bins default_year_edges nights)].
  intros y Hy. apply in_seq in Hy.
  assert (L : length default_year_edges = 11%nat) by reflexivity. rewrite L.
  assert (N : forall i, (i <= 10)%nat -> nth i default_year_edges 0%Z = (1461 * Z.of_nat i - 2)%Z).
  { intros i Hi. unfold default_year_edges.
    rewrite (nth_indep _ _ ((fun k => 1461 * Z.of_nat k - 2)%Z 0%nat)) by (rewrite map_length, seq_length; lia).
    rewrite (map_nth (fun k => 1461 * Z.of_nat k - 2)%Z), seq_nth by lia. f_equal. }
  rewrite !N by lia. unfold in_year. split.
  - intros (n & I & A & B). exists n. split; [exact I|].
    apply IZR_le in A. rewrite minus_IZR, !mult_IZR, <- INR_IZR_INZ in A.
    destruct B as [B|[E B]].
    + apply IZR_lt in B. rewrite minus_IZR, !mult_IZR, <- INR_IZR_INZ, S_INR in B. left. lra.
    + right. split; [lia|]. lia.
  - intros (n & I & [[A B]|[E B]]); exists n; (split; [exact I|]).
    + split; [apply le_IZR|left; apply lt_IZR];
        rewrite minus_IZR, !mult_IZR, <- INR_IZR_INZ, ?S_INR; lra.
    + subst y n. split; [lia|]. right. split; [reflexivity|lia].
Qed.
Print Assumptions C268_years.

(** Ten exactly when every year is visited, never more. *)
Lemma count_all {A} (P : A -> Prop) l n : CountIs P l n -> (n = length l <-> forall x, In x l -> P x).
Proof.
  induction 1 as [|x l n H C IH|x l n H C IH]; cbn.
  - split; [easy|reflexivity].
  - split.
    + intros E y [<-|Hy]; [exact H|apply IH; [lia|exact Hy]].
    + intro Q. f_equal. apply IH. auto.
  - split.
    + intro E. apply count_le in C. lia.
    + intro Q. elim H. auto.
Qed.
Theorem C268_every nights :
  (year_coverage default_year_edges nights <= 10)%nat
  /\ (year_coverage default_year_edges nights = 10%nat <-> forall y, (y < 10)%nat -> exists n, In n nights /\ in_year y n).
Proof.
  pose proof (C268_years nights) as C. split.
  - apply count_le in C. exact C.
  - apply count_all in C. change 10%nat with (length (seq 0 10)) at 1. rewrite C. split.
    + intros H y Hy. apply H, in_seq. lia.
    + intros H y Hy. apply in_seq in Hy. apply H. lia.
Qed.
Print Assumptions C268_every.

(** A given metric name has no effect. *)
Theorem C268_name_refuted : exists given, year_coverage_name (Some given) "night" <> given
  /\ forall other, year_coverage_name other "night" = year_coverage_name (Some given) "night".
Proof. exists "Every year"%string. split; [discriminate|reflexivity]. Qed.
Print Assumptions C268_name_refuted.

Example C268_case : year_coverage default_year_edges [0; 364; 365; 3652]%Z = 3%nat
  /\ in_year 0 364 /\ in_year 1 365 /\ in_year 9 3652.
Proof.
  split; [reflexivity|]. unfold in_year. cbn [INR].
  split; [left; lra|]. split; [left; lra|]. right. auto.
Qed.
