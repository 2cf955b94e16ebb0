(** Properties of the moving object summary metrics, continued. *)
From Verif Require Import Base MoSum_Model MoSum_Spec MoSum_Proofs MoSum_Proofs2 MoSum_Proofs3 MoSum_Proofs4 MoSum_Props.
From Coq Require Import QArith Qabs Qround Qfield Lqa Lia.
Open Scope Q_scope.

(** * C145 completeness of a population with one H per object *)
(** meant: bin k of the result is the fraction of the objects with H in the bin that reach the threshold.  The code bins the
    values of the metric instead of the H values *)
Theorem C145_by_magnitude_refuted : ~ (forall pow10 p rows h c e k q, c_cumulative p = false -> (1 < length h)%nat -> length rows = length h ->
  mo_completeness pow10 p rows 1 h = Ok (c, e) -> (S k < length e)%nat ->
  fraction (fun o => match nth 0 (fst o) None with Some v => c_threshold p <= v | None => False end)
    (filter (fun o => Qle_bool (at_ e k) (snd o) && negb (Qle_bool (at_ e (S k)) (snd o))) (combine rows h)) q ->
  filter (fun o => Qle_bool (at_ e k) (snd o) && negb (Qle_bool (at_ e (S k)) (snd o))) (combine rows h) <> [] -> at_ c k == q).
Proof.
  intros C. specialize (C ten {| c_threshold := 1; c_nbins := 4; c_min_hrange := 1; c_cumulative := false; c_hindex := 33 # 100 |} [[Some 5]; [Some 0]] [20; 24] _ _ O 1 eq_refl ltac:(cbn; lia) eq_refl eq_refl ltac:(cbn; lia)).
  vm_compute in C. assert (0 == 1) as H; [|discriminate H]. apply C; [|discriminate]. exists 1%nat. split; [|reflexivity]. repeat constructor. discriminate.
Qed.
Print Assumptions C145_by_magnitude_refuted.
(** what it does compute: fractions, between 0 and 1, of the metric values that fall in the bin *)
Lemma binned_fraction t edges col k : (S k < length edges)%nat ->
  let inb := filter (in_bin_q edges k) col in
  (inb <> [] -> fraction (fun v => t <= v) inb (at_ (completeness_binned t edges col) k)) /\ (inb = [] -> at_ (completeness_binned t edges col) k == 0).
Proof.
  intros H inb. assert (at_ (completeness_binned t edges col) k = (let n := count_q (in_bin_q edges k) col in if Qeq_bool n 0 then 0 else count_q (in_bin_q edges k) (filter (fun v => Qle_bool t v) col) / n)) as E.
  { unfold at_, completeness_binned, histogram. set (a := fun k => count_q (in_bin_q edges k) (filter (fun v => Qle_bool t v) col)). set (b := fun k => count_q (in_bin_q edges k) col).
    set (g := fun p : Q * Q => if Qeq_bool (snd p) 0 then 0 else fst p / snd p). rewrite (nth_indep _ 0 (g (0, 0))) by (rewrite map_length, combine_length, !map_length, seq_length; lia).
    rewrite map_nth, combine_nth by (rewrite !map_length; reflexivity). rewrite !map_seq_nth by lia. reflexivity. }
  rewrite E. cbv zeta. assert (count_q (in_bin_q edges k) col = inject_Z (Z.of_nat (length inb))) as En by reflexivity. rewrite En. split.
  - intros N. destruct (qeq_spec (inject_Z (Z.of_nat (length inb))) 0) as [[_ C]|[-> _]]; [pose proof (len_pos inb N); lra|].
    replace (count_q (in_bin_q edges k) (filter (fun v => Qle_bool t v) col)) with (count_q (fun v => Qle_bool t v) inb).
    + apply fraction_count; [exact N|]. intros v. apply qle_true.
    + unfold count_q, inb. do 2 f_equal. clear. f_equal. induction col as [|x col IH]; [reflexivity|]. cbn [filter]. destruct (in_bin_q edges k x) eqn:E1, (Qle_bool t x) eqn:E2; cbn [filter]; rewrite ?E1, ?E2; congruence.
  - intros ->. reflexivity.
Qed.
Theorem C145_values_partial : forall pow10 p rows ncol h c e k, c_cumulative p = false -> length h <> ncol -> mo_completeness pow10 p rows ncol h = Ok (c, e) -> (k < length e)%nat -> 0 <= at_ c k <= 1.
Proof.
  intros pow10 p rows ncol h c e k Hc Hn E Hk. unfold mo_completeness, differential in E. apply Nat.eqb_neq in Hn. rewrite Hn in E. destruct (h_edges (c_nbins p) (c_min_hrange p) h) as [ed|] eqn:Ee; [|discriminate]. cbn [bind] in E. rewrite Hc in E. injection E as <- <-.
  assert (S k < length ed)%nat as L. { destruct ed as [|x ed _] using rev_ind; [cbn in Hk; lia|]. rewrite removelast_last in Hk. rewrite app_length. cbn. lia. }
  pose proof (binned_fraction (c_threshold p) ed (map (fun r => filled0 (nth 0 r None)) rows) k L) as [F Z]. cbv zeta in *.
  destruct (filter (in_bin_q ed k) (map (fun r => filled0 (nth 0 r None)) rows)) as [|x l] eqn:Ef; [rewrite (Z eq_refl); lra|]. apply (fraction_bounds _ (x :: l) _ ltac:(discriminate) (F ltac:(discriminate))).
Qed.
Print Assumptions C145_values_partial.
Example C145_values_case : exists c e, mo_completeness ten {| c_threshold := 1; c_nbins := 2; c_min_hrange := 1; c_cumulative := false; c_hindex := 33 # 100 |} [[Some 1]; [Some 0]; [Some 0]; [Some 2]] 1 [0; 1; 2; 4] = Ok (c, e) /\ at_ c 0 == 1 # 3 /\ at_ c 1 == 1.
Proof. do 2 eexists. repeat apply conj; reflexivity. Qed.
(** the bins are meant to span the H values; when these cover less than min_hrange the bins start half that below the least
    one and may end before the largest *)
Theorem C145_span_refuted : ~ (forall nbins mr h e x, (0 < nbins)%nat -> 0 < mr -> h_edges nbins mr h = Ok e -> In x h -> at_ e 0 <= x <= at_ e nbins).
Proof.
  intros C. specialize (C 2%nat 1 [20; 209 # 10] _ (209 # 10) ltac:(lia) ltac:(reflexivity) eq_refl ltac:(right; left; reflexivity)). destruct C as [_ C]. vm_compute in C. apply C. reflexivity.
Qed.
Print Assumptions C145_span_refuted.
Theorem C145_span_partial : forall nbins mr h e x a b, (0 < nbins)%nat -> h_edges nbins mr h = Ok e -> In a h -> In b h -> mr <= b - a -> In x h -> at_ e 0 <= x <= at_ e nbins /\ length e = S nbins.
Proof.
  intros nbins mr h e x a b Hn E Ia Ib M Ix. unfold h_edges in E. destruct (qmin_list h) as [lo|] eqn:El; [|discriminate]. destruct (qmax_list h) as [hi|] eqn:Eh; [|discriminate].
  destruct (qmin_spec h lo El) as [_ Ml]. destruct (qmax_spec h hi Eh) as [_ Mh]. pose proof (Ml _ Ia). pose proof (Mh _ Ib). pose proof (Ml _ Ix). pose proof (Mh _ Ix).
  destruct (qle_spec mr (hi - lo)) as [[Em _]|[_ C]]; [|lra]. rewrite Em in E. injection E as <-.
  set (g := fun k => lo + inject_Z (Z.of_nat k) * ((hi - lo) / inject_Z (Z.of_nat nbins))). split; [|cbn [length]; rewrite map_length, seq_length; reflexivity].
  change (at_ (map g (seq 0 (S nbins))) 0 <= x <= at_ (map g (seq 0 (S nbins))) nbins). unfold at_. rewrite !map_seq_nth by lia. unfold g.
  assert (0 < inject_Z (Z.of_nat nbins)) as P by (unfold Qlt; cbn; lia).
  setoid_replace (lo + inject_Z (Z.of_nat 0) * ((hi - lo) / inject_Z (Z.of_nat nbins))) with lo by (cbn; ring).
  setoid_replace (lo + inject_Z (Z.of_nat nbins) * ((hi - lo) / inject_Z (Z.of_nat nbins))) with hi by (field; lra). split; assumption.
Qed.
Print Assumptions C145_span_partial.
Example C145_span_case : exists e, h_edges 4 1 [20; 24; 21] = Ok e /\ at_ e 0 == 20 /\ at_ e 4 == 24.
Proof. eexists. repeat apply conj; reflexivity. Qed.

(** * C146 completeness at a time *)
(** value k of the differential version is the fraction of the objects discovered, at the H nearest to the one asked for,
    before time k; the first value is 0 and the values never decrease nor pass 1 *)
Theorem C146_differential : forall pow10 hval times rows h, times <> [] -> nondecreasing times -> rows <> [] -> h <> [] ->
  exists v idx, at_time_run pow10 false hval times rows (length h) h = Ok (Some (v, Some (at_ h idx))) /\ (idx < length h)%nat /\
    match hval with Some x => forall j, (j < length h)%nat -> Qabs (at_ h idx - x) <= Qabs (at_ h j - x) | None => idx = Nat.div2 (length h) end /\ length v = length times /\
    (forall k, (k < length times)%nat -> fraction (fun r => found_before times k (nth idx r None)) rows (at_ v k) /\ 0 <= at_ v k <= 1) /\
    at_ v 0 == 0 /\ nondecreasing v.
Proof.
  intros pow10 hval times rows h N M Nr Nh. rewrite at_time_diff by exact N. set (v := map _ (seq 0 (length times))). exists v, (pick_h hval h).
  pose proof (pick_h_lt hval h Nh) as Lt. assert (length v = length times) as Lv by (unfold v; rewrite map_length, seq_length; reflexivity).
  assert (forall k, (k < length times)%nat -> fraction (fun r => found_before times k (nth (pick_h hval h) r None)) rows (at_ v k)) as F.
  { intros k Hk. unfold v, at_. rewrite map_seq_nth by exact Hk. fold (at_ (at_row times rows (length h) k) (pick_h hval h)). rewrite at_row_nth by exact Lt. apply found_fraction; assumption. }
  split; [reflexivity|]. split; [exact Lt|]. split; [destruct hval as [x|]; [apply pick_h_near; exact Nh|reflexivity]|]. split; [exact Lv|].
  split; [intros k Hk; split; [apply F, Hk|apply (fraction_bounds _ rows _ Nr (F k Hk))]|]. split.
  - destruct (F O) as (n & Hn & E); [destruct times; [congruence|cbn; lia]|]. assert (n = O) as ->.
    { pose proof (how_many_le (fun r => found_before times 0 (nth (pick_h hval h) r None)) (fun _ => False) rows n O) as H. enough (n <= 0)%nat by lia. apply H; [|exact Hn|].
      - intros r _ (x & _ & C & _). lia.
      - clear. induction rows; constructor; [intros []|assumption]. }
    pose proof (len_pos rows Nr). change (inject_Z (Z.of_nat 0)) with 0 in E. apply Qmult_integral in E. destruct E as [E|E]; [exact E|lra].
  - intros i j [H1 H2]. rewrite Lv in H2. apply (fraction_le (fun r => found_before times i (nth (pick_h hval h) r None)) (fun r => found_before times j (nth (pick_h hval h) r None)) rows _ _ Nr); [|apply F; lia|apply F; lia].
    intros r _. apply found_before_mono; [exact M|lia].
Qed.
Print Assumptions C146_differential.
Example C146_differential_case : exists v, at_time_run ten false (Some 21) [0; 10; 20] [[Some 5; Some 12]; [Some 3; None]; [Some 1; Some 20]] 2 [20; 22] = Ok (Some (v, Some 20)) /\ at_ v 0 == 0 /\ at_ v 1 == 1 /\
  exists v', at_time_run ten false None [0; 10; 20] [[Some 5; Some 12]; [Some 3; None]; [Some 1; Some 20]] 2 [20; 22] = Ok (Some (v', Some 22)) /\ at_ v' 1 == 0 /\ at_ v' 2 == 2 # 3.
Proof. eexists. repeat apply conj; [reflexivity|reflexivity|reflexivity|]. eexists. repeat apply conj; reflexivity. Qed.
(** the cumulative version is the mean of these fractions up to the chosen H, weighted by the size distribution *)
Theorem C146_cumulative : forall pow10 hval times rows h, times <> [] -> nondecreasing times -> rows <> [] -> (2 <= length h)%nat -> increasing h -> (forall x, 0 < pow10 x) ->
  exists w v idx, power_law_dndh pow10 [] h = Ok w /\ at_time_run pow10 true hval times rows (length h) h = Ok (Some (v, Some (at_ h idx))) /\ (idx < length h)%nat /\ length v = length times /\
    (forall k, (k < length times)%nat -> exists d, (forall i, (i < length h)%nat -> fraction (fun r => found_before times k (nth i r None)) rows (at_ d i)) /\
       at_ v k * sum_to (at_ w) idx == sum_to (fun i => at_ d i * at_ w i) idx /\ 0 <= at_ v k <= 1) /\
    at_ v 0 == 0 /\ nondecreasing v.
Proof.
  intros pow10 hval times rows h N M Nr L I P. destruct (power_law_pos pow10 [] h L I P ltac:(discriminate)) as (w & Ew & Lw & Pw). assert (h <> []) as Nh by (destruct h; [cbn in L; lia|discriminate]).
  destruct (at_time_cum pow10 hval times rows h w N Nh Ew Lw) as (v & Ev & Lv & V). exists w, v, (pick_h hval h). pose proof (pick_h_lt hval h Nh) as Lt.
  assert (forall k i, (k < length times)%nat -> (i < length h)%nat -> fraction (fun r => found_before times k (nth i r None)) rows (at_ (at_row times rows (length h) k) i)) as F.
  { intros k i Hk Hi. rewrite at_row_nth by exact Hi. apply found_fraction; assumption. }
  split; [exact Ew|]. split; [exact Ev|]. split; [exact Lt|]. split; [exact Lv|]. split; [|split].
  - intros k Hk. exists (at_row times rows (length h) k). split; [intros i Hi; apply F; assumption|]. split.
    + rewrite (V k Hk). apply wmean_mul; [exact Pw|lia].
    + rewrite (V k Hk). apply wmean_bounds; [exact Pw|lia|]. intros j Hj. apply (fraction_bounds _ rows _ Nr (F k j Hk ltac:(lia))).
  - assert (0 < length times)%nat as L0 by (destruct times; [congruence|cbn; lia]). rewrite (V O L0). enough (0 <= wmean (at_row times rows (length h) 0) w (pick_h hval h) <= 0) by lra.
    apply wmean_bounds; [exact Pw|lia|]. intros j Hj. rewrite at_row_nth by lia. cbn [found_by nth]. unfold Qdiv. rewrite Qmult_0_l. lra.
  - intros i j [H1 H2]. rewrite Lv in H2. rewrite (V i ltac:(lia)), (V j ltac:(lia)). apply wmean_le; [exact Pw|lia|]. intros x Hx.
    apply (fraction_le (fun r => found_before times i (nth x r None)) (fun r => found_before times j (nth x r None)) rows _ _ Nr); [|apply F; lia|apply F; lia].
    intros r _. apply found_before_mono; [exact M|lia].
Qed.
Print Assumptions C146_cumulative.
Example C146_cumulative_case : exists v, at_time_run ten true (Some 100) [0; 10; 20] [[Some 5; Some 12]; [Some 3; None]; [Some 1; Some 20]] 2 [0; 100] = Ok (Some (v, Some 100)) /\ at_ v 0 == 0 /\ 0 < at_ v 1 < 1 # 10 /\ 2 # 3 < at_ v 2 < 7 # 10.
Proof. eexists. repeat apply conj; reflexivity. Qed.
(** a discovery before the first of the times is never counted *)
Theorem C146_early_refuted : ~ (forall pow10 hval times rows h v hv k idx, times <> [] -> nondecreasing times -> rows <> [] -> (idx < length h)%nat -> (k < length times)%nat ->
  at_time_run pow10 false hval times rows (length h) h = Ok (Some (v, hv)) -> hv = Some (at_ h idx) ->
  (forall r, In r rows -> exists x, nth idx r None = Some x /\ x < at_ times k) -> at_ v k == 1).
Proof.
  intros C. assert (nondecreasing [10; 20]) as M. { intros i j [H1 H2]. destruct i as [|[|i]], j as [|[|j]]; cbn in *; try lia; vm_compute; congruence. }
  assert (forall r : list (option Q), In r [[Some 5]] -> exists x, nth 0 r None = Some x /\ x < 20) as H by (intros r [<-|[]]; exists 5; split; reflexivity).
  specialize (C ten None [10; 20] [[Some 5]] [22] _ _ 1%nat O ltac:(discriminate) M ltac:(discriminate) ltac:(cbn; lia) ltac:(cbn; lia) eq_refl eq_refl H). discriminate C.
Qed.
Print Assumptions C146_early_refuted.
(** without an H value the constructor raises unless a name is given, although None is the default *)
Theorem C146_default_refuted : ~ (forall cumulative, exists c, at_time_init None cumulative None = Ok c).
Proof. intros C. destruct (C None) as (c & E). discriminate E. Qed.
Print Assumptions C146_default_refuted.
Theorem C146_init_partial : forall hval cumulative name, (hval <> None \/ name <> None) -> exists c, at_time_init hval cumulative name = Ok c /\ (forall b, cumulative = Some b -> c = b) /\
  (cumulative = None -> c = match name with Some n => negb (String.prefix "differential" n) | None => true end).
Proof.
  intros hval cumulative name H. unfold at_time_init. destruct name as [n|], hval as [x|]; [| | |destruct H; congruence]; eexists; (split; [reflexivity|]); (split; [intros b ->; reflexivity|intros ->; reflexivity]).
Qed.
Print Assumptions C146_init_partial.
(** a run without an H value remembers the H it chose: the next run, on other H values, no longer takes the middle one *)
Theorem C146_rerun_refuted : ~ (forall pow10 cumulative times rows h v hv rows' h', at_time_run pow10 cumulative None times rows (length h) h = Ok (Some (v, hv)) ->
  at_time_run pow10 cumulative hv times rows' (length h') h' = at_time_run pow10 cumulative None times rows' (length h') h').
Proof. intros C. specialize (C ten false [0; 10] [[Some 5; Some 5]] [20; 21] _ _ [[Some 5; None; None; None]] [20; 21; 22; 23] eq_refl). vm_compute in C. discriminate C. Qed.
Print Assumptions C146_rerun_refuted.
(** running again on the same H values gives the same values *)
Theorem C146_rerun_partial : forall pow10 times rows h v hv, increasing h -> times <> [] -> h <> [] -> at_time_run pow10 false None times rows (length h) h = Ok (Some (v, hv)) ->
  at_time_run pow10 false hv times rows (length h) h = Ok (Some (v, hv)).
Proof.
  intros pow10 times rows h v hv I N Nh E. rewrite at_time_diff in E by exact N. assert (hv = Some (at_ h (pick_h None h))) as -> by congruence. rewrite <- E, at_time_diff by exact N.
  assert (pick_h (Some (at_ h (pick_h None h))) h = pick_h None h) as ->; [|reflexivity]. clear E. set (x := at_ h (pick_h None h)). pose proof (pick_h_lt (Some x) h Nh) as L. pose proof (pick_h_lt None h Nh) as L0.
  pose proof (pick_h_near x h Nh (pick_h None h) L0) as H. fold x in H. setoid_replace (x - x) with 0 in H by ring. change (Qabs 0) with 0 in H. apply Qabs_Qle_condition in H. destruct H as [H1 H2].
  destruct (Nat.lt_trichotomy (pick_h (Some x) h) (pick_h None h)) as [G|[G|G]]; [|exact G|].
  - pose proof (I _ _ (conj G L0)) as C. fold x in C. lra.
  - pose proof (I _ _ (conj G L)) as C. fold x in C. lra.
Qed.
Print Assumptions C146_rerun_partial.

(** * C147 values at a magnitude *)
(** the value at h_mark is on the straight line between the neighbouring H values *)
Theorem C147_value : forall h_mark r h i, length h = length r -> increasing h -> (S i < length h)%nat -> at_ h i <= h_mark <= at_ h (S i) ->
  exists v, value_at_h h_mark [r] h = Some v /\ (v - at_ r i) * (at_ h (S i) - at_ h i) == (at_ r (S i) - at_ r i) * (h_mark - at_ h i).
Proof.
  intros x r h i L I Hi [H1 H2]. exists (interp x h r). split; [|apply interp_seg; try assumption; split; assumption]. unfold value_at_h, in_range.
  destruct (qmin_list h) as [a|] eqn:Ea; [|destruct h; [cbn in Hi; lia|discriminate]]. destruct (qmax_list h) as [b|] eqn:Eb; [|destruct h; [cbn in Hi; lia|discriminate]].
  pose proof (proj2 (qmin_spec h a Ea) (at_ h i) ltac:(apply nth_In; lia)). pose proof (proj2 (qmax_spec h b Eb) (at_ h (S i)) ltac:(apply nth_In; lia)).
  destruct (qle_spec a x) as [[-> _]|[_ C]]; [|lra]. destruct (qle_spec x b) as [[-> _]|[_ C]]; [reflexivity|lra].
Qed.
Print Assumptions C147_value.
Example C147_value_case : exists v, value_at_h (205 # 10) [[1; 1 # 2; 0]] [20; 21; 22] = Some v /\ v == 3 # 4.
Proof. eexists. split; reflexivity. Qed.
(** outside the range of the H values, or with more than one row, there is no value *)
Theorem C147_no_value : forall h_mark rows h, (forall x, In x h -> h_mark < x) \/ (forall x, In x h -> x < h_mark) \/ length rows <> 1%nat -> value_at_h h_mark rows h = None.
Proof.
  intros x rows h H. unfold value_at_h, in_range. destruct (qmin_list h) as [a|] eqn:Ea; [|reflexivity]. destruct (qmax_list h) as [b|] eqn:Eb; [|reflexivity].
  destruct (qmin_spec h a Ea) as [Ia _]. destruct (qmax_spec h b Eb) as [Ib _]. destruct H as [H|[H|H]].
  - pose proof (H a Ia). destruct (qle_spec a x) as [[_ C]|[-> _]]; [lra|reflexivity].
  - pose proof (H b Ib). destruct (qle_spec x b) as [[_ C]|[-> _]]; [lra|]. rewrite andb_false_r. reflexivity.
  - destruct (Qle_bool a x && Qle_bool x b); [|reflexivity]. destruct rows as [|r [|? ?]]; [reflexivity|cbn in H; lia|reflexivity].
Qed.
Print Assumptions C147_no_value.
(** the mean value lies between the least and the largest value, and at one of the H values it is the mean there *)
Theorem C147_mean : forall h_mark rows h v, rows <> [] -> increasing h -> mean_value_at_h h_mark rows h = Some v ->
  (forall a b, (forall r i, In r rows -> (i < length h)%nat -> a <= nth i r 0 <= b) -> a <= v <= b) /\
  (forall i, (i < length h)%nat -> h_mark == at_ h i -> v * inject_Z (Z.of_nat (length rows)) == fold_right (fun r s => nth i r 0 + s) 0 rows).
Proof.
  intros x rows h v N I E. unfold mean_value_at_h in E. destruct (in_range x h) eqn:R; [|discriminate]. injection E as <-. assert (h <> []) as Nh by (destruct h; [discriminate R|discriminate]).
  set (fp := map (fun i => mean_q (column rows i)) (seq 0 (length h))). assert (length h = length fp) as L by (unfold fp; rewrite map_length, seq_length; reflexivity).
  assert (forall i, (i < length h)%nat -> at_ fp i = mean_q (column rows i)) as F by (intros i Hi; unfold at_, fp; apply map_seq_nth; exact Hi).
  pose proof (len_pos rows N) as Hp.
  assert (forall i, mean_q (column rows i) * inject_Z (Z.of_nat (length rows)) == fold_right (fun r s => nth i r 0 + s) 0 rows) as Hm.
  { intros i. unfold mean_q, column. rewrite map_length. setoid_replace (qsum (map (fun r => nth i r 0) rows)) with (fold_right (fun r s => nth i r 0 + s) 0 rows); [field; lra|].
    clear. unfold qsum. induction rows as [|r rows IH]; [reflexivity|]. cbn [map fold_right]. rewrite IH. reflexivity. }
  split.
  - intros a b H. apply interp_bounds; [exact L|exact I|exact Nh|]. intros y Hy. apply at_in in Hy. destruct Hy as (i & Hi & <-). rewrite F by lia.
    assert (a * inject_Z (Z.of_nat (length rows)) <= fold_right (fun r s => nth i r 0 + s) 0 rows <= b * inject_Z (Z.of_nat (length rows))) as [B1 B2].
    { assert (forall r, In r rows -> a <= nth i r 0 <= b) as H' by (intros; apply H; [assumption|lia]). clear - H'. induction rows as [|r rows IH]; [cbn [fold_right length]; change (inject_Z (Z.of_nat 0)) with 0; lra|].
      cbn [fold_right length]. rewrite Nat2Z.inj_succ, <- Z.add_1_l, inject_Z_plus. pose proof (H' r (or_introl eq_refl)). pose proof (IH ltac:(intros; apply H'; right; assumption)). change (inject_Z 1) with 1. lra. }
    rewrite <- Hm in B1, B2. split; apply (Qmult_le_r _ _ _ Hp); assumption.
  - intros i Hi Ex. rewrite <- Hm, <- (F i Hi). apply Qmult_comp; [|reflexivity]. destruct (Nat.eq_dec (S i) (length h)) as [El|Hn].
    + rewrite interp_right; [replace (length h - 1)%nat with i by lia; reflexivity|exact L|exact I|exact Nh|]. replace (length h - 1)%nat with i by lia. rewrite Ex. apply Qle_refl.
    + pose proof (I i (S i) ltac:(lia)) as Hlt. pose proof (interp_seg h fp x i L I ltac:(lia) ltac:(lra)) as G. setoid_replace (x - at_ h i) with 0 in G by (rewrite Ex; ring). rewrite Qmult_0_r in G. apply Qmult_integral in G. destruct G; lra.
Qed.
Print Assumptions C147_mean.
Example C147_mean_case : exists v, mean_value_at_h 21 [[1; 4; 0]; [3; 2; 0]] [20; 21; 22] = Some v /\ v == 3.
Proof. eexists. split; reflexivity. Qed.

(** * C148 expected numbers of objects *)
(** at an H value of the distribution the total is the sum, over this and the brighter ones, of the values times the number
    of objects; it grows with h_mark, and is that of the last H value beyond it *)
Theorem C148_total : forall f kw vals h w, f kw h = Ok w -> all_positive w -> length w = length h -> length vals = length h -> increasing h -> h <> [] -> (forall v, In v vals -> 0 <= v) ->
  (forall i, (i < length h)%nat -> exists t, total_run f kw (at_ h i) vals h = Ok t /\ t == sum_to (fun j => at_ vals j * at_ w j) i) /\
  (forall x y t u, x <= y -> total_run f kw x vals h = Ok t -> total_run f kw y vals h = Ok u -> t <= u) /\
  (forall x, at_ h (length h - 1) <= x -> total_run f kw x vals h = total_run f kw (at_ h (length h - 1)) vals h).
Proof.
  intros f kw vals h w E P Lw Lv I Nh V. unfold total_run.
  destruct (sum_over_h f kw vals h) as [t|] eqn:Et. 2:{ unfold sum_over_h, weighted in Et. rewrite E in Et. cbn [bind] in Et. rewrite (proj2 (Nat.eqb_eq _ _)) in Et by congruence. discriminate. }
  cbn [bind]. destruct (sum_over_nth _ _ _ _ _ _ E Et) as (_ & Lt & N). pose proof (totals_rise _ _ _ _ _ _ E P Et V) as M. assert (length h = length t) as L by congruence. split; [|split].
  - intros i Hi. eexists. split; [reflexivity|]. rewrite <- N by lia. destruct (Nat.eq_dec (S i) (length h)) as [El|Hn].
    + rewrite interp_right; [replace (length h - 1)%nat with i by lia; reflexivity|exact L|exact I|exact Nh|]. replace (length h - 1)%nat with i by lia. apply Qle_refl.
    + pose proof (I i (S i) ltac:(lia)) as Hlt. pose proof (interp_seg h t (at_ h i) i L I ltac:(lia) ltac:(lra)) as G. setoid_replace (at_ h i - at_ h i) with 0 in G by ring. rewrite Qmult_0_r in G. apply Qmult_integral in G. destruct G; lra.
  - intros x y a b H Ea Eb. injection Ea as <-. injection Eb as <-. apply interp_mono; assumption.
  - intros x H. f_equal. rewrite !interp_right; try assumption; [reflexivity|apply Qle_refl].
Qed.
Print Assumptions C148_total.
Example C148_total_case : exists w t, power_law_dndh ten [("hindex"%string, 1)] [1; 2; 3] = Ok w /\ all_positive w /\ total_run (power_law_dndh ten) [("hindex"%string, 1)] 2 [1; 1 # 2; 0] [1; 2; 3] = Ok t /\ t == 60.
Proof. do 2 eexists. repeat apply conj; [reflexivity| |reflexivity|reflexivity]. intros x H. repeat (destruct H as [<-|H]; [reflexivity|]). destruct H. Qed.
(** the keyword arguments of the size distribution cannot be given: the constructor hands all of them to the base class too *)
Theorem C148_parameters_refuted : ~ (forall names, (forall k, In k names -> In k ["hindex"; "no"; "ho"]%string) -> total_init names = Ok tt).
Proof. intros C. specialize (C ["hindex"]%string ltac:(intros k [<-|[]]; left; reflexivity)). discriminate C. Qed.
Print Assumptions C148_parameters_refuted.
Theorem C148_parameters_partial : forall names k, In k names -> In k ["hindex"; "no"; "ho"]%string -> total_init names = Err TypeError.
Proof.
  intros names k Hk H. unfold total_init. destruct (existsb (String.eqb "metric_name") names); [reflexivity|]. destruct (forallb (fun k => existsb (String.eqb k) base_params) names) eqn:F; [|reflexivity].
  rewrite forallb_forall in F. specialize (F k Hk). destruct H as [<-|[<-|[<-|[]]]]; discriminate F.
Qed.
Print Assumptions C148_parameters_partial.
(** one of the five distributions always raises: it subscripts a function *)
Theorem C148_pha_refuted : ~ (forall pow10 kw h f, In f [power_law_dndh pow10; neo_dndh_granvik pow10; neo_dndh_grav pow10; pha_dndh_granvik pow10; pha_dndh_grav] -> (2 <= length h)%nat -> exists w, f kw h = Ok w).
Proof. intros C. destruct (C ten [] [1; 2] pha_dndh_grav ltac:(do 4 right; left; reflexivity) ltac:(cbn; lia)) as (w & E). discriminate E. Qed.
Print Assumptions C148_pha_refuted.
Lemma zip_pos a b : length a = length b -> all_positive a -> all_positive b -> all_positive (zip_with Qmult a b).
Proof.
  intros L A B x H. apply at_in in H. destruct H as (i & Hi & <-). rewrite zip_length in Hi by exact L. unfold at_. rewrite zip_nth by assumption. apply mul_pos; [apply A|apply B]; apply nth_In; lia.
Qed.
(** the other four have positive numbers of objects in every bin *)
Theorem C148_distributions_partial : forall pow10 h f, (forall x, 0 < pow10 x) -> In f [power_law_dndh pow10; neo_dndh_granvik pow10; neo_dndh_grav pow10; pha_dndh_granvik pow10] -> (2 <= length h)%nat -> increasing h ->
  exists w, f [] h = Ok w /\ length w = length h /\ all_positive w.
Proof.
  intros pow10 h f P H L I. destruct H as [<-|H]; [apply power_law_pos; try assumption; discriminate|].
  destruct (binratio_two h L) as (br & Eb). destruct (binratio_ok h br Eb) as (Lb & _ & Pb). specialize (Pb I).
  assert (forall g, (forall x, 0 < g x) -> exists w, Ok (zip_with Qmult (map g h) br) = Ok w /\ length w = length h /\ all_positive w) as G.
  { intros g Hg. eexists. split; [reflexivity|]. split; [rewrite zip_length; rewrite map_length; congruence|]. apply zip_pos; [rewrite map_length; congruence| |exact Pb]. intros x Hx. apply in_map_iff in Hx. destruct Hx as (y & <- & _). apply Hg. }
  destruct H as [<-|[<-|[<-|[]]]]; unfold neo_dndh_granvik, pha_dndh_granvik, neo_dndh_grav, two_powers; rewrite Eb; cbn [bind]; apply G; intros x;
    repeat match goal with |- context [pow10 ?e] => let y := fresh "y" in pose proof (P e); set (y := pow10 e) in * end; lra.
Qed.
Print Assumptions C148_distributions_partial.
(** and in each of them the number of objects per unit of magnitude does not fall towards fainter ones *)
Lemma binratio_at h br i : binratio h = Ok br -> (S i < length h)%nat -> nth i br 0 == (at_ h (S i) - at_ h i) * 10.
Proof.
  unfold binratio. intros E L. destruct (rev (diff_q h)) as [|d t]; [discriminate|]. injection E as <-.
  pose proof (diff_length h) as LD. rewrite (nth_indep _ 0 ((fun x => x / (1 # 10)) 0)) by (rewrite map_length, app_length; cbn; lia).
  rewrite (map_nth (fun x => x / (1 # 10))), app_nth1 by lia. rewrite diff_nth by exact L. unfold at_. field.
Qed.
Theorem C148_more_faint : forall pow10 h f w i j, (forall x, 0 < pow10 x) -> (forall x y, x <= y -> pow10 x <= pow10 y) ->
  In f [power_law_dndh pow10; neo_dndh_granvik pow10; neo_dndh_grav pow10; pha_dndh_granvik pow10] -> increasing h -> f [] h = Ok w ->
  (i < j)%nat -> (S j < length h)%nat -> at_ w i / (at_ h (S i) - at_ h i) <= at_ w j / (at_ h (S j) - at_ h j).
Proof.
  intros pow10 h f w i j P M H I E Lij Lj.
  assert (forall g br, binratio h = Ok br -> w = zip_with Qmult (map g h) br -> (forall x y, x <= y -> g x <= g y) ->
            at_ w i / (at_ h (S i) - at_ h i) <= at_ w j / (at_ h (S j) - at_ h j)) as G.
  { intros g br Eb -> Hg. destruct (binratio_ok h br Eb) as (Lb & _ & _). unfold at_ at 1 4. rewrite !zip_nth by (rewrite map_length; lia).
    rewrite !(nth_indep (map g h) 0 (g 0)) by (rewrite map_length; lia). rewrite !map_nth. rewrite (binratio_at h br i Eb), (binratio_at h br j Eb) by lia.
    fold (at_ h i). fold (at_ h j). pose proof (I i (S i) ltac:(lia)). pose proof (I j (S j) ltac:(lia)). pose proof (Hg _ _ (Qlt_le_weak _ _ (I i j ltac:(lia)))) as Q.
    setoid_replace (g (at_ h i) * ((at_ h (S i) - at_ h i) * 10) / (at_ h (S i) - at_ h i)) with (g (at_ h i) * 10) by (field; lra).
    setoid_replace (g (at_ h j) * ((at_ h (S j) - at_ h j) * 10) / (at_ h (S j) - at_ h j)) with (g (at_ h j) * 10) by (field; lra). lra. }
  destruct (binratio h) as [br|] eqn:Eb.
  2:{ destruct (binratio_two h ltac:(lia)) as (b & B). congruence. }
  destruct H as [<-|[<-|[<-|[<-|[]]]]]; unfold power_law_dndh, neo_dndh_granvik, pha_dndh_granvik, neo_dndh_grav, two_powers in E; rewrite Eb in E;
    try (destruct (qmin_list h) as [m|]; [|discriminate]); cbn [bind kw_get fst snd] in E; injection E as <-; (apply (G _ br eq_refl eq_refl)); intros x y L.
  - pose proof (M ((33 # 100) * (x - m)) ((33 # 100) * (y - m)) ltac:(lra)). lra.
  - pose proof (M ((3 # 10) * (x - (185 # 10))) ((3 # 10) * (y - (185 # 10))) ltac:(lra)). pose proof (M ((92 # 100) * (x - (232 # 10))) ((92 # 100) * (y - (232 # 10))) ltac:(lra)). lra.
  - pose proof (M ((35 # 100) * (x - (185 # 10))) ((35 # 100) * (y - (185 # 10))) ltac:(lra)). lra.
  - pose proof (M ((3 # 10) * (x - (185 # 10))) ((3 # 10) * (y - (185 # 10))) ltac:(lra)). pose proof (M ((92 # 100) * (x - (232 # 10))) ((92 # 100) * (y - (232 # 10))) ltac:(lra)). lra.
Qed.
Print Assumptions C148_more_faint.
