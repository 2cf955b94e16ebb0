(** Properties of the moving object summary metrics. *)
From Verif Require Import Base MoSum_Model MoSum_Spec MoSum_Proofs MoSum_Proofs2 MoSum_Proofs3 MoSum_Proofs4.
From Coq Require Import QArith Qabs Qround Qfield Lqa Lia.
Open Scope Q_scope.

(** powers of ten of integers, for the examples: exact wherever the examples use it *)
Definition ten (x : Q) : Q := Qpower 10 (Qfloor x).
Lemma ten_pos x : 0 < ten x.
Proof.
  assert (forall n, 0 < Qpower_positive 10 n) as H.
  { intros n. unfold Qpower_positive. induction n as [n IH|n IH|]; cbn [pow_pos]; [| |reflexivity]; repeat apply mul_pos; try exact IH; reflexivity. }
  unfold ten. destruct (Qfloor x) as [|n|n]; cbn [Qpower]; [reflexivity|apply H|apply Qinv_lt_0_compat, H].
Qed.

(** * C142 integrating over H *)
(** the value at index i is the mean of the values up to i, weighted by the size distribution; it lies between the least and
    the largest of them *)
Theorem C142_weighted_mean : forall f kw vals h w r i,
  f kw h = Ok w -> all_positive w -> integrate_over_h f kw vals h = Ok r -> (i < length vals)%nat ->
  length r = length vals /\ at_ r i * sum_to (at_ w) i == sum_to (fun j => at_ vals j * at_ w j) i /\
  forall a b, (forall j, (j <= i)%nat -> a <= at_ vals j <= b) -> a <= at_ r i <= b.
Proof.
  intros f kw vals h w r i E P R Hi. destruct (integrate_nth _ _ _ _ _ _ E R) as (L & Lr & N). split; [exact Lr|]. rewrite (N i Hi). split; [apply wmean_mul; [exact P|lia]|].
  intros a b H. rewrite (N i Hi). apply wmean_bounds; [exact P|lia|exact H].
Qed.
Print Assumptions C142_weighted_mean.
Example C142_weighted_mean_case : exists w r, power_law_dndh ten [("hindex"%string, 1)] [1; 2; 3] = Ok w /\ all_positive w /\
  integrate_over_h (power_law_dndh ten) [("hindex"%string, 1)] [1; 1 # 2; 0] [1; 2; 3] = Ok r /\ at_ r 0 == 1 /\ at_ r 1 == 6 # 11 /\ at_ r 2 == 6 # 111.
Proof. do 2 eexists. repeat apply conj; [reflexivity| |reflexivity|reflexivity|reflexivity|reflexivity]. intros x H. repeat (destruct H as [<-|H]; [reflexivity|]). destruct H. Qed.
(** larger values give a larger mean *)
Theorem C142_monotone : forall f kw vals vals' h w r r', f kw h = Ok w -> all_positive w -> integrate_over_h f kw vals h = Ok r -> integrate_over_h f kw vals' h = Ok r' ->
  (forall j, (j < length vals)%nat -> at_ vals j <= at_ vals' j) -> forall i, (i < length vals)%nat -> at_ r i <= at_ r' i.
Proof.
  intros f kw vals vals' h w r r' E P R R' M i Hi. destruct (integrate_nth _ _ _ _ _ _ E R) as (L & _ & N). destruct (integrate_nth _ _ _ _ _ _ E R') as (L' & _ & N').
  rewrite N, N' by lia. apply wmean_le; [exact P|lia|]. intros j Hj. apply M. lia.
Qed.
Print Assumptions C142_monotone.
(** the power law has positive weights for two or more increasing H values *)
Theorem C142_power_law : forall pow10 kw h, (2 <= length h)%nat -> increasing h -> (forall x, 0 < pow10 x) -> (forall no, kw_get "no" kw = Some no -> 0 < no) ->
  exists w, power_law_dndh pow10 kw h = Ok w /\ length w = length h /\ all_positive w.
Proof. exact power_law_pos. Qed.
Print Assumptions C142_power_law.
(** the anchor is not needed for a weighted mean: with and without one the results are the same.  The law of powers is
    assumed for the exponents that occur *)
Theorem C142_anchor_free : forall pow10 x no ho m vals h r r', increasing h -> (forall y, 0 < pow10 y) -> 0 < no ->
  In m h -> (forall y, In y h -> m <= y) ->
  (forall u v, u == v -> pow10 u == pow10 v) -> (forall y, In y h -> pow10 (x * (y - m)) == pow10 (x * (y - ho)) * pow10 (x * (ho - m))) ->
  integrate_over_h (power_law_dndh pow10) [("hindex"%string, x)] vals h = Ok r ->
  integrate_over_h (power_law_dndh pow10) [("hindex"%string, x); ("no"%string, no); ("ho"%string, ho)] vals h = Ok r' ->
  forall i, (i < length vals)%nat -> at_ r i == at_ r' i.
Proof.
  intros pow10 x no ho m vals h r r' I P Hno Im Mm Ext Law R R' i Hi.
  destruct (power_law_dndh pow10 [("hindex"%string, x)] h) as [w'|] eqn:E'. 2:{ unfold integrate_over_h in R. rewrite E' in R. discriminate. }
  destruct (power_law_dndh pow10 [("hindex"%string, x); ("no"%string, no); ("ho"%string, ho)] h) as [w|] eqn:E. 2:{ unfold integrate_over_h in R'. rewrite E in R'. discriminate. }
  destruct (integrate_nth _ _ _ _ _ _ E' R) as (L' & _ & N'). destruct (integrate_nth _ _ _ _ _ _ E R') as (L & _ & N).
  destruct (power_law_ok _ _ _ _ E') as (no1 & ho1 & br & A1 & B1 & Lb & Lw' & V1). destruct (power_law_ok _ _ _ _ E) as (no2 & ho2 & br2 & A2 & B2 & _ & Lw & V2).
  rewrite B1 in B2. injection B2 as <-. cbn in A1, A2. destruct A1 as [-> A1]. destruct A2 as [-> ->]. destruct (qmin_spec h ho1 A1) as [Ih Mh].
  assert (ho1 == m) as Em by (pose proof (Mm _ Ih); pose proof (Mh _ Im); lra).
  assert (2 <= length h)%nat as L2 by (apply (binratio_ok h br B1)).
  assert (all_positive w) as Pw. { destruct (power_law_pos pow10 [("hindex"%string, x); ("no"%string, no); ("ho"%string, ho)] h L2 I P) as (w2 & E2 & _ & P2).
    - cbn. intros q Hq. injection Hq as <-. exact Hno.
    - rewrite E in E2. injection E2 as <-. exact P2. }
  rewrite N, N' by exact Hi. apply (wmean_scale vals w w' (10 / no * pow10 (x * (ho - m)))); [apply mul_pos; [apply Qlt_shift_div_l; lra|apply P]|exact Pw|congruence|lia|].
  intros j Hj. rewrite V1, V2 by lia. unfold kw_index. cbn [kw_get String.eqb Ascii.eqb Bool.eqb]. rewrite (Ext (x * (at_ h j - ho1)) (x * (at_ h j - m))) by (rewrite Em; reflexivity).
  rewrite (Law (at_ h j)) by (apply nth_In; lia). field. lra.
Qed.
Print Assumptions C142_anchor_free.
Example C142_anchor_free_case : exists r r', integrate_over_h (power_law_dndh ten) [("hindex"%string, 1)] [1; 1 # 2; 0] [1; 2; 3] = Ok r /\
  integrate_over_h (power_law_dndh ten) [("hindex"%string, 1); ("no"%string, 500); ("ho"%string, 2)] [1; 1 # 2; 0] [1; 2; 3] = Ok r' /\ at_ r 2 == at_ r' 2 /\
  (forall y, In y [1; 2; 3] -> ten (1 * (y - 1)) == ten (1 * (y - 2)) * ten (1 * (2 - 1))).
Proof. do 2 eexists. repeat apply conj; [reflexivity|reflexivity|reflexivity|]. intros y H. repeat (destruct H as [<-|H]; [reflexivity|]). destruct H. Qed.
(** a single H value has no spacing: every distribution raises *)
Theorem C142_single_refuted : ~ (forall pow10 h, h <> [] -> exists r, integrate_over_h (power_law_dndh pow10) [] (map (fun _ => 1) h) h = Ok r).
Proof. intros C. destruct (C ten [20] ltac:(discriminate)) as (r & E). discriminate E. Qed.
Print Assumptions C142_single_refuted.
Theorem C142_single_partial : forall pow10 kw x f, In f [power_law_dndh pow10; neo_dndh_granvik pow10; neo_dndh_grav pow10; pha_dndh_granvik pow10] ->
  f kw [x] = Err IndexError.
Proof.
  intros pow10 kw x f H. repeat (destruct H as [<-|H]; [|]); try destruct H; try reflexivity.
  unfold power_law_dndh. cbn [qmin_list fold_left]. destruct (kw_get "no" kw), (kw_get "ho" kw); reflexivity.
Qed.
Print Assumptions C142_single_partial.

(** * C143 completeness of a cloned population *)
(** without integration the value at H_i is the fraction of the objects whose value at H_i reaches the threshold *)
Theorem C143_differential : forall pow10 p rows h, c_cumulative p = false -> rows <> [] ->
  exists c, mo_completeness pow10 p rows (length h) h = Ok (c, h) /\ length c = length h /\
    forall i, (i < length h)%nat -> fraction (fun r => c_threshold p <= match nth i r None with Some v => v | None => 0 end) rows (at_ c i) /\ 0 <= at_ c i <= 1.
Proof.
  intros pow10 p rows h Hc N. exists (completeness_cloned (c_threshold p) rows (length h)). unfold mo_completeness, differential. rewrite Nat.eqb_refl. cbn [bind]. rewrite Hc.
  split; [reflexivity|]. split; [unfold completeness_cloned; rewrite map_length, seq_length; reflexivity|]. intros i Hi. pose proof (cloned_fraction (c_threshold p) rows (length h) i N Hi) as F.
  split; [exact F|]. exact (fraction_bounds _ _ _ N F).
Qed.
Print Assumptions C143_differential.
Example C143_differential_case : mo_completeness ten {| c_threshold := 1; c_nbins := 20; c_min_hrange := 1; c_cumulative := false; c_hindex := 33 # 100 |}
  [[Some 2; None]; [Some 1; Some 0]; [None; Some 3]] 2 [20; 21] = Ok ([2 / 3; 1 / 3], [20; 21]).
Proof. reflexivity. Qed.
(** a higher threshold never gives a larger value *)
Theorem C143_threshold : forall pow10 p p' rows h c c', c_cumulative p = false -> c_cumulative p' = false -> c_threshold p <= c_threshold p' -> rows <> [] ->
  mo_completeness pow10 p rows (length h) h = Ok (c, h) -> mo_completeness pow10 p' rows (length h) h = Ok (c', h) -> forall i, (i < length h)%nat -> at_ c' i <= at_ c i.
Proof.
  intros pow10 p p' rows h c c' H H' T N E E' i Hi. unfold mo_completeness, differential in *. rewrite Nat.eqb_refl in *. cbn [bind] in *. rewrite H in E. rewrite H' in E'. injection E as <-. injection E' as <-.
  apply (fraction_le (fun r => c_threshold p' <= filled0 (nth i r None)) (fun r => c_threshold p <= filled0 (nth i r None)) rows _ _ N); [intros; lra|apply cloned_fraction; assumption|apply cloned_fraction; assumption].
Qed.
Print Assumptions C143_threshold.
(** with integration the value at H_i lies between the least and the largest of the fractions up to H_i; where the fractions
    do not increase with H it is at least the fraction at H_i *)
Theorem C143_cumulative : forall pow10 p rows h, c_cumulative p = true -> rows <> [] -> (2 <= length h)%nat -> increasing h -> (forall x, 0 < pow10 x) ->
  exists d c, mo_completeness pow10 p rows (length h) h = Ok (c, h) /\ length c = length h /\
    (forall i, (i < length h)%nat -> fraction (fun r => c_threshold p <= match nth i r None with Some v => v | None => 0 end) rows (at_ d i)) /\
    forall i, (i < length h)%nat -> 0 <= at_ c i <= 1 /\ (forall a b, (forall j, (j <= i)%nat -> a <= at_ d j <= b) -> a <= at_ c i <= b) /\
      ((forall j, (j <= i)%nat -> at_ d i <= at_ d j) -> at_ d i <= at_ c i).
Proof.
  intros pow10 p rows h Hc N L I P. set (d := completeness_cloned (c_threshold p) rows (length h)). assert (length d = length h) as Ld by (unfold d, completeness_cloned; rewrite map_length, seq_length; reflexivity).
  destruct (power_law_pos pow10 [("Hindex"%string, c_hindex p)] h L I P ltac:(discriminate)) as (w & Ew & Lw & Pw).
  destruct (integrate_ok (power_law_dndh pow10) [("Hindex"%string, c_hindex p)] d h w Ew ltac:(congruence)) as (c & Ec). exists d, c.
  assert (forall i, (i < length h)%nat -> fraction (fun r => c_threshold p <= filled0 (nth i r None)) rows (at_ d i)) as F by (intros; apply cloned_fraction; assumption).
  destruct (integrate_nth _ _ _ _ _ _ Ew Ec) as (_ & Lc & V).
  split; [unfold mo_completeness, differential; rewrite Nat.eqb_refl; cbn [bind fst snd]; rewrite Hc; fold d; rewrite Ec; reflexivity|]. split; [congruence|]. split; [exact F|].
  intros i Hi. assert (at_ c i == wmean d w i) as Vi by (apply V; lia).
  assert (forall a b, (forall j, (j <= i)%nat -> a <= at_ d j <= b) -> a <= wmean d w i <= b) as B by (intros a b; apply wmean_bounds; [exact Pw|lia]).
  split; [|split].
  - rewrite Vi. apply B. intros j Hj. apply (fraction_bounds _ rows _ N (F j ltac:(lia))).
  - intros a b HB. rewrite Vi. apply B, HB.
  - intros M. rewrite Vi. apply (B (at_ d i) 1). intros j Hj. split; [apply M, Hj|apply (fraction_bounds _ rows _ N (F j ltac:(lia)))].
Qed.
Print Assumptions C143_cumulative.
Example C143_cumulative_case : exists c, mo_completeness ten {| c_threshold := 1; c_nbins := 20; c_min_hrange := 1; c_cumulative := true; c_hindex := 33 # 100 |}
  [[Some 2; None]; [Some 1; Some 0]; [None; Some 3]] 2 [0; 100] = Ok (c, [0; 100]) /\ at_ c 0 == 2 # 3 /\ 1 # 3 < at_ c 1 < 2 # 3.
Proof. eexists. repeat apply conj; [reflexivity|reflexivity|reflexivity|reflexivity]. Qed.
(** an object without a value counts as found when the threshold is zero or less, as its missing value is read as 0 *)
Theorem C143_masked_refuted : ~ (forall pow10 p rows h c i, c_cumulative p = false -> mo_completeness pow10 p rows (length h) h = Ok (c, h) -> (i < length h)%nat -> rows <> [] ->
  (forall r, In r rows -> nth i r None = None) -> at_ c i == 0).
Proof.
  intros C. specialize (C ten {| c_threshold := 0; c_nbins := 20; c_min_hrange := 1; c_cumulative := false; c_hindex := 33 # 100 |} [[None]] [20] _ O eq_refl eq_refl ltac:(cbn; lia) ltac:(discriminate)).
  assert (forall r : list (option Q), In r [[None]] -> nth 0 r None = None) as H by (intros r [<-|[]]; reflexivity). apply C in H. discriminate H.
Qed.
Print Assumptions C143_masked_refuted.
Theorem C143_masked_partial : forall pow10 p rows h c i, c_cumulative p = false -> 0 < c_threshold p -> mo_completeness pow10 p rows (length h) h = Ok (c, h) -> (i < length h)%nat -> rows <> [] ->
  fraction (fun r => exists v, nth i r None = Some v /\ c_threshold p <= v) rows (at_ c i).
Proof.
  intros pow10 p rows h c i H T E Hi N. unfold mo_completeness, differential in E. rewrite Nat.eqb_refl in E. cbn [bind] in E. rewrite H in E. injection E as <-.
  unfold completeness_cloned, at_. rewrite map_seq_nth by exact Hi. apply fraction_count; [exact N|]. intros r. rewrite qle_true. destruct (nth i r None) as [v|]; cbn [filled0].
  - split; [intros; exists v; split; [reflexivity|assumption]|intros (v' & E & V); injection E as <-; exact V].
  - split; [intros; lra|intros (v' & E & _); discriminate].
Qed.
Print Assumptions C143_masked_partial.

(** * C144 the index of the size distribution *)
(** the index given by the user is passed under a name the distribution does not know: it has no effect *)
Theorem C144_index_partial : forall pow10 p p' rows ncol h, c_threshold p = c_threshold p' -> c_nbins p = c_nbins p' -> c_min_hrange p = c_min_hrange p' -> c_cumulative p = c_cumulative p' ->
  mo_completeness pow10 p rows ncol h = mo_completeness pow10 p' rows ncol h.
Proof. intros pow10 [t n m c x] [t' n' m' c' x'] rows ncol h E1 E2 E3 E4. cbn in *. subst. reflexivity. Qed.
Print Assumptions C144_index_partial.
(** so the completeness is not the one integrated with that index *)
Theorem C144_index_refuted : ~ (forall pow10 p rows h d c, c_cumulative p = true -> mo_completeness pow10 p rows (length h) h = Ok (c, h) ->
  mo_completeness pow10 {| c_threshold := c_threshold p; c_nbins := c_nbins p; c_min_hrange := c_min_hrange p; c_cumulative := false; c_hindex := c_hindex p |} rows (length h) h = Ok (d, h) ->
  integrate_over_h (power_law_dndh pow10) [("hindex"%string, c_hindex p)] d h = Ok c).
Proof.
  intros C. specialize (C ten {| c_threshold := 1; c_nbins := 20; c_min_hrange := 1; c_cumulative := true; c_hindex := 1 |} [[Some 1; Some 0]] [0; 100] _ _ eq_refl eq_refl eq_refl). vm_compute in C. discriminate C.
Qed.
Print Assumptions C144_index_refuted.
