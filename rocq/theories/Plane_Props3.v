(** C331 structure function uncertainty. *)
From Coq Require Import String Reals ZArith List Bool Lia Lra Permutation Sorted.
From Verif Require Import Base Depth_Model Depth_Proofs Template_Model Template_Spec Template_Proofs Sky_Proofs Plane_Model Plane_Spec Plane_Props Plane_Props2.
From Verif Require Small_Model Small_Proofs Maps_Model Astrom_Model Astrom_Props Astrom_Proofs2 Crowd_Props3.
Import ListNotations.
Open Scope R_scope.

(** ** C331 *)
Lemma histogram_length : forall edges data, length (histogram edges data) = (length edges - 1)%nat.
Proof. induction edges as [|a [|b t] IH]; intros data; [reflexivity|reflexivity|]. change (histogram (a :: b :: t) data) with (length (filter (fun d => rleb a d && (if match t with [] => true | _ => false end then rleb d b else rltb d b)) data) :: histogram (b :: t) data). cbn [length] in *. rewrite IH. lia. Qed.

Lemma percentile_nonneg : forall l p, l <> [] -> 0 <= p <= 100 -> (forall x, In x l -> 0 <= x) -> 0 <= percentile l p.
Proof.
  intros l p N P H. destruct (percentile_is p l N P) as (s & i & f & a & b & PM & S & _ & F & Ha & Hb & ->).
  assert (A : 0 <= a) by (apply H; apply (Permutation_in _ (Permutation_sym PM)); exact (nth_error_In _ _ Ha)).
  destruct Hb as [Hb|[-> ->]]; [|lra]. assert (B : 0 <= b) by (apply H; apply (Permutation_in _ (Permutation_sym PM)); exact (nth_error_In _ _ Hb)). nra.
Qed.
Lemma mad_std_is : forall l, l <> [] -> exists m d, Percentile 50 l m /\ Percentile 50 (map (fun x => Rabs (x - m)) l) d /\ mad_std l = 1.482602218505602 * d /\ 0 <= d /\ m = percentile l 50.
Proof.
  intros l N. exists (percentile l 50), (percentile (map (fun x => Rabs (x - percentile l 50)) l) 50).
  assert (NM : map (fun x => Rabs (x - percentile l 50)) l <> []) by (intros Z; apply map_eq_nil in Z; contradiction).
  split; [apply percentile_is; [exact N|lra]|]. split; [apply percentile_is; [exact NM|lra]|]. split; [reflexivity|]. split; [|reflexivity].
  apply percentile_nonneg; [exact NM|lra|]. intros x X. apply in_map_iff in X. destruct X as (y & <- & _). apply Rabs_pos.
Qed.

Definition pair_root (n : nat) : R := sqrt (match n with O => 0.01 | S _ => INR n end).
Lemma pair_root_bounds : forall n, 1/10 <= pair_root n /\ (forall m, (n <= m)%nat -> pair_root n <= pair_root m).
Proof.
  intros n. assert (Z : sqrt 0.01 = 1/10) by (replace 0.01 with (1/10 * (1/10)) by lra; apply sqrt_square; lra).
  assert (ONE : forall k, 1 <= INR (S k)) by (intros k; rewrite S_INR; pose proof (pos_INR k); lra).
  split.
  - unfold pair_root. rewrite <- Z. apply sqrt_le_1_alt. destruct n as [|n]; [lra|]. specialize (ONE n). lra.
  - intros m L. apply sqrt_le_1_alt. destruct n as [|n], m as [|m]; try lra; [|lia|].
    + specialize (ONE m). lra.
    + apply le_INR. exact L.
Qed.

Lemma sf_value_bounds : forall counts n err, (0 < n)%nat -> length counts = n -> 0 <= mad_std err ->
  2 * percentile err 50 <= sf_value counts (repeat (1 / INR n) n) err <= 2 * (percentile err 50 + 10 * mad_std err).
Proof.
  intros counts n err N L S. assert (P : 0 < INR n) by (apply lt_0_INR; exact N).
  set (mu := percentile err 50). set (sd := mad_std err) in *.
  assert (G : forall cs k, length cs = k -> INR k * (2 * mu * (1 / INR n)) <= rsum (map (fun nw => 2 * (mu + sd / pair_root (fst nw)) * snd nw) (combine cs (repeat (1 / INR n) k))) <= INR k * (2 * (mu + 10 * sd) * (1 / INR n))).
  { induction cs as [|c cs IH]; intros [|k] E; try discriminate E; [cbn; lra|]. cbn [repeat combine map]. change (rsum (?a :: ?l)) with (a + rsum l). rewrite S_INR. cbn [fst snd].
    injection E as E. specialize (IH k E). destruct (pair_root_bounds c) as [B _].
    assert (Q : 0 <= sd / pair_root c <= 10 * sd).
    { split; [apply Rmult_le_pos; [exact S|left; apply Rinv_0_lt_compat; lra]|]. unfold Rdiv. rewrite (Rmult_comm 10). apply Rmult_le_compat_l; [exact S|].
      replace 10 with (/ (1/10)) by lra. apply Rinv_le_contravar; lra. }
    assert (W : 0 < 1 / INR n) by (apply Rdiv_lt_0_compat; lra). nra. }
  specialize (G counts n L). unfold sf_value. fold mu sd. unfold pair_root in G.
  replace (INR n * (2 * mu * (1 / INR n))) with (2 * mu) in G by (field; lra). replace (INR n * (2 * (mu + 10 * sd) * (1 / INR n))) with (2 * (mu + 10 * sd)) in G by (field; lra). exact G.
Qed.

(** which visits count: signal to noise of the (extincted) magnitude above the cut, i.e. [5 * 10^(0.4 (m5 - m)) > cut] *)
Definition Bright (cut m : R) (v : pvisit) : Prop := cut < 5 * Rpower 10 (2/5 * (p_m5 v - m)).
Definition Squared (m : R) (v : pvisit) (e : R) : Prop := e = Rsqr (25/10 * (ln (1 + 1 / (5 * Rpower 10 (2/5 * (p_m5 v - m)))) / ln 10)).

Lemma snr_is : forall m v, Astrom_Model.m52snr (Some (1/25)) m (p_m5 v) = 5 * Rpower 10 (2/5 * (p_m5 v - m)).
Proof. intros m v. rewrite Astrom_Props.C155_default. unfold Astrom_Model.m52snr. f_equal. f_equal. ring. Qed.

(** the value lies between twice the median of the squared photometric errors and twice the median plus ten of their robust deviations *)
Theorem C331_bounds : forall bins all_gaps cut mag vs out,
  sf_run None bins all_gaps cut mag None vs = Ok out -> (2 <= length bins)%nat ->
  (out = None /\ exists n, CountP (Bright cut mag) vs n /\ (n < 2)%nat) \/
  (exists x good errs m d, out = Some x /\ (2 <= length good)%nat /\ (forall v, In v good <-> In v vs /\ Bright cut mag v) /\ Forall2 (Squared mag) good errs /\
     Percentile 50 errs m /\ Percentile 50 (map (fun e => Rabs (e - m)) errs) d /\
     2 * m <= x <= 2 * (m + 10 * (1.482602218505602 * d)) /\ 0 < x).
Proof.
  intros bins ag cut mag vs out H LB. unfold sf_run in H. cbn [bind] in H. cbv zeta in H.
  set (good := filter (fun v => rltb cut (Astrom_Model.m52snr (Some (1/25)) mag (p_m5 v))) vs) in *.
  assert (BR : forall v, rltb cut (Astrom_Model.m52snr (Some (1/25)) mag (p_m5 v)) = true <-> Bright cut mag v).
  { intros v. rewrite snr_is. unfold Bright. split; [apply rltb_true|]. intros B. destruct (rltb _ _) eqn:E; [reflexivity|apply rltb_false in E; lra]. }
  destruct (length good <? 2)%nat eqn:Q.
  - left. injection H as <-. split; [reflexivity|]. apply Nat.ltb_lt in Q. exists (length good). split; [|exact Q]. unfold good. clear -BR.
    induction vs as [|v vs IH]; [constructor|]. cbn [filter]. specialize (BR v). destruct (rltb _ _); [apply CP_in; [apply BR; reflexivity|exact IH]|apply CP_out; [intros B; apply BR in B; discriminate B|exact IH]].
  - right. apply Nat.ltb_ge in Q. injection H as <-. set (errs := map (fun v => mag_err (Astrom_Model.m52snr (Some (1/25)) mag (p_m5 v)) * mag_err (Astrom_Model.m52snr (Some (1/25)) mag (p_m5 v))) good).
    assert (NE : errs <> []) by (intros Z; apply map_eq_nil in Z; rewrite Z in Q; cbn in Q; lia).
    destruct (mad_std_is errs NE) as (m & d & M & D & MS & D0 & ME).
    assert (PE : forall e, In e errs -> 0 < e).
    { intros e I. apply in_map_iff in I. destruct I as (v & <- & _). apply Rmult_lt_0_compat;
      (unfold mag_err; apply Rmult_lt_0_compat; [lra|]; unfold log10; apply Rdiv_lt_0_compat; [|apply ln10_pos]; rewrite <- ln_1; apply ln_increasing; [lra|];
       pose proof (Astrom_Proofs2.m52snr_pos mag (p_m5 v)); assert (0 < 1 / Astrom_Model.m52snr (Some (1/25)) mag (p_m5 v)) by (apply Rdiv_lt_0_compat; lra); lra). }
    assert (MP : 0 < m).
    { destruct M as (s & i & f & a & b & PM & S & _ & F & Ha & Hb & ->).
      assert (A : 0 < a) by (apply PE; apply (Permutation_in _ (Permutation_sym PM)); exact (nth_error_In _ _ Ha)).
      destruct Hb as [Hb|[-> ->]]; [|lra]. assert (B : 0 < b) by (apply PE; apply (Permutation_in _ (Permutation_sym PM)); exact (nth_error_In _ _ Hb)). nra. }
    exists (sf_value (histogram bins (if ag then all_pairs (Small_Model.rsort (map p_time good)) else diffs (Small_Model.rsort (map p_time good)))) (repeat (1 / INR (length bins - 1)) (length bins - 1)) errs), good, errs, m, d.
    assert (B := sf_value_bounds (histogram bins (if ag then all_pairs (Small_Model.rsort (map p_time good)) else diffs (Small_Model.rsort (map p_time good)))) (length bins - 1) errs ltac:(lia) (histogram_length _ _) ltac:(rewrite MS; lra)).
    rewrite <- ME, MS in B. split; [reflexivity|]. split; [exact Q|]. split; [intros v; unfold good; rewrite filter_In, BR; reflexivity|]. split.
    { unfold errs. clear. induction good as [|v t IH]; constructor; [|exact IH]. unfold Squared. rewrite <- snr_is. reflexivity. }
    split; [exact M|]. split; [exact D|]. split; [exact B|lra].
Qed.
Print Assumptions C331_bounds.

Lemma filter_none {A} (q : A -> bool) l : (forall x, In x l -> q x = false) -> filter q l = [].
Proof. induction l as [|x l IH]; intros H; [reflexivity|]. cbn. rewrite (H x (or_introl eq_refl)). apply IH. intros y Y. apply H. right. exact Y. Qed.
Lemma filter_all {A} (q : A -> bool) l : (forall x, In x l -> q x = true) -> filter q l = l.
Proof. induction l as [|x l IH]; intros H; [reflexivity|]. cbn. rewrite (H x (or_introl eq_refl)). f_equal. apply IH. intros y Y. apply H. right. exact Y. Qed.
Lemma sorted_split : forall (R' : R -> R -> Prop) l m, StronglySorted R' (l ++ m) -> forall x y, In x l -> In y m -> R' x y.
Proof.
  intros R'. induction l as [|a l IH]; intros m H x y X Y; [destruct X|]. cbn in H. apply StronglySorted_inv in H. destruct H as [H F]. destruct X as [->|X]; [|exact (IH m H x y X Y)].
  rewrite Forall_forall in F. apply F. apply in_app_iff. right. exact Y.
Qed.

(** with the gaps of all pairs every pair of different times counts once *)
Theorem C331_pairs : forall ts, StronglySorted Rlt ts ->
  (2 * length (all_pairs ts) = length ts * (length ts - 1))%nat /\
  forall d, In d (all_pairs ts) <-> 0 < d /\ exists a b, In a ts /\ In b ts /\ d = b - a.
Proof.
  intros ts S. split.
  - unfold all_pairs.
    assert (ROW : forall full l, length (filter (fun d => rltb 0 d) (flat_map (fun a => map (fun b => b - a) full) l)) = fold_right Nat.add 0%nat (map (fun a => length (filter (fun b => rltb 0 (b - a)) full)) l)).
    { intros full. induction l as [|a l IH]; [reflexivity|]. cbn [flat_map map fold_right]. rewrite filter_app, app_length, IH. f_equal. clear. induction full as [|b t IH]; [reflexivity|]. cbn [map filter]. destruct (rltb 0 (b - a)); cbn [length]; rewrite IH; reflexivity. }
    rewrite ROW.
    assert (K : forall pre l, StronglySorted Rlt (pre ++ l) -> (2 * fold_right Nat.add 0%nat (map (fun a => length (filter (fun b => rltb 0 (b - a)) (pre ++ l))) l) = length l * (length l - 1))%nat).
    { intros pre l. revert pre. induction l as [|a l IH]; intros pre H; [reflexivity|]. cbn [map fold_right].
      assert (SP : pre ++ a :: l = (pre ++ [a]) ++ l) by (rewrite <- app_assoc; reflexivity). rewrite SP in *. specialize (IH (pre ++ [a]) H).
      assert (C : length (filter (fun b => rltb 0 (b - a)) ((pre ++ [a]) ++ l)) = length l).
      { rewrite filter_app. assert (L1 : filter (fun b => rltb 0 (b - a)) (pre ++ [a]) = []).
        { apply filter_none. intros x X. destruct (rltb 0 (x - a)) eqn:E; [|reflexivity]. apply rltb_true in E. exfalso. apply in_app_iff in X. destruct X as [X|[->|[]]]; [|lra].
          rewrite <- app_assoc in H. apply sorted_split with (x := x) (y := a) in H; [lra|exact X|left; reflexivity]. }
        assert (L2 : filter (fun b => rltb 0 (b - a)) l = l).
        { apply filter_all. intros x X. destruct (rltb 0 (x - a)) eqn:E; [reflexivity|]. apply rltb_false in E. exfalso.
          apply sorted_split with (x := a) (y := x) in H; [lra|apply in_app_iff; right; left; reflexivity|exact X]. }
        rewrite L1, L2. reflexivity. }
      rewrite C. cbn [length]. destruct l as [|b l]; [cbn in IH |- *; lia|]. cbn [length] in IH |- *. cbn [length]. nia. }
    apply (K [] ts S).
  - intros d. unfold all_pairs. rewrite filter_In, in_flat_map. split.
    + intros [(a & A & B) P]. apply rltb_true in P. apply in_map_iff in B. destruct B as (b & <- & B). split; [exact P|]. exists a, b. repeat split; assumption.
    + intros [P (a & b & A & B & ->)]. split; [exists a; split; [exact A|]; apply in_map_iff; exists b; split; [reflexivity|exact B]|]. destruct (rltb 0 (b - a)) eqn:E; [reflexivity|apply rltb_false in E; lra].
Qed.
Print Assumptions C331_pairs.

(** the order of the visits does not matter, without dust or in a single band *)
Theorem C331_order_partial : forall weight bins all_gaps cut mag dust vs ws, Permutation vs ws ->
  (dust = None \/ exists f, forall v, In v vs -> p_band v = f) ->
  sf_run weight bins all_gaps cut mag dust vs = sf_run weight bins all_gaps cut mag dust ws.
Proof.
  intros weight bins ag cut mag dust vs ws P D. unfold sf_run.
  assert (M : match dust with None => Ok mag | Some (ax1, ebv) => match vs with [] => Err IndexError | v :: _ => match ax1 (p_band v) with Some a => Ok (mag + a * ebv) | None => Err KeyError end end end
            = match dust with None => Ok mag | Some (ax1, ebv) => match ws with [] => Err IndexError | v :: _ => match ax1 (p_band v) with Some a => Ok (mag + a * ebv) | None => Err KeyError end end end).
  { destruct dust as [[ax1 ebv]|]; [|reflexivity]. destruct D as [D|(f & D)]; [discriminate D|].
    destruct vs as [|v vs], ws as [|w ws]; [reflexivity|apply Permutation_nil in P; discriminate P|apply Permutation_sym, Permutation_nil in P; discriminate P|].
    rewrite (D v (or_introl eq_refl)), (D w); [reflexivity|]. apply (Permutation_in _ (Permutation_sym P)). left. reflexivity. }
  rewrite M. clear M. match goal with |- bind ?a _ = bind ?a _ => destruct a as [m|] end; [|reflexivity]. cbn [bind]. cbv zeta.
  set (q := fun v => rltb cut (Astrom_Model.m52snr (Some (1/25)) m (p_m5 v))).
  assert (F : Permutation (filter q vs) (filter q ws)) by (apply Astrom_Props.filter_perm; exact P).
  rewrite (Permutation_length F). rewrite (Small_Proofs.rsort_perm_eq _ _ (Permutation_map p_time F)).
  destruct (_ <? 2)%nat; [reflexivity|]. destruct weight; [reflexivity|]. do 2 f_equal.
  set (e := fun v => mag_err (Astrom_Model.m52snr (Some (1/25)) m (p_m5 v)) * mag_err (Astrom_Model.m52snr (Some (1/25)) m (p_m5 v))).
  assert (G : Permutation (map e (filter q vs)) (map e (filter q ws))) by (apply Permutation_map; exact F).
  unfold sf_value, mad_std. rewrite (percentile_perm _ _ 50 G).
  assert (G' : Permutation (map (fun x => Rabs (x - percentile (map e (filter q ws)) 50)) (map e (filter q vs))) (map (fun x => Rabs (x - percentile (map e (filter q ws)) 50)) (map e (filter q ws)))) by (apply Permutation_map; exact G).
  rewrite (percentile_perm _ _ 50 G'). reflexivity.
Qed.
Print Assumptions C331_order_partial.

(** with visits in several bands the dust of the first one is used for all: the order matters *)
Theorem C331_order_refuted : ~ (forall weight bins all_gaps cut mag dust vs ws, Permutation vs ws ->
  sf_run weight bins all_gaps cut mag dust vs = sf_run weight bins all_gaps cut mag dust ws).
Proof.
  intros H. set (ax1 := fun f : string => Some (if String.eqb f "u" then 5 else 0)).
  specialize (H None [0; 1] false 4 20 (Some (ax1, 1)) [Build_pvisit "u" 20 0 30; Build_pvisit "y" 20 1 30] [Build_pvisit "y" 20 1 30; Build_pvisit "u" 20 0 30] (perm_swap _ _ _)).
  unfold sf_run in H. cbn [p_band] in H. unfold ax1 in H. cbn in H. replace (20 + 5 * 1) with 25 in H by lra. replace (20 + 0 * 1) with 20 in H by lra.
  change (Astrom_Model.snr_gamma (1/25) (Rpower 10 (2/5 * (25 - 20)))) with (Astrom_Model.m52snr (Some (1/25)) 25 20) in H.
  change (Astrom_Model.snr_gamma (1/25) (Rpower 10 (2/5 * (20 - 20)))) with (Astrom_Model.m52snr (Some (1/25)) 20 20) in H.
  assert (A : rltb 4 (Astrom_Model.m52snr (Some (1/25)) 25 20) = false).
  { destruct (rltb 4 (Astrom_Model.m52snr (Some (1/25)) 25 20)) eqn:E; [|reflexivity]. apply rltb_true in E. rewrite Astrom_Props.C155_default in E. unfold Astrom_Model.m52snr in E.
    replace (- (2/5) * (25 - 20)) with (- INR 2) in E by (cbn; lra). rewrite Rpower_Ropp, Rpower_pow in E by lra. cbn in E. lra. }
  assert (B : rltb 4 (Astrom_Model.m52snr (Some (1/25)) 20 20) = true).
  { destruct (rltb 4 (Astrom_Model.m52snr (Some (1/25)) 20 20)) eqn:E; [reflexivity|]. apply rltb_false in E. rewrite Astrom_Props.C155_depth in E. lra. }
  rewrite A, B in H. cbn in H. discriminate H.
Qed.
Print Assumptions C331_order_refuted.

(** counting the gaps of all pairs instead of neighbours never makes the value larger *)
Lemma count_le : forall edges d1 d2, (forall q : R -> bool, (length (filter q d1) <= length (filter q d2))%nat) -> Forall2 le (histogram edges d1) (histogram edges d2).
Proof. intros edges d1 d2 H. induction edges as [|a [|b t] IH]; [constructor|constructor|]. constructor; [apply H|exact IH]. Qed.
Lemma diffs_pairs : forall ts, StronglySorted Rlt ts -> forall q, (length (filter q (diffs ts)) <= length (filter q (all_pairs ts)))%nat.
Proof.
  intros ts S q. unfold all_pairs.
  assert (K : forall l pre, StronglySorted Rlt (pre ++ l) -> (length (filter q (diffs l)) <= length (filter q (filter (fun d => rltb 0 d) (flat_map (fun a => map (fun b => (b - a)%R) (pre ++ l)) l))))%nat).
  { induction l as [|a [|b t] IH]; intros pre H; [cbn; lia|cbn; lia|].
    assert (SP : pre ++ a :: b :: t = (pre ++ [a]) ++ b :: t) by (rewrite <- app_assoc; reflexivity). rewrite SP in *. specialize (IH (pre ++ [a]) H).
    change (diffs (a :: b :: t)) with ((b - a) :: diffs (b :: t)). set (full := (pre ++ [a]) ++ b :: t) in *.
    change (flat_map (fun a0 => map (fun b0 => b0 - a0) full) (a :: b :: t)) with (map (fun b0 => b0 - a) full ++ flat_map (fun a0 => map (fun b0 => b0 - a0) full) (b :: t)).
    rewrite !filter_app, app_length. cbn [filter]. destruct (q (b - a)) eqn:Q; [|lia]. cbn [length].
    assert (ROW : (1 <= length (filter q (filter (fun d => rltb 0 d) (map (fun b0 => (b0 - a)%R) full))))%nat); [|lia].
    assert (I : In (b - a) (filter q (filter (fun d => rltb 0 d) (map (fun b0 => b0 - a) full)))).
    { apply filter_In. split; [|exact Q]. apply filter_In. split; [apply in_map_iff; exists b; split; [reflexivity|unfold full; apply in_app_iff; right; left; reflexivity]|].
      destruct (rltb 0 (b - a)) eqn:E; [reflexivity|]. apply rltb_false in E. assert (a < b); [|lra]. apply (sorted_split Rlt (pre ++ [a]) (b :: t) H); [apply in_app_iff; right; left; reflexivity|left; reflexivity]. }
    destruct (filter q (filter (fun d => rltb 0 d) (map (fun b0 => b0 - a) full))); [destruct I|cbn; lia]. }
  exact (K ts [] S).
Qed.

Theorem C331_all_gaps : forall bins cut mag vs x y,
  sf_run None bins true cut mag None vs = Ok (Some x) -> sf_run None bins false cut mag None vs = Ok (Some y) ->
  NoDup (map p_time vs) -> x <= y.
Proof.
  intros bins cut mag vs x y HX HY ND. unfold sf_run in HX, HY. cbn [bind] in HX, HY. cbv zeta in HX, HY.
  set (good := filter (fun v => rltb cut (Astrom_Model.m52snr (Some (1/25)) mag (p_m5 v))) vs) in *.
  destruct (length good <? 2)%nat eqn:Q; [discriminate HX|]. apply Nat.ltb_ge in Q.
  set (errs := map (fun v => mag_err (Astrom_Model.m52snr (Some (1/25)) mag (p_m5 v)) * mag_err (Astrom_Model.m52snr (Some (1/25)) mag (p_m5 v))) good) in *.
  injection HX as <-. injection HY as <-.
  assert (NG : NoDup (map p_time good)).
  { unfold good. clear -ND. induction vs as [|v vs IH]; [constructor|]. cbn [map] in ND. inversion ND as [|? ? N1 N2]; subst. cbn [filter]. destruct (rltb _ _); [|apply IH; exact N2].
    cbn [map]. constructor; [|apply IH; exact N2]. intros I. apply N1. apply in_map_iff in I. destruct I as (w & E & I). apply filter_In in I. rewrite <- E. apply in_map. apply I. }
  assert (S : StronglySorted Rlt (Small_Model.rsort (map p_time good))).
  { assert (N' : NoDup (Small_Model.rsort (map p_time good))) by (apply (Permutation_NoDup (Permutation_sym (Small_Proofs.rsort_perm _))); exact NG).
    pose proof (Small_Proofs.rsort_sorted (map p_time good)) as SL. induction SL as [|a l SL IH F]; [constructor|]. inversion N' as [|? ? N1 N2]; subst. constructor; [apply IH; exact N2|].
    apply Forall_forall. intros z Z. rewrite Forall_forall in F. specialize (F z Z). destruct F as [F|F]; [exact F|]. subst z. contradiction. }
  assert (NE : errs <> []) by (intros Z; apply map_eq_nil in Z; rewrite Z in Q; cbn in Q; lia).
  destruct (mad_std_is errs NE) as (m & d & _ & _ & MS & D0 & _).
  assert (C := count_le bins _ _ (diffs_pairs _ S)). revert C. generalize (histogram bins (diffs (Small_Model.rsort (map p_time good)))) (histogram bins (all_pairs (Small_Model.rsort (map p_time good)))).
  intros c1 c2 C. unfold sf_value. 
  assert (W : 0 <= 1 / INR (length bins - 1)).
  { destruct (length bins - 1)%nat as [|k]; [cbn; unfold Rdiv; rewrite Rinv_0 || idtac; try lra|left; apply Rdiv_lt_0_compat; [lra|apply lt_0_INR; lia]]. }
  generalize (length bins - 1)%nat at 2 4. revert W. generalize (1 / INR (length bins - 1)). intros w W n. revert n.
  induction C as [|a b c1 c2 L C IH]; intros [|n]; try (cbn; lra). cbn [repeat combine map fst snd]. change (rsum (?a :: ?l)) with (a + rsum l). specialize (IH n).
  destruct (pair_root_bounds a) as [A0 AL]. specialize (AL b L). unfold pair_root in A0, AL.
  assert (I : / sqrt (match b with O => 0.01 | S _ => INR b end) <= / sqrt (match a with O => 0.01 | S _ => INR a end)) by (apply Rinv_le_contravar; lra).
  assert (0 <= mad_std errs) by (rewrite MS; lra).
  apply Rplus_le_compat; [|exact IH]. apply Rmult_le_compat_r; [exact W|]. apply Rmult_le_compat_l; [lra|]. apply Rplus_le_compat_l. unfold Rdiv. apply Rmult_le_compat_l; [assumption|exact I].
Qed.
Print Assumptions C331_all_gaps.

(** weights given by the user are lost: with them the metric fails wherever there are two bright visits *)
Theorem C331_weight_refuted : ~ (forall weight bins all_gaps cut mag vs, length weight = (length bins - 1)%nat -> exists out, sf_run (Some weight) bins all_gaps cut mag None vs = Ok out).
Proof.
  intros H. destruct (H [1] [0; 1] false 4 20 [Build_pvisit "u" 20 0 30; Build_pvisit "u" 20 1 30] eq_refl) as [out E]. unfold sf_run in E. cbn [bind] in E. cbv zeta in E.
  assert (B : rltb 4 (Astrom_Model.m52snr (Some (1/25)) 20 20) = true).
  { destruct (rltb 4 (Astrom_Model.m52snr (Some (1/25)) 20 20)) eqn:Q; [reflexivity|]. apply rltb_false in Q. rewrite Astrom_Props.C155_depth in Q. lra. }
  cbn [filter p_m5] in E. rewrite B in E. cbn in E. discriminate E.
Qed.
Print Assumptions C331_weight_refuted.

Example C331_case : exists x, sf_run None [0; 1; 2] true 4 20 None [Build_pvisit "u" 20 0 30; Build_pvisit "u" 20 1 30] = Ok (Some x) /\ 0 < x.
Proof.
  assert (B : rltb 4 (Astrom_Model.m52snr (Some (1/25)) 20 20) = true).
  { destruct (rltb 4 (Astrom_Model.m52snr (Some (1/25)) 20 20)) eqn:Q; [reflexivity|]. apply rltb_false in Q. rewrite Astrom_Props.C155_depth in Q. lra. }
  destruct (sf_run None [0; 1; 2] true 4 20 None [Build_pvisit "u" 20 0 30; Build_pvisit "u" 20 1 30]) as [[x|]|e] eqn:E;
    [|unfold sf_run in E; cbn [bind] in E; cbv zeta in E; cbn [filter p_m5] in E; rewrite B in E; discriminate E..].
  exists x. split; [reflexivity|]. destruct (C331_bounds _ _ _ _ _ _ E) as [[D _]|(y & good & errs & m & d & Y & _ & _ & _ & _ & _ & _ & P)]; [cbn; lia|discriminate D|]. injection Y as ->. exact P.
Qed.
