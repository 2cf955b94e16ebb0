(** C329 gaps between visits; C330 gaps between seasons. *)
From Coq Require Import String Reals ZArith List Bool Lia Lra Permutation Sorted.
From Verif Require Import Base Depth_Model Depth_Proofs Template_Model Sky_Proofs Plane_Model Plane_Spec Plane_Props.
From Verif Require Small_Model Small_Proofs Maps_Model Astrom_Props.
Import ListNotations.
Open Scope R_scope.

(** ** C329 *)
(** a gap of at most the timescale counts fully, longer ones less and less *)
Theorem C329_decay : forall tau gap gap', 0 < tau ->
  0 < decay tau gap <= 1 /\ (decay tau gap = 1 <-> gap <= tau) /\ (gap <= gap' -> decay tau gap' <= decay tau gap) /\
  (gap = 2 * tau -> decay tau gap = exp (-1)).
Proof.
  intros tau gap gap' T.
  assert (M : forall g, tau < g -> decay tau g = exp (1 - g / tau) /\ 1 - g / tau < 0).
  { intros g G. unfold decay. destruct (rleb g tau) eqn:E; [apply rleb_true in E; lra|]. split; [f_equal; field; lra|].
    assert (1 < g / tau); [|lra]. apply Rmult_lt_reg_r with tau; [exact T|]. replace (g / tau * tau) with g by (field; lra). lra. }
  assert (N : forall g, g <= tau -> decay tau g = 1).
  { intros g G. unfold decay. destruct (rleb g tau) eqn:E; [reflexivity|apply rleb_false in E; lra]. }
  assert (L : forall g, tau < g -> 0 < decay tau g < 1).
  { intros g G. destruct (M g G) as [-> Q]. split; [apply exp_pos|]. apply exp_increasing in Q. rewrite exp_0 in Q. exact Q. }
  split; [|split; [|split]].
  - destruct (Rle_lt_dec gap tau) as [G|G]; [rewrite (N gap G); lra|]. specialize (L gap G). lra.
  - split; intros H.
    + destruct (Rle_lt_dec gap tau) as [G|G]; [exact G|]. specialize (L gap G). lra.
    + apply N. exact H.
  - intros H. destruct (Rle_lt_dec gap tau) as [G|G].
    + rewrite (N gap G). destruct (Rle_lt_dec gap' tau) as [G'|G']; [rewrite (N gap' G'); lra|]. specialize (L gap' G'). lra.
    + destruct (M gap G) as [-> _]. destruct (M gap' ltac:(lra)) as [-> _].
      assert (Q : gap / tau <= gap' / tau) by (apply Rmult_le_compat_r; [left; apply Rinv_0_lt_compat; exact T|exact H]).
      destruct Q as [Q|Q]; [left; apply exp_increasing; lra|rewrite Q; lra].
  - intros ->. destruct (M (2 * tau) ltac:(lra)) as [-> _]. f_equal. field. lra.
Qed.
Print Assumptions C329_decay.

(** a longer timescale is served at least as well *)
Lemma decay_tau : forall t1 t2 gap, 0 < t1 -> t1 <= t2 -> decay t1 gap <= decay t2 gap.
Proof.
  intros t1 t2 gap T L. destruct (Rle_lt_dec gap t2) as [G|G].
  - destruct (C329_decay t2 gap gap ltac:(lra)) as (_ & E & _). rewrite (proj2 E G). destruct (C329_decay t1 gap gap T) as ([_ B] & _). exact B.
  - unfold decay. destruct (rleb gap t1) eqn:E1; [apply rleb_true in E1; lra|]. destruct (rleb gap t2) eqn:E2; [apply rleb_true in E2; lra|].
    assert (Q : - (1 / t1) * (gap - t1) <= - (1 / t2) * (gap - t2)).
    { replace (- (1 / t1) * (gap - t1)) with (1 - gap * / t1) by (field; lra). replace (- (1 / t2) * (gap - t2)) with (1 - gap * / t2) by (field; lra).
      assert (/ t2 <= / t1) by (apply Rinv_le_contravar; assumption). nra. }
    destruct Q as [Q|Q]; [left; apply exp_increasing; exact Q|rewrite Q; lra].
Qed.

Lemma diffs_length : forall l, length (diffs l) = (length l - 1)%nat.
Proof. induction l as [|a [|b t] IH]; [reflexivity|reflexivity|]. change (diffs (a :: b :: t)) with ((b - a) :: diffs (b :: t)). cbn [length] in *. rewrite IH. lia. Qed.
Lemma diffs_in : forall l d, In d (diffs l) <-> exists a b, Neighbours l a b /\ d = b - a.
Proof.
  induction l as [|x [|y t] IH]; intros d.
  - cbn. split; [intros []|]. intros (a & b & (k & K & _) & _). destruct k; discriminate K.
  - cbn. split; [intros []|]. intros (a & b & (k & K & K') & _). destruct k; discriminate K'.
  - change (diffs (x :: y :: t)) with ((y - x) :: diffs (y :: t)). split.
    + intros [<-|I]; [exists x, y; split; [exists 0%nat; split; reflexivity|reflexivity]|].
      apply IH in I. destruct I as (a & b & (k & K & K') & E). exists a, b. split; [exists (S k); split; assumption|exact E].
    + intros (a & b & (k & K & K') & E). destruct k as [|k]; [cbn in K, K'; injection K as <-; injection K' as <-; left; symmetry; exact E|].
      right. apply IH. exists a, b. split; [exists k; split; assumption|exact E].
Qed.

Lemma mean_average : forall l, l <> [] -> Average l (mean l).
Proof.
  intros l N. split; [exact N|]. unfold mean. assert (0 < INR (length l)) by (apply lt_0_INR; destruct l; [contradiction|cbn; lia]).
  unfold Rdiv. rewrite Rmult_assoc, Rinv_l by lra. rewrite Rmult_1_r. reflexivity.
Qed.
Lemma average_unique : forall l m m', Average l m -> Average l m' -> m = m'.
Proof.
  intros l m m' [N A] [_ B]. assert (0 < INR (length l)) by (apply lt_0_INR; destruct l; [contradiction|cbn; lia]).
  apply Rmult_eq_reg_r with (INR (length l)); lra.
Qed.
Lemma mean_bounds : forall l a b, l <> [] -> (forall x, In x l -> a <= x <= b) -> a <= mean l <= b.
Proof.
  intros l a b N B. destruct (mean_average l N) as [_ A]. assert (P : 0 < INR (length l)) by (apply lt_0_INR; destruct l; [contradiction|cbn; lia]).
  assert (S : a * INR (length l) <= fold_right Rplus 0 l <= b * INR (length l)).
  { clear N A P. induction l as [|x t IH]; [cbn; lra|]. cbn [fold_right length]. rewrite S_INR. specialize (IH (fun y Y => B y (or_intror Y))). specialize (B x (or_introl eq_refl)). lra. }
  split; apply Rmult_le_reg_r with (INR (length l)); lra.
Qed.
Lemma mean_le : forall {A} (f g : A -> R) l, l <> [] -> (forall x, In x l -> f x <= g x) -> mean (map f l) <= mean (map g l).
Proof.
  intros A f g l N H. unfold mean. rewrite !map_length. assert (P : 0 < INR (length l)) by (apply lt_0_INR; destruct l; [contradiction|cbn; lia]).
  apply Rmult_le_compat_r; [left; apply Rinv_0_lt_compat; exact P|]. clear N P. induction l as [|x t IH]; [cbn; lra|]. cbn [map].
  change (rsum (?a :: ?l)) with (a + rsum l). specialize (IH (fun y Y => H y (or_intror Y))). specialize (H x (or_introl eq_refl)). lra.
Qed.
Lemma mean_one : forall l, l <> [] -> (forall x, In x l -> x <= 1) -> (mean l = 1 <-> forall x, In x l -> x = 1).
Proof.
  intros l N U. destruct (mean_average l N) as [_ A]. split.
  - intros M x I. rewrite M in A. clear N M.
    assert (K : fold_right Rplus 0 l <= INR (length l) /\ (fold_right Rplus 0 l = INR (length l) -> x = 1)); [|apply K; lra].
    clear A. induction l as [|y t IH]; [destruct I|]. cbn [fold_right length]. rewrite S_INR.
    assert (T : fold_right Rplus 0 t <= INR (length t)).
    { assert (U' : forall z, In z t -> z <= 1) by (intros z Z; apply U; right; exact Z). clear -U'. induction t as [|z t IHt]; [cbn; lra|]. cbn [fold_right length]. rewrite S_INR.
      specialize (IHt (fun w W => U' w (or_intror W))). specialize (U' z (or_introl eq_refl)). lra. }
    pose proof (U y (or_introl eq_refl)) as Y. split; [lra|]. intros E. destruct I as [->|I]; [lra|].
    destruct (IH (fun z Z => U z (or_intror Z)) I) as [_ Q]. apply Q. lra.
  - intros H. destruct (mean_bounds l 1 1 N); [intros x I; rewrite (H x I); lra|]. lra.
Qed.

(** the value of a timescale is the average, over the gaps between successive visits that are deep enough, of how well each serves;
    the order in which the visits are stored does not matter *)
Definition Times (mag_limit : R) (vs : list pvisit) (ts : list R) : Prop :=
  Permutation ts (map p_time (filter (fun v => if Rle_dec mag_limit (p_m5 v) then true else false) vs)) /\ StronglySorted Rle ts.

Lemma filter_rle : forall m vs, filter (fun v => if Rle_dec m (p_m5 v) then true else false) vs = filter (fun v => rleb m (p_m5 v)) vs.
Proof.
  intros m vs. apply filter_ext. intros v. destruct (Rle_dec m (p_m5 v)) as [L|L]; destruct (rleb m (p_m5 v)) eqn:E; try reflexivity.
  - apply rleb_false in E. lra.
  - apply rleb_true in E. lra.
Qed.

Theorem C329_intervals : forall science_map mag_limit tau_obs point vs ts p,
  dget String.eqb point (Maps_Model.gp_key "sum" science_map) = Some p ->
  (if String.eqb science_map "galactic_plane" then 0.4 else if String.eqb science_map "combined_map" then 0.001 else 0) < p ->
  Times mag_limit vs ts -> (forall tau, In tau tau_obs -> 0 < tau) ->
  ((length ts < 2)%nat -> intervals_run science_map mag_limit tau_obs point vs = Ok None) /\
  ((2 <= length ts)%nat -> exists out, intervals_run science_map mag_limit tau_obs point vs = Ok (Some out) /\
     map fst out = tau_obs /\
     forall k tau x, nth_error out k = Some (tau, x) -> 
       0 < x <= 1 /\ (x = 1 <-> forall a b, Neighbours ts a b -> b - a <= tau) /\
       Average (map (decay tau) (diffs ts)) x).
Proof.
  intros sm ml taus point vs ts p P L [PT ST] TP.
  assert (TS : ts = Small_Model.rsort (map p_time (filter (fun v => rleb ml (p_m5 v)) vs))).
  { rewrite <- filter_rle. apply Small_Proofs.sorted_unique; [exact ST|apply Small_Proofs.rsort_sorted|]. rewrite Small_Proofs.rsort_perm. exact PT. }
  assert (LEN : length (map p_time (filter (fun v => rleb ml (p_m5 v)) vs)) = length ts) by (rewrite <- filter_rle; symmetry; apply Permutation_length; exact PT).
  unfold intervals_run. apply key_ok in P. rewrite P. cbn [bind].
  destruct (rleb p (priority_threshold sm)) eqn:E; [apply rleb_true in E; unfold priority_threshold in E; lra|]. cbv zeta. rewrite LEN, <- TS.
  split; intros N.
  - destruct (length ts <? 2)%nat eqn:Q; [reflexivity|]. apply Nat.ltb_ge in Q. lia.
  - destruct (length ts <? 2)%nat eqn:Q; [apply Nat.ltb_lt in Q; lia|]. eexists. split; [reflexivity|]. split.
    + rewrite map_map. cbn. apply map_id.
    + intros k tau x K. apply nth_error_In in K. apply in_map_iff in K. destruct K as (t & T & I). injection T as -> <-. specialize (TP tau I).
      assert (NE : diffs ts <> []) by (intros Z; pose proof (diffs_length ts) as DL; rewrite Z in DL; cbn in DL; lia).
      assert (NM : map (decay tau) (diffs ts) <> []) by (intros Z; apply map_eq_nil in Z; contradiction).
      assert (U : forall y, In y (map (decay tau) (diffs ts)) -> 0 < y <= 1).
      { intros y Y. apply in_map_iff in Y. destruct Y as (g & <- & _). destruct (C329_decay tau g g TP) as (B & _). exact B. }
      split; [|split; [|apply mean_average; exact NM]].
      * split; [|apply mean_bounds with (a := 0); [exact NM|intros y Y; specialize (U y Y); lra]].
        unfold mean. apply Rdiv_lt_0_compat; [|apply lt_0_INR; destruct (map (decay tau) (diffs ts)); [contradiction|cbn; lia]].
        clear NE. destruct (map (decay tau) (diffs ts)) as [|y t]; [contradiction|]. change (rsum (y :: t)) with (y + rsum t).
        assert (0 <= rsum t).
        { assert (U' : forall z, In z t -> 0 < z) by (intros z Z; apply U; right; exact Z). clear -U'. induction t as [|z t IH]; [cbn; lra|]. change (rsum (z :: t)) with (z + rsum t).
          specialize (IH (fun w W => U' w (or_intror W))). specialize (U' z (or_introl eq_refl)). lra. }
        specialize (U y (or_introl eq_refl)). lra.
      * rewrite (mean_one _ NM) by (intros y Y; apply U; exact Y). split.
        -- intros H a b NB. destruct (C329_decay tau (b - a) (b - a) TP) as (_ & [Q1 _] & _). apply Q1. apply H. apply in_map. apply diffs_in. exists a, b. split; [exact NB|reflexivity].
        -- intros H y Y. apply in_map_iff in Y. destruct Y as (g & <- & G). apply diffs_in in G. destruct G as (a & b & NB & ->).
           destruct (C329_decay tau (b - a) (b - a) TP) as (_ & [_ Q1] & _). apply Q1. apply H. exact NB.
Qed.
Print Assumptions C329_intervals.

(** a longer timescale never scores less *)
Theorem C329_timescales : forall science_map mag_limit t1 t2 point vs x1 x2, 0 < t1 <= t2 ->
  intervals_run science_map mag_limit [t1; t2] point vs = Ok (Some [(t1, x1); (t2, x2)]) -> x1 <= x2.
Proof.
  intros sm ml t1 t2 point vs x1 x2 [T L] H. unfold intervals_run in H. destruct (at_key point _) as [p|]; [|discriminate H]. cbn [bind] in H.
  destruct (rleb p (priority_threshold sm)); [discriminate H|]. cbv zeta in H. destruct (length _ <? 2)%nat eqn:Q; [discriminate H|]. apply Nat.ltb_ge in Q.
  injection H as <- <-. apply mean_le; [|intros g _; apply decay_tau; assumption].
  intros Z. pose proof (diffs_length (Small_Model.rsort (map p_time (filter (fun v => rleb ml (p_m5 v)) vs)))) as DL. rewrite Z in DL. cbn in DL.
  rewrite (Permutation_length (Small_Proofs.rsort_perm _)) in DL. lia.
Qed.
Print Assumptions C329_timescales.

(** the order of the visits does not matter *)
Theorem C329_order : forall science_map mag_limit tau_obs point vs ws, Permutation vs ws ->
  intervals_run science_map mag_limit tau_obs point vs = intervals_run science_map mag_limit tau_obs point ws.
Proof.
  intros sm ml taus point vs ws P. unfold intervals_run. destruct (at_key point _) as [p|]; [|reflexivity]. cbn [bind]. destruct (rleb p (priority_threshold sm)); [reflexivity|]. cbv zeta.
  assert (Q : Permutation (map p_time (filter (fun v => rleb ml (p_m5 v)) vs)) (map p_time (filter (fun v => rleb ml (p_m5 v)) ws))) by (apply Permutation_map; apply Astrom_Props.filter_perm; exact P).
  rewrite (Permutation_length Q), (Small_Proofs.rsort_perm_eq _ _ Q). reflexivity.
Qed.
Print Assumptions C329_order.

Example C329_case : Times 22 [Build_pvisit "g" 25 3 30; Build_pvisit "r" 21 2 30; Build_pvisit "r" 23 1 30] [1; 3].
Proof.
  unfold Times. cbn. destruct (Rle_dec 22 25); [|lra]. destruct (Rle_dec 22 21); [lra|]. destruct (Rle_dec 22 23); [|lra]. cbn. split; [apply perm_swap|].
  repeat constructor; lra.
Qed.

(** ** C330 *)
Lemma gaps_in : forall l d, In d (season_gaps l) <-> exists a s b s', Neighbours l (a, s) (b, s') /\ s <> s' /\ d = b - a.
Proof.
  induction l as [|[a s] [|[b s'] t] IH]; intros d.
  - cbn. split; [intros []|]. intros (x & y & z & w & (k & K & _) & _). destruct k; discriminate K.
  - cbn. split; [intros []|]. intros (x & y & z & w & (k & K & K') & _). destruct k; discriminate K'.
  - change (season_gaps ((a, s) :: (b, s') :: t)) with (if (s =? s')%Z then season_gaps ((b, s') :: t) else (b - a) :: season_gaps ((b, s') :: t)).
    assert (UP : (exists x y z w, Neighbours ((b, s') :: t) (x, y) (z, w) /\ y <> w /\ d = z - x) -> exists x y z w, Neighbours ((a, s) :: (b, s') :: t) (x, y) (z, w) /\ y <> w /\ d = z - x).
    { intros (x & y & z & w & (k & K & K') & H). exists x, y, z, w. split; [exists (S k); split; assumption|exact H]. }
    destruct (s =? s')%Z eqn:E.
    + apply Z.eqb_eq in E. rewrite IH. split; [exact UP|]. intros (x & y & z & w & (k & K & K') & N & D). destruct k as [|k].
      * cbn in K, K'. injection K as <- <-. injection K' as <- <-. contradiction.
      * exists x, y, z, w. split; [exists k; split; assumption|split; assumption].
    + apply Z.eqb_neq in E. cbn [In]. rewrite IH. split.
      * intros [<-|H]; [|exact (UP H)]. exists a, s, b, s'. split; [exists 0%nat; split; reflexivity|split; [exact E|reflexivity]].
      * intros (x & y & z & w & (k & K & K') & N & D). destruct k as [|k].
        -- cbn in K, K'. injection K as <- <-. injection K' as <- <-. left. symmetry. exact D.
        -- right. exists x, y, z, w. split; [exists k; split; assumption|split; assumption].
Qed.

(** the value is between 0 and 1, and 1 exactly when every gap between seasons is within the expected gap or the timescale; without
    two seasons the point is masked *)
Theorem C330_gaps : forall season science_map mag_limit expected tau_var point vs ts p,
  dget String.eqb point (Maps_Model.gp_key "sum" science_map) = Some p ->
  (if String.eqb science_map "galactic_plane" then 0.4 else if String.eqb science_map "combined_map" then 0.001 else 0) < p ->
  Permutation ts (map p_time vs) -> StronglySorted Rle ts -> (forall tau, In tau tau_var -> 0 < tau) ->
  ((forall a b, Neighbours ts a b -> season a = season b) -> fst (gaps_run season science_map mag_limit expected tau_var point vs) = Ok None) /\
  ((exists a b, Neighbours ts a b /\ season a <> season b) -> exists out, fst (gaps_run season science_map mag_limit expected tau_var point vs) = Ok (Some out) /\
     map fst out = tau_var /\
     forall k tau x, nth_error out k = Some (tau, x) -> 0 <= x <= 1 /\
       (x = 1 <-> forall a b, Neighbours ts a b -> season a <> season b -> b - a <= expected \/ b - a <= tau)).
Proof.
  intros season sm ml expected taus point vs ts p P L PT ST TP.
  assert (TS : Small_Model.rsort (map p_time vs) = ts).
  { symmetry. apply Small_Proofs.sorted_unique; [exact ST|apply Small_Proofs.rsort_sorted|]. rewrite Small_Proofs.rsort_perm. exact PT. }
  unfold gaps_run. apply key_ok in P. rewrite P. destruct (rleb p (priority_threshold sm)) eqn:E; [apply rleb_true in E; unfold priority_threshold in E; lra|].
  cbv zeta. rewrite TS. cbn [fst]. set (l := map (fun t => (t, season t)) ts).
  assert (NB : forall a s b s', Neighbours l (a, s) (b, s') <-> Neighbours ts a b /\ s = season a /\ s' = season b).
  { intros a s b s'. unfold l. split.
    - intros (k & K & K'). rewrite nth_error_map in K, K'. destruct (nth_error ts k) as [u|] eqn:U; [|discriminate K]. destruct (nth_error ts (S k)) as [u'|] eqn:U'; [|discriminate K'].
      cbn in K, K'. injection K as -> <-. injection K' as -> <-. split; [exists k; split; assumption|split; reflexivity].
    - intros ((k & K & K') & -> & ->). exists k. rewrite !nth_error_map, K, K'. split; reflexivity. }
  split.
  - intros H. destruct (season_gaps l) as [|g gs] eqn:G; [reflexivity|]. exfalso.
    assert (I : In g (season_gaps l)) by (rewrite G; left; reflexivity). apply gaps_in in I. destruct I as (a & s & b & s' & N & D & _). apply NB in N. destruct N as (N & -> & ->). apply D. apply H. exact N.
  - intros (a & b & N & D).
    assert (NE : season_gaps l <> []).
    { intros Z. assert (I : In (b - a) (season_gaps l)) by (apply gaps_in; exists a, (season a), b, (season b); split; [apply NB; split; [exact N|split; reflexivity]|split; [exact D|reflexivity]]). rewrite Z in I. destruct I. }
    destruct (season_gaps l) as [|g gs] eqn:G; [contradiction|]. rewrite <- G in *. eexists. split; [reflexivity|]. split; [rewrite map_map; cbn; apply map_id|].
    intros k tau x K. apply nth_error_In in K. apply in_map_iff in K. destruct K as (t & T & I). injection T as -> <-. specialize (TP tau I).
    set (f := fun g => if rleb g expected then 1 else decay tau g).
    assert (U : forall y, In y (map f (season_gaps l)) -> 0 <= y <= 1).
    { intros y Y. apply in_map_iff in Y. destruct Y as (h & <- & _). unfold f. destruct (rleb h expected); [lra|]. destruct (C329_decay tau h h TP) as (B & _). lra. }
    assert (NM : map f (season_gaps l) <> []) by (intros Z; apply map_eq_nil in Z; contradiction).
    split; [apply mean_bounds; assumption|]. rewrite (mean_one _ NM) by (intros y Y; apply U; exact Y).
    assert (FX : forall h, f h = 1 <-> h <= expected \/ h <= tau).
    { intros h. unfold f. destruct (rleb h expected) eqn:Q.
      - apply rleb_true in Q. split; [intros _; left; exact Q|reflexivity].
      - apply rleb_false in Q. destruct (C329_decay tau h h TP) as (_ & B & _). rewrite B. split; [intros Z; right; exact Z|intros [Z|Z]; [lra|exact Z]]. }
    split.
    + intros H a' b' N' D'. apply FX. apply H. apply in_map. apply gaps_in. exists a', (season a'), b', (season b'). split; [apply NB; split; [exact N'|split; reflexivity]|split; [exact D'|reflexivity]].
    + intros H y Y. apply in_map_iff in Y. destruct Y as (h & <- & Hh). apply gaps_in in Hh. destruct Hh as (a' & s & b' & s' & N' & D' & ->). apply NB in N'. destruct N' as (N' & -> & ->). apply FX. apply H; assumption.
Qed.
Print Assumptions C330_gaps.

(** the magnitude limit plays no part *)
Theorem C330_limit_refuted : ~ (forall season science_map mag_limit expected tau_var point vs,
  fst (gaps_run season science_map mag_limit expected tau_var point vs)
  = fst (gaps_run season science_map mag_limit expected tau_var point (filter (fun v => rleb mag_limit (p_m5 v)) vs))).
Proof.
  intros H. specialize (H (fun t => Int_part t) "M"%string 22 0 [1] [pt "M" "sum" 1] [Build_pvisit "g" 20 0 30; Build_pvisit "g" 20 5 30]).
  assert (F : filter (fun v => rleb 22 (p_m5 v)) [Build_pvisit "g" 20 0 30; Build_pvisit "g" 20 5 30] = []).
  { cbn. assert (A : rleb 22 20 = false) by (destruct (rleb 22 20) eqn:E; [apply rleb_true in E; lra|reflexivity]). rewrite A. reflexivity. }
  rewrite F in H.
  assert (K : dget String.eqb [pt "M" "sum" 1] (Maps_Model.gp_key "sum" "M") = Some 1) by (cbn [pt dget]; rewrite String.eqb_refl; reflexivity).
  assert (TT : forall tau, In tau [1] -> 0 < tau) by (intros tau [<-|[]]; lra).
  assert (I0 : Int_part 0 = 0%Z) by (apply (Int_part_INR 0)).
  assert (I5 : Int_part 5 = 5%Z) by (replace 5 with (INR 5) by (cbn; lra); apply (Int_part_INR 5)).
  destruct (C330_gaps (fun t => Int_part t) "M" 22 0 [1] [pt "M" "sum" 1] [Build_pvisit "g" 20 0 30; Build_pvisit "g" 20 5 30] [0; 5] 1 K) as [_ A].
  - cbn. lra.
  - apply Permutation_refl.
  - repeat constructor; lra.
  - exact TT.
  - destruct A as (out & E & _).
    + exists 0, 5. split; [exists 0%nat; split; reflexivity|]. rewrite I0, I5. discriminate.
    + rewrite E in H. destruct (C330_gaps (fun t => Int_part t) "M" 22 0 [1] [pt "M" "sum" 1] [] [] 1 K) as [B _]; [cbn; lra|apply Permutation_refl|constructor|exact TT|].
      rewrite B in H; [discriminate H|]. intros a b (k & Q & _). destruct k; discriminate Q.
Qed.
Print Assumptions C330_limit_refuted.

(** the visits are changed under the other metrics of the same point: their times are sorted, but not their bands and depths *)
Theorem C330_visits_refuted : ~ (forall season science_map mag_limit expected tau_var point vs,
  snd (gaps_run season science_map mag_limit expected tau_var point vs) = vs).
Proof.
  intros H. specialize (H (fun _ => 0%Z) "M"%string 22 0 [1] [pt "M" "sum" 1] [Build_pvisit "g" 20 5 30; Build_pvisit "r" 20 0 30]).
  unfold gaps_run in H.
  assert (K : at_key [pt "M" "sum" 1] (Maps_Model.gp_key "sum" "M") = Ok 1) by (apply key_ok; cbn [pt dget]; rewrite String.eqb_refl; reflexivity).
  rewrite K in H. assert (A : rleb 1 (priority_threshold "M") = false) by (destruct (rleb 1 (priority_threshold "M")) eqn:E; [apply rleb_true in E; unfold priority_threshold in E; cbn in E; lra|reflexivity]).
  rewrite A in H. cbn [snd map p_time] in H.
  assert (S : Small_Model.rsort [5; 0] = [0; 5]).
  { symmetry. apply Small_Proofs.sorted_unique; [repeat constructor; lra|apply Small_Proofs.rsort_sorted|]. rewrite Small_Proofs.rsort_perm. apply perm_swap. }
  cbv zeta in H. rewrite S in H. unfold with_times in H. cbn in H. injection H as E _. lra.
Qed.
Print Assumptions C330_visits_refuted.

(** only visits that come in order of time are left as they were *)
Theorem C330_visits_partial : forall season science_map mag_limit expected tau_var point vs, StronglySorted Rle (map p_time vs) ->
  snd (gaps_run season science_map mag_limit expected tau_var point vs) = vs.
Proof.
  intros season sm ml expected taus point vs S. unfold gaps_run. destruct (at_key point _) as [p|]; [|reflexivity]. destruct (rleb p (priority_threshold sm)); [reflexivity|]. cbn [snd].
  cbv zeta. assert (E : Small_Model.rsort (map p_time vs) = map p_time vs).
  { symmetry. apply Small_Proofs.sorted_unique; [exact S|apply Small_Proofs.rsort_sorted|]. rewrite Small_Proofs.rsort_perm. apply Permutation_refl. }
  rewrite E. unfold with_times. clear. induction vs as [|v vs IH]; [reflexivity|]. cbn [map combine fst snd]. rewrite IH. destruct v; reflexivity.
Qed.
Print Assumptions C330_visits_partial.

(** it does not ask for the priority map: at a point without it, it fails *)
Theorem C330_map_refuted : asks_for_map true = false /\
  ~ (forall season science_map mag_limit expected tau_var vs, exists out, fst (gaps_run season science_map mag_limit expected tau_var [] vs) = Ok out).
Proof. split; [reflexivity|]. intros H. destruct (H (fun _ => 0%Z) "M"%string 22 145 [1] []) as [out E]. discriminate E. Qed.
Print Assumptions C330_map_refuted.

Example C330_case : fst (gaps_run (fun t => if Rle_dec t 100 then 0%Z else 1%Z) "M" 22 145 [10] [pt "M" "sum" 1] [Build_pvisit "g" 20 0 30; Build_pvisit "g" 20 120 30])
  = Ok (Some [(10, 1)]).
Proof.
  assert (K : dget String.eqb [pt "M" "sum" 1] (Maps_Model.gp_key "sum" "M") = Some 1) by (cbn [pt dget]; rewrite String.eqb_refl; reflexivity).
  destruct (C330_gaps (fun t => if Rle_dec t 100 then 0%Z else 1%Z) "M" 22 145 [10] [pt "M" "sum" 1] [Build_pvisit "g" 20 0 30; Build_pvisit "g" 20 120 30] [0; 120] 1 K) as [_ A].
  - cbn. lra.
  - apply Permutation_refl.
  - repeat constructor; lra.
  - intros tau [<-|[]]; lra.
  - destruct A as (out & E & M & V); [exists 0, 120; split; [exists 0%nat; split; reflexivity|]; destruct (Rle_dec 0 100); [|lra]; destruct (Rle_dec 120 100); [lra|discriminate]|].
    rewrite E. destruct out as [|[tau x] [|? ?]]; try discriminate M. injection M as ->. destruct (V 0%nat 10 x eq_refl) as [_ [_ V1]]. rewrite V1; [reflexivity|].
    intros a b (k & P & Q) _. destruct k as [|[|k]]; [|discriminate Q|destruct k; discriminate Q]. injection P as <-. injection Q as <-. left. lra.
Qed.
