(** Properties of the astrometric metrics. *)
From Verif Require Import Base Astrom_Model Astrom_Spec Astrom_Proofs Astrom_Proofs2.
From Coq Require Import Reals Ratan Lra Lia Permutation Psatz.
Open Scope R_scope.

(** * C155 signal to noise and position errors *)
Definition good_gamma (g : option R) : Prop := match g with None => True | Some g => 0 <= g <= 1/25 end.
Theorem C155_depth : forall g m5, m52snr g m5 m5 = 5.
Proof.
  intros [g|] m5; unfold m52snr; replace (m5 - m5) with 0 by ring; rewrite Rmult_0_r, pow10_0; [apply snr_gamma_1|ring].
Qed.
Print Assumptions C155_depth.
Theorem C155_decreasing : forall g m m' m5, good_gamma g -> m < m' -> 0 < m52snr g m' m5 < m52snr g m m5.
Proof.
  intros [g|] m m' m5 H L; unfold m52snr; cbn in H.
  - split; [apply snr_gamma_pos; [exact H|apply pow10_pos]|]. apply snr_gamma_lt; [exact H|apply pow10_pos|]. apply pow10_lt. lra.
  - pose proof (pow10_pos (- (2/5) * (m' - m5))). pose proof (pow10_lt (- (2/5) * (m' - m5)) (- (2/5) * (m - m5)) ltac:(lra)). lra.
Qed.
Print Assumptions C155_decreasing.
Theorem C155_five_sigma : forall g m m5, good_gamma g -> (5 <= m52snr g m m5 <-> m <= m5).
Proof.
  intros g m m5 H. split; intros L.
  - apply Rnot_lt_le. intros C. pose proof (C155_decreasing g m5 m m5 H C) as D. rewrite C155_depth in D. lra.
  - destruct L as [L|L]; [|rewrite L, C155_depth; lra]. pose proof (C155_decreasing g m m5 m5 H L) as D. rewrite C155_depth in D. lra.
Qed.
Print Assumptions C155_five_sigma.
(** leaving gamma out is the limit of a background with no contribution of the source: gamma = 0.04, the default *)
Theorem C155_default : forall m m5, m52snr (Some (1/25)) m m5 = m52snr None m m5.
Proof.
  intros m m5. unfold m52snr. rewrite snr_gamma_flat by apply pow10_pos. unfold Rdiv. f_equal. rewrite <- Rpower_Ropp. f_equal. ring.
Qed.
Print Assumptions C155_default.
Theorem C155_precision : forall fwhm snr floor, 0 <= fwhm -> 0 < snr -> 0 <= floor ->
  floor <= astrom_precision fwhm snr floor /\ fwhm / snr <= astrom_precision fwhm snr floor /\ astrom_precision fwhm snr floor <= fwhm / snr + floor /\
  (forall snr', snr <= snr' -> astrom_precision fwhm snr' floor <= astrom_precision fwhm snr floor).
Proof.
  intros fwhm snr floor Hf Hs Ha. unfold astrom_precision. assert (0 <= fwhm / snr) as Q by (apply Rmult_le_pos; [exact Hf|left; apply Rinv_0_lt_compat, Hs]). set (q := fwhm / snr) in *. pose proof (square_nonneg q). pose proof (square_nonneg floor). assert (0 <= q * floor) by (apply Rmult_le_pos; assumption). repeat split.
  - rewrite <- (sqrt_square floor) at 1 by exact Ha. apply sqrt_le_1_alt. lra.
  - rewrite <- (sqrt_square q) at 1 by exact Q. apply sqrt_le_1_alt. lra.
  - rewrite <- (sqrt_square (q + floor)) by lra. apply sqrt_le_1_alt. lra.
  - intros snr' Hs'. apply sqrt_le_1_alt. assert (0 <= fwhm / snr' <= q) as [L1 L2].
    { unfold q, Rdiv. split; [apply Rmult_le_pos; [exact Hf|left; apply Rinv_0_lt_compat; lra]|]. apply Rmult_le_compat_l; [exact Hf|]. apply Rinv_le_contravar; lra. }
    assert (fwhm / snr' * (fwhm / snr') <= q * q) by (apply Rmult_le_compat; assumption). lra.
Qed.
Print Assumptions C155_precision.
Example C155_case : m52snr (Some (38/1000)) 20 (49/2) > 5 /\ good_gamma (Some (38/1000)) /\ astrom_precision 4 1 3 = 5.
Proof.
  assert (good_gamma (Some (38/1000))) as G by (cbn; lra). repeat split; [|apply G|apply G|].
  - pose proof (C155_decreasing (Some (38/1000)) 20 (49/2) (49/2) G ltac:(lra)) as D. rewrite C155_depth in D. lra.
  - unfold astrom_precision. replace (4 / 1 * (4 / 1) + 3 * 3) with (5 * 5) by field. apply sqrt_square. lra.
Qed.

(** * C156 the uncertainty of a slope *)
(** it is the least standard deviation that any linear unbiased estimate of the slope has *)
Theorem C156_best : forall ps s, uncertain ps -> sigma_slope ps = Some s ->
  0 < s /\ (exists l, map snd l = ps /\ unbiased l /\ variance l = s * s) /\ forall l, map snd l = ps -> unbiased l -> s * s <= variance l.
Proof.
  intros ps s U E. destruct (sigma_slope_some ps s U E) as (N & P & ->). assert (0 < 1 / spread (centre ps) ps) as Q by (apply Rdiv_lt_0_compat; lra). split; [apply sqrt_lt_R0, Q|]. rewrite sqrt_sqrt by lra. split.
  - exists (map (fun p => (best ps p, p)) ps). destruct (best_unbiased ps N U P) as [B1 B2]. split; [rewrite map_map; apply map_id|]. split; [exact B1|exact B2].
  - intros l El Ul. apply best_least; assumption.
Qed.
Print Assumptions C156_best.
Theorem C156_nan : forall ps, uncertain ps -> (sigma_slope ps = None <-> forall p q, In p ps -> In q ps -> fst p = fst q).
Proof. exact sigma_slope_none. Qed.
Print Assumptions C156_nan.
Theorem C156_more : forall ps qs s, uncertain (ps ++ qs) -> sigma_slope ps = Some s -> exists s', sigma_slope (ps ++ qs) = Some s' /\ s' <= s.
Proof. intros ps qs s U E. destruct (sigma_slope_more ps qs s U E) as (s' & E' & L & _). exists s'. split; assumption. Qed.
Print Assumptions C156_more.
(** the zero point of the dates does not matter, nor the order; with errors k times as large the result is k times as large *)
Theorem C156_invariant : forall ps t, uncertain ps -> sigma_slope (map (fun p => (fst p + t, snd p)) ps) = sigma_slope ps /\ (forall qs, Permutation ps qs -> sigma_slope qs = sigma_slope ps) /\
  forall k, 0 < k -> sigma_slope (map (fun p => (fst p, k * snd p)) ps) = option_map (fun s => k * s) (sigma_slope ps).
Proof.
  intros ps t U. split; [|split].
  - unfold sigma_slope. assert (slope_denom (map (fun p => (fst p + t, snd p)) ps) = slope_denom ps) as ->.
    { unfold slope_denom. rewrite !map_map. unfold wgt. cbn [fst snd]. rewrite (rsum_ext (fun x : R * R => 1 / (snd x * snd x) * ((fst x + t) * (fst x + t))) (fun x => 1 / (snd x * snd x) * (fst x * fst x) + ((2 * t) * (1 / (snd x * snd x) * fst x) + (t * t) * (1 / (snd x * snd x))))) by (intros; ring).
      rewrite (rsum_ext (fun x : R * R => 1 / (snd x * snd x) * (fst x + t)) (fun x => 1 / (snd x * snd x) * fst x + t * (1 / (snd x * snd x)))) by (intros; ring). rewrite !rsum_plus, !rsum_scale. ring. }
    rewrite map_map. reflexivity.
  - intros qs P. symmetry. apply sigma_slope_perm, P.
  - intros k Hk. assert (rsum (map wgt (map (fun p => (fst p, k * snd p)) ps)) = / (k * k) * rsum (map wgt ps)) as W by (rewrite map_map, <- rsum_scale; apply rsum_ext; intros p Hp; pose proof (U p Hp); unfold wgt; cbn [snd]; field; lra).
    assert (slope_denom (map (fun p => (fst p, k * snd p)) ps) = / (k * k) * (/ (k * k) * slope_denom ps)) as D.
    { unfold slope_denom. rewrite W. rewrite !map_map. cbn [fst]. rewrite (rsum_ext (fun x : R * R => wgt (fst x, k * snd x) * (fst x * fst x)) (fun x => / (k * k) * (wgt x * (fst x * fst x)))) by (intros p Hp; pose proof (U p Hp); unfold wgt; cbn [snd]; field; lra).
      rewrite (rsum_ext (fun x : R * R => wgt (fst x, k * snd x) * fst x) (fun x => / (k * k) * (wgt x * fst x))) by (intros p Hp; pose proof (U p Hp); unfold wgt; cbn [snd]; field; lra). rewrite !rsum_scale. ring. }
    assert (0 < k * k) as K2 by (apply Rmult_lt_0_compat; assumption). assert (0 < / (k * k)) as K3 by (apply Rinv_0_lt_compat, K2).
    unfold sigma_slope. rewrite D, W. destruct (Rle_dec (slope_denom ps) 0) as [H|H].
    + destruct (Rle_dec _ 0) as [H'|H']; [reflexivity|]. exfalso. apply H'. assert (/ (k * k) * slope_denom ps <= 0) by nra. nra.
    + destruct (Rle_dec _ 0) as [H'|H']; [exfalso; assert (0 < / (k * k) * slope_denom ps) by (apply Rmult_lt_0_compat; lra); nra|]. cbn [option_map]. f_equal.
      transitivity (sqrt (k * k) * sqrt (rsum (map wgt ps) / slope_denom ps)); [rewrite <- sqrt_mult_alt by (apply square_nonneg); f_equal; field; lra|rewrite sqrt_square by lra; reflexivity].
Qed.
Print Assumptions C156_invariant.
Example C156_case : sigma_slope [(0, 1); (2, 1)] = Some (sqrt (1/2)) /\ uncertain [(0, 1); (2, 1)].
Proof.
  split; [|intros p [<-|[<-|[]]]; cbn; lra]. unfold sigma_slope, slope_denom, rsum, wgt. cbn. destruct (Rle_dec _ 0) as [H|H]; [exfalso; lra|]. do 2 f_equal. field.
Qed.

(** * C157 proper motions *)
Lemma pm_result mags atm vs r : proper_motion_run mags atm None vs = Ok r ->
  (exists errs, map_ok (pos_error mags atm) (pm_good vs) = Ok errs) /\ r = option_map (fun s => s * year * 1000) (sigma_slope (map (fun v => (av_mjd v, perr mags atm v)) (pm_good vs))).
Proof.
  intros E. unfold proper_motion_run in E. destruct (map_ok (pos_error mags atm) (pm_good vs)) as [errs|e] eqn:M; [|discriminate]. cbn in E. injection E as <-. split; [exists errs; reflexivity|]. rewrite (errs_eq _ _ _ _ M), combine_map. destruct (sigma_slope _); reflexivity.
Qed.
Lemma pm_ok mags atm vs errs : map_ok (pos_error mags atm) (pm_good vs) = Ok errs -> proper_motion_run mags atm None vs = Ok (option_map (fun s => s * year * 1000) (sigma_slope (map (fun v => (av_mjd v, perr mags atm v)) (pm_good vs)))).
Proof. intros M. unfold proper_motion_run. rewrite M. cbn [bind]. rewrite (errs_eq _ _ _ _ M), combine_map. destruct (sigma_slope _); reflexivity. Qed.
Lemma pm_uncertain mags atm l errs : map_ok (pos_error mags atm) l = Ok errs -> (forall v, In v l -> has_error atm v) -> uncertain (map (fun v => (av_mjd v, perr mags atm v)) l).
Proof. intros M H p Hp. apply in_map_iff in Hp. destruct Hp as (v & <- & Hv). cbn [snd]. apply (perr_pos mags atm l errs v M Hv (H v Hv)). Qed.
Lemma filter_perm {A} (f : A -> bool) l l' : Permutation l l' -> Permutation (filter f l) (filter f l').
Proof.
  induction 1 as [|x l l' P IH|x y l|l l' l'' P1 IH1 P2 IH2]; cbn; [constructor|destruct (f x); [constructor; exact IH|exact IH]|destruct (f x), (f y); try apply Permutation_refl; constructor|eapply Permutation_trans; eassumption].
Qed.
Lemma band_count_perm vs vs' b : Permutation vs vs' -> band_count vs b = band_count vs' b.
Proof. intros P. apply Permutation_length, filter_perm, P. Qed.
Lemma pm_good_perm vs vs' : Permutation vs vs' -> Permutation (pm_good vs) (pm_good vs').
Proof.
  intros P. unfold pm_good. rewrite (filter_ext _ (fun v => (2 <=? band_count vs' (av_band v))%nat)) by (intros v; rewrite (band_count_perm _ _ _ P); reflexivity). apply filter_perm, P.
Qed.
Lemma filter_more {A} (p q : A -> bool) l : (forall x, In x l -> p x = true -> q x = true) -> Permutation (filter q l) (filter p l ++ filter (fun x => q x && negb (p x)) l).
Proof.
  induction l as [|x l IH]; intros H; [constructor|]. assert (Permutation (filter q l) (filter p l ++ filter (fun x => q x && negb (p x)) l)) as IH' by (apply IH; intros; apply H; [right; assumption|assumption]). cbn [filter]. specialize (H x (or_introl eq_refl)). destruct (p x), (q x); cbn [andb negb app]; try (constructor; exact IH'); try exact IH'; [specialize (H eq_refl); discriminate|]. apply Permutation_cons_app, IH'.
Qed.
Lemma pm_good_more vs new : exists rest, Permutation (pm_good (vs ++ new)) (pm_good vs ++ rest) /\ forall v, In v (pm_good vs ++ rest) -> In v (vs ++ new).
Proof.
  assert (exists rest, Permutation (pm_good (vs ++ new)) (pm_good vs ++ rest)) as (rest & P).
  { unfold pm_good. rewrite filter_app. eexists. eapply Permutation_trans; [apply Permutation_app_tail, (filter_more (fun v => (2 <=? band_count vs (av_band v))%nat)); intros x _ Hx; apply Nat.leb_le in Hx; apply Nat.leb_le; unfold band_count in *; rewrite filter_app, app_length; lia|]. rewrite <- app_assoc. apply Permutation_refl. }
  exists rest. split; [exact P|]. intros v Hv. apply (Permutation_in v (Permutation_sym P)) in Hv. apply filter_In in Hv. apply Hv.
Qed.
(** more visits never give a larger uncertainty *)
Theorem C157_more : forall mags atm vs new r, (forall v, In v (vs ++ new) -> has_error atm v /\ mags (av_band v) <> None) -> proper_motion_run mags atm None vs = Ok (Some r) ->
  exists r', proper_motion_run mags atm None (vs ++ new) = Ok (Some r') /\ 0 < r' <= r.
Proof.
  intros mags atm vs new r H E. destruct (pm_good_more vs new) as (rest & P & Hin). destruct (map_ok_total (pos_error mags atm) (pm_good (vs ++ new))) as (errs & M).
  { intros v Hv. apply filter_In in Hv. destruct (H v (proj1 Hv)) as [_ K]. unfold pos_error. destruct (mags (av_band v)); [eexists; reflexivity|congruence]. }
  destruct (map_ok_total (pos_error mags atm) (pm_good vs ++ rest)) as (errs2 & M2).
  { intros v Hv. destruct (H v (Hin v Hv)) as [_ K]. unfold pos_error. destruct (mags (av_band v)); [eexists; reflexivity|congruence]. }
  apply pm_result in E. destruct E as [_ E]. destruct (sigma_slope (map _ (pm_good vs))) as [s|] eqn:S; [|discriminate]. cbn in E. injection E as ->.
  assert (uncertain (map (fun v => (av_mjd v, perr mags atm v)) (pm_good vs ++ rest))) as U by (apply (pm_uncertain _ _ _ _ M2); intros v Hv; apply H, Hin, Hv). rewrite map_app in U.
  destruct (sigma_slope_more _ _ _ U S) as (s' & S' & L & Ps). exists (s' * year * 1000). split; [|unfold year; lra]. rewrite (pm_ok _ _ _ _ M). rewrite (sigma_slope_perm _ _ (Permutation_map _ P)), map_app, S'. reflexivity.
Qed.
Print Assumptions C157_more.
(** it is the best that a linear unbiased fit can do with the visits in bands that have at least two, in mas per year *)
Theorem C157_best : forall mags atm vs r, (forall v, In v vs -> has_error atm v) -> proper_motion_run mags atm None vs = Ok (Some r) ->
  exists good, (forall v, In v good <-> In v vs /\ (2 <= length (filter (fun w => String.eqb (av_band w) (av_band v)) vs))%nat) /\
    (exists l, map snd l = map (fun v => (av_mjd v, perr mags atm v)) good /\ unbiased l /\ variance l = (r / (year * 1000)) * (r / (year * 1000))) /\
    forall l, map snd l = map (fun v => (av_mjd v, perr mags atm v)) good -> unbiased l -> (r / (year * 1000)) * (r / (year * 1000)) <= variance l.
Proof.
  intros mags atm vs r H E. apply pm_result in E. destruct E as [(errs & M) E]. destruct (sigma_slope _) as [s|] eqn:S; [|discriminate]. cbn in E. injection E as ->.
  exists (pm_good vs). split; [intros v; unfold pm_good; rewrite filter_In, Nat.leb_le; reflexivity|]. replace (s * year * 1000 / (year * 1000)) with s by (unfold year; field).
  assert (uncertain (map (fun v => (av_mjd v, perr mags atm v)) (pm_good vs))) as U by (apply (pm_uncertain _ _ _ _ M); intros v Hv; apply H; apply filter_In in Hv; apply Hv). exact (proj2 (C156_best _ s U S)).
Qed.
Print Assumptions C157_best.
Theorem C157_order : forall mags atm vs vs' r, Permutation vs vs' -> (forall v, In v vs -> mags (av_band v) <> None) -> proper_motion_run mags atm None vs = Ok r -> proper_motion_run mags atm None vs' = Ok r.
Proof.
  intros mags atm vs vs' r P K E. destruct (map_ok_total (pos_error mags atm) (pm_good vs')) as (errs & M).
  { intros v Hv. apply filter_In in Hv. specialize (K v (Permutation_in v (Permutation_sym P) (proj1 Hv))). unfold pos_error. destruct (mags (av_band v)); [eexists; reflexivity|congruence]. }
  rewrite (pm_ok _ _ _ _ M). apply pm_result in E. destruct E as [_ ->]. do 2 f_equal. apply sigma_slope_perm, Permutation_map, Permutation_sym, pm_good_perm, P.
Qed.
Print Assumptions C157_order.
(** the normalised value is meant to be at most 1, and 1 for the best schedule; it depends on the order of the rows and can
    be larger *)
Definition pv (seeing mjd : R) : avisit := {| av_band := "r"; av_m5 := 20; av_seeing := seeing; av_mjd := mjd; av_ra_pi := 0; av_dec_pi := 0 |}.
Lemma pv_err seeing mjd : 0 < seeing -> perr (flat 20) 0 (pv seeing mjd) = seeing / 5.
Proof.
  intros H. unfold perr, flat. cbn [pv av_band av_seeing av_m5 existsb]. replace (String.eqb "r" "u") with false by reflexivity. replace (String.eqb "r" "g") with false by reflexivity. replace (String.eqb "r" "r") with true by reflexivity. cbn [orb].
  change (m52snr (Some (1/25)) 20 20) with (m52snr (Some (1/25)) 20 20). rewrite C155_depth. unfold astrom_precision. rewrite Rmult_0_r, Rplus_0_r. apply sqrt_square. lra.
Qed.
Definition pm_a : list avisit := [pv 5 0; pv 5 year; pv 10 0; pv 10 year].
Definition pm_b : list avisit := [pv 5 0; pv 10 0; pv 5 year; pv 10 year].
Lemma sqrt_div_sq a b c d : 0 < a -> 0 < b -> 0 < c -> 0 < d -> sqrt a * c * d / (sqrt b * c * d) = sqrt (a / b).
Proof. intros. rewrite sqrt_div_alt by assumption. field. repeat split; try lra. apply Rgt_not_eq, sqrt_lt_R0. assumption. Qed.
Lemma pm_a_value : proper_motion_run (flat 20) 0 (Some 1) pm_a = Ok (Some (sqrt (25/16))).
Proof.
  unfold proper_motion_run. replace (pm_good pm_a) with pm_a by reflexivity. destruct (map_ok_total (pos_error (flat 20) 0) pm_a) as (errs & M); [intros v Hv; cbn in Hv; destruct Hv as [<-|[<-|[<-|[<-|[]]]]]; eexists; reflexivity|].
  rewrite M. cbn [bind]. rewrite (errs_eq _ _ _ _ M). unfold pm_a. cbn [map length]. rewrite !pv_err by lra. cbn [av_mjd pv]. unfold norm_dates. replace (4 / 2)%nat with 2%nat by reflexivity. cbn [Nat.sub repeat app combine]. unfold sigma_slope, slope_denom, rsum, wgt. cbn [map fst snd fold_right]. assert (0 < year) as Y by (unfold year; lra).
  destruct (Rle_dec _ 0) as [H|H]; [exfalso; nra|]. destruct (Rle_dec _ 0) as [H'|H']; [exfalso; nra|]. do 2 f_equal.
  rewrite sqrt_div_sq; [| | |exact Y|lra]; [f_equal; field; nra| |]; apply Rdiv_lt_0_compat; nra.
Qed.
Lemma pm_b_value : proper_motion_run (flat 20) 0 (Some 1) pm_b = Ok (Some 1).
Proof.
  unfold proper_motion_run. replace (pm_good pm_b) with pm_b by reflexivity. destruct (map_ok_total (pos_error (flat 20) 0) pm_b) as (errs & M); [intros v Hv; cbn in Hv; destruct Hv as [<-|[<-|[<-|[<-|[]]]]]; eexists; reflexivity|].
  rewrite M. cbn [bind]. rewrite (errs_eq _ _ _ _ M). unfold pm_b. cbn [map length]. rewrite !pv_err by lra. cbn [av_mjd pv]. unfold norm_dates. replace (4 / 2)%nat with 2%nat by reflexivity. cbn [Nat.sub repeat app combine]. rewrite !Rmult_1_l. unfold sigma_slope, slope_denom, rsum, wgt. cbn [map fst snd fold_right]. assert (0 < year) as Y by (unfold year; lra).
  destruct (Rle_dec _ 0) as [H|H]; [exfalso; nra|]. do 2 f_equal. unfold Rdiv. rewrite Rinv_r; [reflexivity|]. apply Rgt_not_eq. assert (forall x, 0 < x -> 0 < sqrt x * year * 1000) as Q by (intros x Hx; pose proof (sqrt_lt_R0 x Hx); assert (0 < sqrt x * year) by (apply Rmult_lt_0_compat; assumption); lra). apply Q. apply Rdiv_lt_0_compat; [lra|nra].
Qed.
Theorem C157_normalized_refuted : ~ (forall mags atm baseline vs r, (forall v, In v vs -> has_error atm v /\ 0 <= av_mjd v <= baseline * year) -> proper_motion_run mags atm (Some baseline) vs = Ok (Some r) -> r <= 1).
Proof.
  intros C. assert (0 < year) as Y by (unfold year; lra). specialize (C (flat 20) 0 1 pm_a (sqrt (25/16))). assert (sqrt (25/16) = 5/4) as S by (replace (25/16) with (5/4 * (5/4)) by lra; apply sqrt_square; lra). rewrite S in C. assert (5/4 <= 1); [|lra]. apply C; [|rewrite <- S; apply pm_a_value].
  intros v Hv. cbn in Hv. destruct Hv as [<-|[<-|[<-|[<-|[]]]]]; (split; [right; cbn; lra|cbn; lra]).
Qed.
Print Assumptions C157_normalized_refuted.
Theorem C157_normalized_order_refuted : ~ (forall mags atm baseline vs vs' r r', Permutation vs vs' -> proper_motion_run mags atm (Some baseline) vs = Ok (Some r) -> proper_motion_run mags atm (Some baseline) vs' = Ok (Some r') -> r = r').
Proof.
  intros C. assert (Permutation pm_a pm_b) as P by (apply perm_skip, perm_swap). pose proof (C (flat 20) 0 1 pm_a pm_b _ _ P pm_a_value pm_b_value) as E. assert (sqrt (25/16) = 5/4) as S by (replace (25/16) with (5/4 * (5/4)) by lra; apply sqrt_square; lra). lra.
Qed.
Print Assumptions C157_normalized_order_refuted.
(** it holds when all visits have the same error *)
Theorem C157_normalized_partial : forall mags atm baseline vs r e d, 0 < e -> 0 < baseline -> (forall v, In v vs -> perr mags atm v = e /\ d <= av_mjd v <= d + baseline * year) -> proper_motion_run mags atm (Some baseline) vs = Ok (Some r) -> 0 < r <= 1.
Proof.
  intros mags atm baseline vs r e d He Hb H E. unfold proper_motion_run in E. destruct (map_ok (pos_error mags atm) (pm_good vs)) as [errs|] eqn:M; [|discriminate]. cbn [bind] in E. rewrite (errs_eq _ _ _ _ M) in E.
  assert (forall v, In v (pm_good vs) -> perr mags atm v = e /\ d <= av_mjd v <= d + baseline * year) as H' by (intros v Hv; apply H; apply filter_In in Hv; apply Hv). clear H M. set (g := pm_good vs) in *. clearbody g.
  assert (map (perr mags atm) g = repeat e (length g)) as R0 by (clear E; induction g as [|v g IH]; [reflexivity|]; cbn; rewrite (proj1 (H' v (or_introl eq_refl))), IH by (intros; apply H'; right; assumption); reflexivity).
  rewrite R0, repeat_length in E. set (xs := map av_mjd g) in *. assert (length xs = length g) as Lx by (unfold xs; apply map_length).
  assert (forall (l : list R) k, length l = k -> combine l (repeat e k) = map (fun x => (x, e)) l) as Cb by (intros l; induction l as [|x l IH]; intros k <-; [reflexivity|]; cbn; rewrite IH by reflexivity; reflexivity).
  rewrite (Cb xs _ Lx), (Cb _ _ (norm_dates_length baseline (length g))) in E.
  assert (uncertain (map (fun x => (x, e)) xs)) as U by (intros p Hp; apply in_map_iff in Hp; destruct Hp as (x & <- & _); exact He).
  destruct (C156_invariant (map (fun x => (x, e)) xs) (- d) U) as (Sh & _ & _). rewrite map_map in Sh. cbn [fst snd] in Sh. rewrite <- (map_map (fun x => x + - d) (fun x => (x, e))) in Sh. rewrite <- Sh in E. set (ys := map (fun x => x + - d) xs) in *.
  assert (forall y, In y ys -> 0 <= y <= baseline * year) as By. { intros y Hy. apply in_map_iff in Hy. destruct Hy as (x & <- & Hx). apply in_map_iff in Hx. destruct Hx as (v & <- & Hv). destruct (H' v Hv) as [_ Hd]. lra. }
  assert (length ys = length g) as Ly by (unfold ys; rewrite map_length; exact Lx).
  assert (0 < year) as Y by (unfold year; lra). pose proof (best_dates (baseline * year) ys ltac:(assert (0 < baseline * year) by (apply Rmult_lt_0_compat; assumption); lra) By) as BD. rewrite Ly in BD. rewrite <- (norm_dates_denom baseline (length g)) in BD.
  assert (slope_denom (map (fun x => (x, e)) ys) <= slope_denom (map (fun x => (x, e)) (norm_dates baseline (length g)))) as LD.
  { rewrite !denom_same by exact He. rewrite Ly, norm_dates_length. apply Rmult_le_compat_l; [|exact BD]. apply square_nonneg. }
  assert (forall l, length l = length g -> rsum (map wgt (map (fun x : R => (x, e)) l)) = INR (length g) * (1 / (e * e))) as W by (intros l <-; rewrite map_map; unfold wgt; cbn [snd]; rewrite <- rsum_repeat; f_equal; clear; induction l as [|x l IH]; [reflexivity|]; cbn; rewrite IH; reflexivity).
  unfold sigma_slope in E. rewrite (W ys Ly), (W _ (norm_dates_length _ _)) in E. set (D1 := slope_denom (map (fun x => (x, e)) ys)) in *. set (D2 := slope_denom (map (fun x => (x, e)) (norm_dates baseline (length g)))) in *. set (w := INR (length g) * (1 / (e * e))) in *.
  destruct (Rle_dec D1 0) as [N1|P1]; [discriminate|]. destruct (Rle_dec D2 0) as [N2|P2]; [discriminate|]. injection E as <-.
  assert (g <> []) as Ng by (intros ->; apply P1; unfold D1, ys, xs, slope_denom; cbn; lra). assert (0 < w) as Hw.
  { unfold w. apply Rmult_lt_0_compat; [apply lt_0_INR; destruct g; [congruence|cbn; lia]|]. apply Rdiv_lt_0_compat; [lra|]. apply Rmult_lt_0_compat; assumption. }
  rewrite sqrt_div_sq; [|apply Rdiv_lt_0_compat; lra|apply Rdiv_lt_0_compat; lra|exact Y|lra]. replace (w / D2 / (w / D1)) with (D1 / D2) by (field; lra). split; [apply sqrt_lt_R0, Rdiv_lt_0_compat; lra|].
  rewrite <- sqrt_1. apply sqrt_le_1_alt. apply Rmult_le_reg_r with D2; [lra|]. unfold Rdiv. rewrite Rmult_assoc, Rinv_l by lra. lra.
Qed.
Print Assumptions C157_normalized_partial.
Example C157_case : proper_motion_run (flat 20) 0 (Some 1) pm_b = Ok (Some 1) /\ (forall v, In v pm_b -> has_error 0 v /\ flat 20 (av_band v) <> None).
Proof. split; [exact pm_b_value|]. intros v Hv. cbn in Hv. destruct Hv as [<-|[<-|[<-|[<-|[]]]]]; (split; [right; cbn; lra|discriminate]). Qed.
