(** Properties of the surface brightness limits: C288 and C289. *)
From Coq Require Import String Ascii Reals ZArith Lra Lia Psatz List Permutation.
From Verif Require Import Base Depth_Model Depth_Spec Depth_Proofs Lens_Model Lens_Spec Lens_Proofs Small_Spec Lens_Props.
Import ListNotations.
Open Scope R_scope.

(** ** C288: surface_brightness_limit_approx *)
(** At the limit the signal to noise ratio is below [nsigma], by at most a factor of the square root of three. *)
Theorem C288_bounds : forall zp k airmass mu_sky rn pixscale nsigma t_exp tot_area,
  0 < rn -> 0 < pixscale -> 0 < nsigma -> 0 < t_exp -> 0 < tot_area ->
  let lim := sb_limit (sb_limits zp k airmass mu_sky rn pixscale nsigma t_exp tot_area) in
  nsigma / sqrt 3 <= snr zp (k * airmass) t_exp tot_area mu_sky rn pixscale lim < nsigma.
Proof.
  intros zp k am mus rn pix n t area Hrn Hpix Hn Ht Ha lim.
  destruct (S_limit_ge zp k am mus rn pix n t area Hrn Hpix Hn Ht Ha) as (A & B & C).
  pose proof (S_limit_eq zp k am mus rn pix n t area Hrn Hpix Hn Ht Ha) as E. fold lim in A, B, C, E.
  pose proof (S_pos zp k am t area Ht Ha lim) as PS. pose proof (B_pos zp mus t area Ht Ha) as PB. pose proof (V_pos rn pix area Hrn Hpix Ha) as PV.
  set (s := signal zp (k * am) t area lim) in *. set (bb := sky_counts zp t area mus) in *. set (vv := read_var rn pix area) in *.
  assert (S3 : 0 < sqrt 3) by (apply sqrt_lt_R0; lra).
  assert (Pn : 0 < n ^ 2) by (now apply pow_lt).
  split.
  - apply (snr_ge zp k am mus rn pix t area Hrn Hpix Ht Ha lim (n / sqrt 3)); [now apply Rdiv_lt_0_compat|]. fold s bb vv.
    replace ((n / sqrt 3) ^ 2) with (n ^ 2 / 3).
    2: { unfold Rdiv. rewrite Rpow_mult_distr. f_equal. rewrite pow_inv. f_equal. rewrite pow2_sqrt; lra. }
    assert (n ^ 2 * s <= s * s) by (apply Rmult_le_compat_r; lra). nra.
  - apply (snr_lt zp k am mus rn pix t area Hrn Hpix Ht Ha lim n Hn). fold s bb vv.
    pose proof (Rmult_lt_0_compat _ _ Pn PS). pose proof (Rmult_lt_0_compat _ _ Pn PB). pose proof (Rmult_lt_0_compat _ _ Pn PV).
    destruct E as [E|[E|E]]; lra.
Qed.
Print Assumptions C288_bounds.
(** The documented meaning, "the surface brightness that reaches SNR=nsigma", holds for no input. *)
Theorem C288_reach_refuted : forall zp k airmass mu_sky rn pixscale nsigma t_exp tot_area,
  0 < rn -> 0 < pixscale -> 0 < nsigma -> 0 < t_exp -> 0 < tot_area ->
  ~ nsigma <= snr zp (k * airmass) t_exp tot_area mu_sky rn pixscale
                  (sb_limit (sb_limits zp k airmass mu_sky rn pixscale nsigma t_exp tot_area)).
Proof.
  intros zp k am mus rn pix n t area Hrn Hpix Hn Ht Ha.
  destruct (C288_bounds zp k am mus rn pix n t area Hrn Hpix Hn Ht Ha). lra.
Qed.
Print Assumptions C288_reach_refuted.
(** It is reached at [2.5 log10 2] (0.75) magnitudes brighter, whatever the input. *)
Theorem C288_margin : forall zp k airmass mu_sky rn pixscale nsigma t_exp tot_area,
  0 < rn -> 0 < pixscale -> 0 < nsigma -> 0 < t_exp -> 0 < tot_area ->
  let lim := sb_limit (sb_limits zp k airmass mu_sky rn pixscale nsigma t_exp tot_area) in
  nsigma <= snr zp (k * airmass) t_exp tot_area mu_sky rn pixscale (lim - 2.5 * (ln 2 / ln 10)).
Proof.
  intros zp k am mus rn pix n t area Hrn Hpix Hn Ht Ha lim.
  destruct (S_limit_ge zp k am mus rn pix n t area Hrn Hpix Hn Ht Ha) as (A & B & C). fold lim in A, B, C.
  apply (snr_ge zp k am mus rn pix t area Hrn Hpix Ht Ha _ n Hn).
  rewrite S_shift by lra. pose proof (S_pos zp k am t area Ht Ha lim) as PS.
  set (s := signal zp (k * am) t area lim) in *.
  assert (n ^ 2 * s <= s * s) by (apply Rmult_le_compat_r; lra). nra.
Qed.
Print Assumptions C288_margin.
Lemma rmin_same x : Rmin x x = x.
Proof. apply Rmin_left. apply Rle_refl. Qed.
Lemma unit_limits : sb_limits 0 0 0 0 1 1 1 1 1 = {| sky_lim := 0; source_lim := 0; rn_lim := 0 |}.
Proof.
  unfold sb_limits. replace (1 / 1 ^ 2) with 1 by field. rewrite sqrt_1.
  replace (1 ^ 2 / (1 ^ 2 * 1 * 1)) with 1 by field. replace (1 * 1 / (1 * 1 ^ 2 * 1)) with 1 by field. replace (1 * 1 ^ 2 * 1) with 1 by ring.
  assert (L1 : log10 1 = 0) by (unfold log10; rewrite ln_1; unfold Rdiv; ring). rewrite L1. f_equal; lra.
Qed.
(** The 0.38 magnitudes of the warning are not enough. *)
Theorem C288_warning_refuted : ~ (forall zp k airmass mu_sky rn pixscale nsigma t_exp tot_area,
  0 < rn -> 0 < pixscale -> 0 < nsigma -> 0 < t_exp -> 0 < tot_area ->
  let l := sb_limits zp k airmass mu_sky rn pixscale nsigma t_exp tot_area in
  sb_warn 0.1 l = true ->
  nsigma <= snr zp (k * airmass) t_exp tot_area mu_sky rn pixscale (sb_limit l - 0.38)).
Proof.
  intro H. specialize (H 0 0 0 0 1 1 1 1 1 ltac:(lra) ltac:(lra) ltac:(lra) ltac:(lra) ltac:(lra)). cbv zeta in H.
  rewrite unit_limits in H. unfold sb_limit in H. cbn [sky_lim source_lim rn_lim] in H. rewrite !rmin_same in H.
  assert (W : sb_warn 0.1 {| sky_lim := 0; source_lim := 0; rn_lim := 0 |} = true).
  { unfold sb_warn. cbn [sky_lim source_lim rn_lim]. replace (0 - 0) with 0 by ring. rewrite Rabs_R0. rewrite !rmin_same. apply rltb_true. lra. }
  specialize (H W). apply (snr_ge 0 0 0 0 1 1 1 1 ltac:(lra) ltac:(lra) ltac:(lra) ltac:(lra) _ 1 ltac:(lra)) in H.
  assert (BB : sky_counts 0 1 1 0 = 1).
  { unfold sky_counts. replace (- 0.4 * (0 - 0)) with 0 by ring. rewrite Rpower_O by lra. ring. }
  assert (VV : read_var 1 1 1 = 1) by (unfold read_var; field).
  rewrite BB, VV in H.
  assert (SS : signal 0 (0 * 0) 1 1 (0 - 0.38) < 2).
  { unfold signal. replace (- 0.4 * (0 - 0.38 + 0 * 0 - 0)) with 0.152 by lra.
    assert (Rpower 10 0.152 < Rpower 10 (/ 4)) by (apply Rpower_lt; lra).
    assert (Rpower 10 (/ 4) < Rpower 16 (/ 4)) by (unfold Rpower; apply exp_increasing; apply Rmult_lt_compat_l; [lra|]; apply ln_increasing; lra).
    assert (Rpower 16 (/ 4) = 2).
    { replace 16 with (Rpower 2 (INR 4)) by (rewrite Rpower_pow by lra; cbn [pow]; lra). rewrite Rpower_mult.
      replace (INR 4 * / 4) with 1 by (cbn; lra). apply Rpower_1. lra. }
    lra. }
  pose proof (S_pos 0 0 0 1 1 ltac:(lra) ltac:(lra) (0 - 0.38)) as P.
  set (s := signal 0 (0 * 0) 1 1 (0 - 0.38)) in *. nra.
Qed.
Print Assumptions C288_warning_refuted.
Lemma div_sqrt s v n : 0 < s -> 0 < v -> 0 < n -> s ^ 2 = n ^ 2 * v -> s / sqrt v = n.
Proof.
  intros Ps Pv Pn E. assert (Q : 0 < sqrt v) by now apply sqrt_lt_R0.
  assert (s = n * sqrt v); [|subst; field; lra].
  apply Rsqr_inj; [lra| |].
  - left. now apply Rmult_lt_0_compat.
  - rewrite Rsqr_mult. unfold Rsqr. rewrite sqrt_sqrt by lra. nra.
Qed.
(** The limit is the brightest of the limits of the three kinds of noise, each of which reaches [nsigma] exactly. *)
Theorem C288_brightest : forall zp k airmass mu_sky rn pixscale nsigma t_exp tot_area,
  0 < rn -> 0 < pixscale -> 0 < nsigma -> 0 < t_exp -> 0 < tot_area ->
  SurfaceLimit zp (k * airmass) t_exp tot_area mu_sky rn pixscale nsigma
               (sb_limit (sb_limits zp k airmass mu_sky rn pixscale nsigma t_exp tot_area)).
Proof.
  intros zp k am mus rn pix n t area Hrn Hpix Hn Ht Ha. set (l := sb_limits zp k am mus rn pix n t area).
  exists (source_lim l), (sky_lim l), (rn_lim l).
  split. { apply div_sqrt; try assumption; try (apply S_pos; assumption). unfold l. rewrite S_source by assumption. ring. }
  split. { apply div_sqrt; try assumption; [apply S_pos; assumption|apply B_pos; assumption|]. now apply S_sky. }
  split. { apply div_sqrt; try assumption; [apply S_pos; assumption|apply V_pos; assumption|]. now apply S_rn. }
  unfold sb_limit. pose proof (Rmin_l (Rmin (sky_lim l) (source_lim l)) (rn_lim l)). pose proof (Rmin_r (Rmin (sky_lim l) (source_lim l)) (rn_lim l)).
  pose proof (Rmin_l (sky_lim l) (source_lim l)). pose proof (Rmin_r (sky_lim l) (source_lim l)).
  repeat (split; [lra|]). destruct (Rle_dec (Rmin (sky_lim l) (source_lim l)) (rn_lim l)).
  - rewrite (Rmin_left _ (rn_lim l)) by assumption. destruct (Rle_dec (sky_lim l) (source_lim l)); [rewrite Rmin_left|rewrite Rmin_right]; auto; lra.
  - rewrite (Rmin_right _ (rn_lim l)) by lra. auto.
Qed.
Print Assumptions C288_brightest.
(** ... and this determines it. *)
Theorem C288_unique : forall zp ext t area mu_sky rn pixscale nsigma l l', 0 < rn -> 0 < pixscale -> 0 < t -> 0 < area ->
  SurfaceLimit zp ext t area mu_sky rn pixscale nsigma l -> SurfaceLimit zp ext t area mu_sky rn pixscale nsigma l' -> l = l'.
Proof.
  intros zp ext t area mus rn pix n l l' Hrn Hpix Ht Ha (a & b & c & A & B & C & L1 & L2 & L3 & L4) (a' & b' & c' & A' & B' & C' & L1' & L2' & L3' & L4').
  assert (TA : 0 < t * area) by now apply Rmult_lt_0_compat.
  assert (PS : forall x, 0 < signal zp ext t area x) by (intro x; unfold signal; apply Rmult_lt_0_compat; [exact TA|apply exp_pos]).
  assert (INJ : forall x y, signal zp ext t area x = signal zp ext t area y -> x = y).
  { intros x y E. unfold signal in E. apply Rmult_eq_reg_l in E; [|lra]. apply Rpower_inj_10 in E. lra. }
  assert (DIV : forall x y v, 0 < v -> signal zp ext t area x / sqrt v = n -> signal zp ext t area y / sqrt v = n -> x = y).
  { intros x y v Pv E F. apply INJ. assert (0 < sqrt v) by now apply sqrt_lt_R0.
    rewrite <- F in E. unfold Rdiv in E. apply Rmult_eq_reg_r in E; [exact E|]. apply Rinv_neq_0_compat. lra. }
  assert (b = b') by (eapply DIV; [|exact B|exact B']; unfold sky_counts; apply Rmult_lt_0_compat; [exact TA|apply exp_pos]).
  assert (c = c') by (eapply DIV; [|exact C|exact C']; apply V_pos; assumption).
  assert (a = a').
  { apply INJ. assert (R : forall x, signal zp ext t area x / sqrt (signal zp ext t area x) = sqrt (signal zp ext t area x)).
    { intro x. pose proof (PS x). assert (0 < sqrt (signal zp ext t area x)) by now apply sqrt_lt_R0.
      rewrite <- (sqrt_sqrt (signal zp ext t area x)) at 1 by lra. field. lra. }
    rewrite R in A, A'. rewrite <- A' in A. apply sqrt_inj in A; [exact A| |]; left; apply PS. }
  subst. destruct L4 as [E | [E | E]], L4' as [F | [F | F]]; lra.
Qed.
Print Assumptions C288_unique.
Example C288_case : SurfaceLimit 0 (0 * 0) 1 1 0 1 1 1 0 /\ snr 0 (0 * 0) 1 1 0 1 1 0 < 1.
Proof.
  pose proof (C288_brightest 0 0 0 0 1 1 1 1 1 ltac:(lra) ltac:(lra) ltac:(lra) ltac:(lra) ltac:(lra)) as H.
  pose proof (C288_bounds 0 0 0 0 1 1 1 1 1 ltac:(lra) ltac:(lra) ltac:(lra) ltac:(lra) ltac:(lra)) as G. cbv zeta in G.
  rewrite unit_limits in H, G. unfold sb_limit in H, G. cbn [sky_lim source_lim rn_lim] in H, G. rewrite !rmin_same in H, G.
  split; [exact H|apply G].
Qed.

(** ** C289: SurfaceBrightLimitMetric *)
Definition Positive (v : visit) : Prop := 0 < v_exp v /\ 0 < v_nexp v.
Lemma first_name_const leb b l : (forall c, In c l -> c = b) -> first_name leb b l = b.
Proof.
  revert b. induction l as [|c l IH]; intros b H; [reflexivity|]. cbn. rewrite (H c) by (now left). destruct (leb b b); apply IH; intros; apply H; now right.
Qed.
Lemma surf_sum l : rsum (map (fun x => Rpower 10 (4/5 * x)) l) = fold_right Rplus 0 (map (fun x => Rpower 10 (0.8 * x)) l).
Proof. replace 0.8 with (4/5) by lra. reflexivity. Qed.
Lemma surf_sum_pos l : l <> [] -> 0 < fold_right Rplus 0 (map (fun x => Rpower 10 (0.8 * x)) l).
Proof.
  intro N. destruct l as [|x l]; [congruence|]. clear N. revert x. induction l as [|y l IH]; intro x; cbn [map fold_right].
  - rewrite Rplus_0_r. apply exp_pos.
  - specialize (IH y). cbn [map fold_right] in IH. pose proof (exp_pos (0.8 * x * ln 10)) as P. fold (Rpower 10 (0.8 * x)) in P. lra.
Qed.
(** Visits of one band: the limit [r] is that of the co-added visits, [10^(0.8 r)] being the sum of [10^(0.8 lim)] over the
    visits' own limits, the read noise growing with the square root of the number of exposures. *)
Theorem C289_value : forall leb inst zpt k_atm pixscale nsigma tot_area readnoise filter_col t b zp ka,
  In filter_col (t_cols t) -> t_rows t <> [] -> (forall v, In v (t_rows t) -> v_str v filter_col = b /\ Positive v) ->
  0 < pixscale -> 0 < nsigma -> 0 < tot_area -> 0 < readnoise ->
  match zpt with None => lookup (fst inst) b = Some zp /\ lookup (snd inst) b = Some ka
               | Some z => lookup z b = Some zp /\ exists k, k_atm = Some k /\ lookup k b = Some ka end ->
  exists r lims, surfb_run leb inst zpt k_atm pixscale nsigma tot_area readnoise filter_col t = Ok r
  /\ Forall2 (fun v lim => SurfaceLimit zp (ka * v_airmass v) (v_exp v) tot_area (v_sky v) (readnoise * sqrt (v_nexp v)) pixscale nsigma lim) (t_rows t) lims
  /\ Rpower 10 (0.8 * r) = fold_right Rplus 0 (map (fun x => Rpower 10 (0.8 * x)) lims).
Proof.
  intros leb inst zpt k_atm pix n area rno fc t b zp ka HC NE HV Hpix Hn Ha Hr Z. apply has_in in HC.
  unfold surfb_run, column. rewrite HC. cbn [bind].
  destruct (map (fun v => v_str v fc) (t_rows t)) as [|c rest] eqn:M.
  { destruct (t_rows t); [congruence|discriminate]. }
  assert (ALL : forall d, In d (c :: rest) -> d = b).
  { intros d I. rewrite <- M in I. apply in_map_iff in I. destruct I as (v & <- & I). now apply HV. }
  rewrite (ALL c) by (now left). rewrite first_name_const by (intros d I; apply ALL; now right).
  set (lims := map (fun v => sb_limit (sb_limits zp ka (v_airmass v) (v_sky v) (rno * sqrt (v_nexp v)) pix n (v_exp v) area)) (t_rows t)).
  assert (NL : lims <> []) by (unfold lims; destruct (t_rows t); [congruence|discriminate]).
  exists (5/4 * log10 (rsum (map (fun x => Rpower 10 (4/5 * x)) lims))), lims.
  split.
  - assert (K : (let '(z, k) := sb_zeropoints inst zpt k_atm in
                 do zp <- key z b; do ka <- match k with None => Err TypeError | Some d => key d b end; Ok (zp, ka)) = Ok (zp, ka)).
    { destruct zpt as [z|]; cbn [sb_zeropoints]; unfold key.
      - destruct Z as (-> & k & -> & ->). reflexivity.
      - destruct Z as (-> & ->). reflexivity. }
    destruct (sb_zeropoints inst zpt k_atm) as [z k]. destruct (key z b) as [zp'|]; [|discriminate]. cbn [bind] in *.
    destruct (match k with None => Err TypeError | Some d => key d b end) as [ka'|]; [|discriminate]. cbn [bind] in *.
    injection K as -> ->. unfold lims. rewrite map_map. reflexivity.
  - split.
    + unfold lims. clear - HV Hpix Hn Ha Hr. induction (t_rows t) as [|v l IH]; [constructor|]. cbn [map]. constructor.
      * destruct (HV v (or_introl eq_refl)) as [_ [P Q]]. apply C288_brightest; try assumption. apply Rmult_lt_0_compat; [assumption|now apply sqrt_lt_R0].
      * apply IH. intros; apply HV; now right.
    + rewrite surf_sum. replace (0.8 * (5 / 4 * log10 (fold_right Rplus 0 (map (fun x => Rpower 10 (0.8 * x)) lims)))) with (log10 (fold_right Rplus 0 (map (fun x => Rpower 10 (0.8 * x)) lims))) by lra.
      apply log10_Rpower. now apply surf_sum_pos.
Qed.
Print Assumptions C289_value.
Example C289_value_case : exists r, surfb_run (fun _ _ => true) ([("r", 28)], [("r", 0.1)])%string None None 0.2 3 100 8.8 "band" (tab [mk "r" 24 30; mk "r" 24 15]) = Ok r.
Proof.
  destruct (C289_value (fun _ _ => true) ([("r", 28)], [("r", 0.1)])%string None None 0.2 3 100 8.8 "band" (tab [mk "r" 24 30; mk "r" 24 15]) "r" 28 0.1) as (r & l & E & _).
  - now left.
  - discriminate.
  - intros v [<-|[<-|[]]]; split; try reflexivity; split; cbn; lra.
  - lra.
  - lra.
  - lra.
  - lra.
  - split; reflexivity.
  - eauto.
Qed.
(** Visits of several bands are not refused: one band's zero point is used for all of them. *)
Theorem C289_bands_refuted : ~ (forall leb inst pixscale nsigma tot_area readnoise t,
  (exists v w, In v (t_rows t) /\ In w (t_rows t) /\ v_str v "band"%string <> v_str w "band"%string) ->
  exists e, surfb_run leb inst None None pixscale nsigma tot_area readnoise "band" t = Err e).
Proof.
  intro H. destruct (H (fun _ _ => true) ([("g", 28)], [("g", 0.1)])%string 0.2 3 100 8.8 (tab [mk "g" 24 30; mk "r" 24 30])) as (e & E).
  - exists (mk "g" 24 30), (mk "r" 24 30). cbn. repeat split; auto; discriminate.
  - discriminate E.
Qed.
Print Assumptions C289_bands_refuted.
(** A zero point without extinction coefficients raises for every slice; extinction coefficients without a zero point are
    ignored. *)
Theorem C289_katm_refuted : forall leb inst zpt pixscale nsigma tot_area readnoise filter_col t,
  In filter_col (t_cols t) -> t_rows t <> [] -> (forall v, In v (t_rows t) -> lookup zpt (v_str v filter_col) <> None) ->
  surfb_run leb inst (Some zpt) None pixscale nsigma tot_area readnoise filter_col t = Err TypeError.
Proof.
  intros leb inst zpt pix n area rno fc t HC NE HZ. apply has_in in HC. unfold surfb_run, column. rewrite HC. cbn [bind].
  destruct (map (fun v => v_str v fc) (t_rows t)) as [|c rest] eqn:M.
  { destruct (t_rows t); [congruence|discriminate]. }
  cbn [sb_zeropoints]. assert (I : In (first_name leb c rest) (c :: rest)).
  { clear. revert c. induction rest as [|d r IH]; intro c; [now left|]. cbn. destruct (leb c d).
    - destruct (IH c) as [E|I]; auto.
    - destruct (IH d) as [E|I]; auto. }
  rewrite <- M in I. apply in_map_iff in I. destruct I as (v & E & I). rewrite <- E. unfold key.
  specialize (HZ v I). destruct (lookup zpt (v_str v fc)); [reflexivity|congruence].
Qed.
Print Assumptions C289_katm_refuted.
Example C289_katm_case : surfb_run (fun _ _ => true) ([], []) (Some [("r", 28)]%string) None 0.2 3 100 8.8 "band" (tab [mk "r" 24 30]) = Err TypeError.
Proof.
  apply C289_katm_refuted; [now left|discriminate|]. intros v [<-|[]]. discriminate.
Qed.
Theorem C289_given_refuted : forall leb inst k_atm pixscale nsigma tot_area readnoise filter_col t,
  surfb_run leb inst None k_atm pixscale nsigma tot_area readnoise filter_col t
  = surfb_run leb inst None None pixscale nsigma tot_area readnoise filter_col t.
Proof. reflexivity. Qed.
Print Assumptions C289_given_refuted.
