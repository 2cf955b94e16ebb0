(** C403-C406: the distance to which young stars are seen, and their density. *)
From Coq Require Import String.
From Verif Require Import Base Young_Model Young_Spec.
From Verif Require Depth_Model Astrom_Model Archive_Proofs.
From Coq Require Import Reals Lra Lia List.
Import ListNotations.
Open Scope R_scope.

Lemma ln10_pos : 0 < ln 10.
Proof. rewrite <- ln_1. apply ln_increasing; lra. Qed.
Lemma rp_pos x : 0 < Rpower 10 x.
Proof. apply exp_pos. Qed.
Lemma rp_le x y : x <= y -> Rpower 10 x <= Rpower 10 y.
Proof. intros H. apply Rle_Rpower; lra. Qed.
Lemma log10_rp x : Depth_Model.log10 (Rpower 10 x) = x.
Proof. unfold Depth_Model.log10, Rpower. rewrite ln_exp. field. pose proof ln10_pos. lra. Qed.
Lemma log10_le x y : 0 < x -> x <= y -> Depth_Model.log10 x <= Depth_Model.log10 y.
Proof.
  intros P L. unfold Depth_Model.log10, Rdiv. apply Rmult_le_compat_r; [left; apply Rinv_0_lt_compat, ln10_pos|].
  destruct L as [L| ->]; [left; apply ln_increasing; assumption|right; reflexivity].
Qed.
Lemma rp_log10 x : 0 < x -> Rpower 10 (Depth_Model.log10 x) = x.
Proof. intros P. unfold Rpower, Depth_Model.log10. replace (ln x / ln 10 * ln 10) with (ln x) by (field; pose proof ln10_pos; lra). apply exp_ln, P. Qed.
Lemma sqrt100 y : sqrt (Rpower 100 (y / 5)) = Rpower 10 (y / 5).
Proof.
  rewrite <- (sqrt_square (Rpower 10 (y / 5))) by (left; apply rp_pos). f_equal.
  replace 100 with (10 * 10) by ring. rewrite <- Rpower_mult_distr by lra. reflexivity.
Qed.
Lemma sum_is l : Astrom_Model.rsum (map (fun v => Rpower 10 (4/5 * v_m5 v)) l) = fold_right (fun m s => Rpower 10 (4/5 * m) + s) 0 (map v_m5 l).
Proof. unfold Astrom_Model.rsum. induction l as [|v l IH]; [reflexivity|]. cbn. rewrite IH. reflexivity. Qed.
Lemma sum_nonneg l : 0 <= fold_right (fun m s => Rpower 10 (4/5 * m) + s) 0 l.
Proof. induction l as [|m l IH]; cbn; [lra|]. pose proof (rp_pos (4/5 * m)). lra. Qed.
Lemma sum_pos l : l <> [] -> 0 < fold_right (fun m s => Rpower 10 (4/5 * m) + s) 0 l.
Proof. destruct l as [|m l]; [congruence|]. intros _. cbn. pose proof (rp_pos (4/5 * m)). pose proof (sum_nonneg l). lra. Qed.
Lemma depth_m5_is vs b : match depth_m5 vs b with Some d => Coadded (map v_m5 (filter (fun v => String.eqb (v_band v) b) vs)) d | None => forall v, In v vs -> v_band v <> b end.
Proof.
  unfold depth_m5. destruct (filter (fun v => String.eqb (v_band v) b) vs) as [|v l] eqn:F.
  - intros v I E. assert (K : In v (filter (fun v => String.eqb (v_band v) b) vs)) by (apply filter_In; split; [exact I|apply String.eqb_eq, E]). rewrite F in K. exact K.
  - split; [discriminate|]. rewrite sum_is. set (s := fold_right _ _ _).
    replace (4/5 * (5/4 * Depth_Model.log10 s)) with (Depth_Model.log10 s) by field. apply rp_log10. apply sum_pos. discriminate.
Qed.
Lemma key_in (d : dict) k x : key d k = Ok x -> In (k, x) d.
Proof.
  unfold key. induction d as [|[k' y] d IH]; [discriminate|]. cbn. destruct (String.eqb_spec k k') as [->|N].
  - rewrite ?String.eqb_refl. intros H. injection H as <-. left; reflexivity.
  - destruct (String.eqb_spec k' k) as [->|_]; [congruence|]. intros H. right. apply IH, H.
Qed.
Lemma distances_nth du crowd snrs vs mags l : distances du crowd snrs vs mags = Ok l ->
  length l = length mags /\ forall j b mag, nth_error mags j = Some (b, mag) ->
    exists s x, nth_error l j = Some x /\ key snrs b = Ok s /\ distance du b mag (m_app s (depth crowd vs b)) = Ok x.
Proof.
  revert l. induction mags as [|[b mag] mags IH]; intros l H; cbn in H.
  - injection H as <-. split; [reflexivity|]. intros [|j]; discriminate.
  - destruct (key snrs b) as [s|] eqn:K; [|discriminate]. cbn in H.
    destruct (distance du b mag (m_app s (depth crowd vs b))) as [x|] eqn:D; [|discriminate]. cbn in H.
    destruct (distances du crowd snrs vs mags) as [r|] eqn:R; [|discriminate]. cbn in H. injection H as <-.
    destruct (IH r eq_refl) as (L & F). split; [cbn; rewrite L; reflexivity|]. intros [|j] b' mag' N; cbn [nth_error] in N |- *.
    + injection N as <- <-. exists s, x. auto.
    + apply F, N.
Qed.
Lemma fold_min_spec l x : let m := fold_left Rmin l x in (m = x \/ In m l) /\ m <= x /\ forall y, In y l -> m <= y.
Proof.
  revert x. induction l as [|y l IH]; intros x; cbn; [split; [left; reflexivity|split; [lra|contradiction]]|].
  destruct (IH (Rmin x y)) as (A & B & C). pose proof (Rmin_l x y). pose proof (Rmin_r x y). split; [|split].
  - destruct A as [A|A]; [|right; right; exact A]. destruct (Rle_dec x y) as [Q|Q]; [left; rewrite A; apply Rmin_left, Q|right; left; rewrite A; symmetry; apply Rmin_right; lra].
  - lra.
  - intros z [<-|Z]; [lra|apply C, Z].
Qed.
Lemma final_inv du crowd snrs vs mags D : final_distance du crowd snrs vs mags = Ok D ->
  exists l, distances du crowd snrs vs mags = Ok l /\ In (1000 * D) l /\ forall x, In x l -> 1000 * D <= x.
Proof.
  unfold final_distance. destruct (distances du crowd snrs vs mags) as [l|]; [|discriminate]. cbn [bind]. destruct l as [|x t]; [discriminate|].
  intros H. injection H as <-. exists (x :: t). split; [reflexivity|]. replace (1000 * (fold_left Rmin t x / 1000)) with (fold_left Rmin t x) by field.
  destruct (fold_min_spec t x) as (A & B & C). split; [destruct A as [->|A]; [left; reflexivity|right; exact A]|]. intros y [<-|Y]; [exact B|apply C, Y].
Qed.

(** *** C403: the distance at which the star is just seen in the most demanding band.
    Full statement: the same for the dust map in three dimensions, the default ([Deep]).  Missing: in that map the distance is
    that of the nearest entry, see C305. *)
Lemma flat_pos ax1 ebv b mag m x : distance (Flat ax1 ebv) b mag (Some m) = Ok x -> exists a, key ax1 b = Ok a /\ 0 < x /\ Seen mag (a * ebv) x m.
Proof.
  cbn. destruct (key ax1 b) as [a|]; [|discriminate]. cbn. intros H. injection H as <-. exists a. split; [reflexivity|]. rewrite sqrt100. split; [pose proof (rp_pos ((m - a * ebv - mag) / 5)); lra|].
  unfold Seen. replace (10 * Rpower 10 ((m - a * ebv - mag) / 5) / 10) with (Rpower 10 ((m - a * ebv - mag) / 5)) by field.
  fold (Depth_Model.log10 (Rpower 10 ((m - a * ebv - mag) / 5))). rewrite log10_rp. field.
Qed.
Theorem C403_reach_partial : forall ax1 ebv crowd snrs vs mags D,
  (forall b mag, In (b, mag) mags -> exists v, In v vs /\ v_band v = b) ->
  final_distance (Flat ax1 ebv) crowd snrs vs mags = Ok D ->
  0 < D /\
  (forall b mag, In (b, mag) mags -> exists snr a d0 seen lim, In (b, snr) snrs /\ In (b, a) ax1 /\
     Coadded (map v_m5 (filter (fun v => String.eqb (v_band v) b) vs)) d0 /\
     Seen mag (a * ebv) (1000 * D) seen /\ AtSnr snr (match crowd with Some c => Rmin d0 (c b) | None => d0 end) lim /\ seen <= lim) /\
  (exists b mag snr a d0 m, In (b, mag) mags /\ In (b, snr) snrs /\ In (b, a) ax1 /\
     Coadded (map v_m5 (filter (fun v => String.eqb (v_band v) b) vs)) d0 /\
     Seen mag (a * ebv) (1000 * D) m /\ AtSnr snr (match crowd with Some c => Rmin d0 (c b) | None => d0 end) m).
Proof.
  intros ax1 ebv crowd snrs vs mags D HV H. destruct (final_inv _ _ _ _ _ _ H) as (l & DL & IN & LB).
  destruct (distances_nth _ _ _ _ _ _ DL) as (LL & NT).
  assert (K : forall j b mag, nth_error mags j = Some (b, mag) -> exists snr a d0 x lim, nth_error l j = Some x /\ In (b, snr) snrs /\ In (b, a) ax1 /\
     Coadded (map v_m5 (filter (fun v => String.eqb (v_band v) b) vs)) d0 /\ 0 < x /\ Seen mag (a * ebv) x lim /\
     AtSnr snr (match crowd with Some c => Rmin d0 (c b) | None => d0 end) lim).
  { intros j b mag N. destruct (NT j b mag N) as (s & x & NX & KS & DX).
    pose proof (depth_m5_is vs b) as DM. destruct (depth_m5 vs b) as [d0|] eqn:E.
    2:{ exfalso. destruct (HV b mag) as (v & I & B); [eapply nth_error_In, N|]. exact (DM v I B). }
    set (d := match crowd with Some c => Rmin d0 (c b) | None => d0 end).
    assert (DD : depth crowd vs b = Some d) by (unfold depth; rewrite E; destruct crowd; reflexivity).
    rewrite DD in DX. cbn [m_app] in DX. apply flat_pos in DX. destruct DX as (a & KA & PX & SX).
    exists s, a, d0, x, (- (5/2) * Depth_Model.log10 (s / 5) + d). split; [exact NX|]. split; [apply key_in, KS|]. split; [apply key_in, KA|].
    split; [exact DM|]. split; [exact PX|]. split; [exact SX|]. unfold AtSnr, Depth_Model.log10. fold d. ring. }
  assert (PD : 0 < 1000 * D).
  { apply In_nth_error in IN. destruct IN as (j & J).
    destruct (nth_error mags j) as [[b mag]|] eqn:N; [|apply nth_error_None in N; assert (j < length l)%nat by (apply nth_error_Some; congruence); lia].
    destruct (K j b mag N) as (snr & a & d0 & x & lim & NX & _ & _ & _ & PX & _). rewrite J in NX. injection NX as <-. exact PX. }
  split; [lra|]. split.
  - intros b mag I. apply In_nth_error in I. destruct I as (j & J). destruct (K j b mag J) as (snr & a & d0 & x & lim & NX & IS & IA & CO & PX & SX & AT).
    exists snr, a, d0, (mag + 5 * (ln (1000 * D / 10) / ln 10) + a * ebv), lim. repeat (split; [assumption|]). split; [reflexivity|]. split; [exact AT|].
    rewrite SX. apply Rplus_le_compat_r, Rplus_le_compat_l, Rmult_le_compat_l; [lra|]. apply log10_le; [lra|].
    apply Rmult_le_compat_r; [lra|]. apply LB. eapply nth_error_In, NX.
  - apply In_nth_error in IN. destruct IN as (j & J).
    destruct (nth_error mags j) as [[b mag]|] eqn:N; [|apply nth_error_None in N; assert (j < length l)%nat by (apply nth_error_Some; congruence); lia].
    destruct (K j b mag N) as (snr & a & d0 & x & lim & NX & IS & IA & CO & PX & SX & AT). rewrite J in NX. injection NX as <-.
    exists b, mag, snr, a, d0, lim. split; [eapply nth_error_In, N|]. repeat (split; [assumption|]). exact AT.
Qed.
Print Assumptions C403_reach_partial.

(** *** C404: more visits, more bands.  For the dust map in three dimensions: [C404_map] in Young_Props2.v. *)
Definition le_o (x y : option R) : Prop := match x, y with None, _ => True | Some a, Some b => a <= b | Some _, None => False end.
Lemma depth_more crowd vs ws b : le_o (depth crowd vs b) (depth crowd (vs ++ ws) b).
Proof.
  assert (M : le_o (depth_m5 vs b) (depth_m5 (vs ++ ws) b)).
  { unfold depth_m5. rewrite filter_app. destruct (filter (fun v => String.eqb (v_band v) b) vs) as [|v l]; [exact I|].
    cbn [app le_o]. rewrite !sum_is. apply Rmult_le_compat_l; [lra|]. apply log10_le; [apply sum_pos; discriminate|].
    change (v :: l ++ filter (fun v => String.eqb (v_band v) b) ws) with ((v :: l) ++ filter (fun v => String.eqb (v_band v) b) ws).
    rewrite map_app, fold_right_app. set (z := fold_right (fun m s => Rpower 10 (4/5 * m) + s) 0 (map v_m5 (filter (fun v => String.eqb (v_band v) b) ws))).
    assert (PZ : 0 <= z) by apply sum_nonneg. clearbody z. generalize (map v_m5 (v :: l)). intros k. induction k as [|m k IH]; cbn; lra. }
  unfold depth. destruct crowd as [c|]; [|exact M]. destruct (depth_m5 vs b) as [d|], (depth_m5 (vs ++ ws) b) as [d'|]; cbn in *; try exact I; try contradiction.
  apply Rle_min_compat_r, M.
Qed.
Lemma distance_more ax1 ebv b mag s d d' x : le_o d d' -> distance (Flat ax1 ebv) b mag (m_app s d) = Ok x ->
  exists x', distance (Flat ax1 ebv) b mag (m_app s d') = Ok x' /\ x <= x'.
Proof.
  cbn. destruct (key ax1 b) as [a|]; [|discriminate]. cbn. intros L H. injection H as <-. eexists. split; [reflexivity|].
  destruct d as [d|], d' as [d'|]; cbn in *; try contradiction; try lra.
  - rewrite !sqrt100. apply Rmult_le_compat_l; [lra|]. apply rp_le. lra.
  - rewrite sqrt100. pose proof (rp_pos ((- (5/2) * Depth_Model.log10 (s / 5) + d' - a * ebv - mag) / 5)). lra.
Qed.
Lemma distances_more ax1 ebv crowd snrs vs ws mags l : distances (Flat ax1 ebv) crowd snrs vs mags = Ok l ->
  exists l', distances (Flat ax1 ebv) crowd snrs (vs ++ ws) mags = Ok l' /\ Forall2 Rle l l'.
Proof.
  revert l. induction mags as [|[b mag] mags IH]; intros l H; cbn [distances] in *.
  - injection H as <-. exists []. split; [reflexivity|constructor].
  - destruct (key snrs b) as [s|]; [|discriminate]. cbn [bind] in *.
    destruct (distance (Flat ax1 ebv) b mag (m_app s (depth crowd vs b))) as [x|] eqn:D; [|discriminate]. cbn [bind] in H.
    destruct (distances (Flat ax1 ebv) crowd snrs vs mags) as [r|]; [|discriminate]. cbn [bind] in H. injection H as <-.
    destruct (distance_more _ _ _ _ _ _ _ _ (depth_more crowd vs ws b) D) as (x' & -> & LX). cbn [bind].
    destruct (IH r eq_refl) as (r' & -> & F). cbn [bind]. eexists. split; [reflexivity|]. constructor; assumption.
Qed.
Lemma fold_min_mono t t' : Forall2 Rle t t' -> forall x x', x <= x' -> fold_left Rmin t x <= fold_left Rmin t' x'.
Proof.
  intros F. induction F as [|y y' t t' L F IH]; intros x x' LX; [exact LX|]. cbn. apply IH. unfold Rmin.
  destruct (Rle_dec x y), (Rle_dec x' y'); lra.
Qed.
Theorem C404_visits : forall ax1 ebv crowd snrs vs ws mags D, final_distance (Flat ax1 ebv) crowd snrs vs mags = Ok D ->
  exists D', final_distance (Flat ax1 ebv) crowd snrs (vs ++ ws) mags = Ok D' /\ D <= D'.
Proof.
  intros ax1 ebv crowd snrs vs ws mags D H. unfold final_distance in *. destruct (distances (Flat ax1 ebv) crowd snrs vs mags) as [l|] eqn:E; [|discriminate].
  destruct (distances_more _ _ _ _ _ ws _ _ E) as (l' & -> & F). cbn [bind] in *. destruct F as [|x x' t t' L F]; [discriminate|]. injection H as <-.
  eexists. split; [reflexivity|]. unfold Rdiv. apply Rmult_le_compat_r; [lra|]. apply fold_min_mono; assumption.
Qed.
Print Assumptions C404_visits.
Lemma distances_app du crowd snrs vs m m' l : distances du crowd snrs vs (m ++ m') = Ok l ->
  exists a b, distances du crowd snrs vs m = Ok a /\ distances du crowd snrs vs m' = Ok b /\ l = a ++ b.
Proof.
  revert l. induction m as [|[b mag] m IH]; intros l H.
  - exists [], l. split; [reflexivity|]. split; [exact H|reflexivity].
  - cbn [app distances] in *. destruct (key snrs b) as [s|]; [|discriminate]. cbn [bind] in *.
    destruct (distance du b mag (m_app s (depth crowd vs b))) as [x|]; [|discriminate]. cbn [bind] in *.
    destruct (distances du crowd snrs vs (m ++ m')) as [r|] eqn:R; [|discriminate]. cbn [bind] in H. injection H as <-.
    destruct (IH r eq_refl) as (a & c & -> & C & ->). cbn [bind]. exists (x :: a), c. auto.
Qed.
Theorem C404_bands : forall du crowd snrs vs mags more D D', final_distance du crowd snrs vs mags = Ok D ->
  final_distance du crowd snrs vs (mags ++ more) = Ok D' -> D' <= D.
Proof.
  intros du crowd snrs vs mags more D D' H H'. destruct (final_inv _ _ _ _ _ _ H) as (l & DL & IN & _).
  destruct (final_inv _ _ _ _ _ _ H') as (l' & DL' & _ & LB). destruct (distances_app _ _ _ _ _ _ _ DL') as (a & b & A & _ & ->).
  assert (a = l) by congruence. subst a. specialize (LB (1000 * D) (in_or_app _ _ _ (or_introl IN))). lra.
Qed.
Print Assumptions C404_bands.

(** *** C405: a band without visits.  For the dust map in three dimensions: Young_Props2.v. *)
Theorem C405_missing : forall ax1 ebv crowd snrs vs mags D b mag, In (b, mag) mags -> (forall v, In v vs -> v_band v <> b) ->
  final_distance (Flat ax1 ebv) crowd snrs vs mags = Ok D -> D = 0.
Proof.
  intros ax1 ebv crowd snrs vs mags D b mag I NV H. destruct (final_inv _ _ _ _ _ _ H) as (l & DL & IN & LB).
  destruct (distances_nth _ _ _ _ _ _ DL) as (LL & NT).
  assert (NN : forall x, In x l -> 0 <= x).
  { intros x X. apply In_nth_error in X. destruct X as (j & J).
    destruct (nth_error mags j) as [[b' mag']|] eqn:N; [|apply nth_error_None in N; assert (j < length l)%nat by (apply nth_error_Some; congruence); lia].
    destruct (NT j b' mag' N) as (s & y & NY & _ & DY). rewrite J in NY. injection NY as <-. cbn in DY. destruct (key ax1 b'); [|discriminate]. cbn in DY.
    injection DY as <-. destruct (m_app s (depth crowd vs b')); [|lra]. rewrite sqrt100. match goal with |- context [Rpower 10 ?e] => pose proof (rp_pos e) end. lra. }
  apply In_nth_error in I. destruct I as (j & J). destruct (NT j b mag J) as (s & x & NX & _ & DX).
  assert (DN : depth crowd vs b = None).
  { pose proof (depth_m5_is vs b) as DM. unfold depth. destruct (depth_m5 vs b) as [d|]; [|destruct crowd; reflexivity]. exfalso. destruct DM as (NE & _).
    destruct (filter (fun v => String.eqb (v_band v) b) vs) as [|v t] eqn:F; [apply NE; reflexivity|].
    assert (K : In v (filter (fun v => String.eqb (v_band v) b) vs)) by (rewrite F; left; reflexivity). apply filter_In in K. destruct K as (K1 & K2).
    apply String.eqb_eq in K2. exact (NV v K1 K2). }
  rewrite DN in DX. cbn in DX. destruct (key ax1 b); [|discriminate]. cbn in DX. injection DX as <-.
  pose proof (LB 0 (nth_error_In _ _ NX)). pose proof (NN _ IN). lra.
Qed.
Print Assumptions C405_missing.
Theorem C405_limit : forall quad rd lim bad du crowd snrs mags pix gall galb vs, lim < Rabs galb ->
  run quad rd lim bad du crowd snrs mags pix gall galb vs = Ok bad.
Proof. intros. unfold run. destruct (Rlt_dec lim (Rabs galb)); [reflexivity|contradiction]. Qed.
Print Assumptions C405_limit.

(** *** C406: the density of young stars along a line of sight *)
Theorem C406_positive : forall gall galb r, r <> 0 -> 0 < star_density gall galb r.
Proof.
  intros gall galb r N. unfold star_density. apply Rmult_lt_0_compat; [|apply exp_pos]. apply Rmult_lt_0_compat.
  - pose proof PI_RGT_0. apply Rmult_lt_0_compat; [lra|]. apply Rinv_0_lt_compat. lra.
  - destruct (Rtotal_order r 0) as [L|[E|G]]; [|contradiction|apply Rmult_lt_0_compat; lra]. rewrite <- Rmult_opp_opp. apply Rmult_lt_0_compat; lra.
Qed.
Print Assumptions C406_positive.
Theorem C406_latitude : forall gall galb galb' r, 0 <= r -> Rabs (sin galb) <= Rabs (sin galb') -> star_density gall galb' r <= star_density gall galb r.
Proof.
  intros gall galb galb' r PR L. unfold star_density. apply Rmult_le_compat_l.
  - pose proof PI_RGT_0. apply Rmult_le_pos; [|apply Rmult_le_pos; lra]. apply Rmult_le_pos; [lra|]. left. apply Rinv_0_lt_compat. lra.
  - match goal with |- exp ?a <= exp ?b => assert (K : a <= b) end.
    { assert (r * Rabs (sin galb) <= r * Rabs (sin galb')) by (apply Rmult_le_compat_l; assumption).
      apply Rplus_le_compat_r. replace (-1 * r * Rabs (sin galb') / (3/10)) with (-(10/3) * (r * Rabs (sin galb'))) by field.
      replace (-1 * r * Rabs (sin galb) / (3/10)) with (-(10/3) * (r * Rabs (sin galb))) by field. lra. }
    destruct K as [K| ->]; [left; apply exp_increasing, K|right; reflexivity].
Qed.
Print Assumptions C406_latitude.
Theorem C406_symmetric : forall gall galb r, star_density (- gall) galb r = star_density gall galb r /\ star_density gall (- galb) r = star_density gall galb r.
Proof.
  intros gall galb r. unfold star_density. rewrite !cos_neg, !sin_neg, Rabs_Ropp. split; [|reflexivity].
  replace (r * - sin gall * (r * - sin gall)) with (r * sin gall * (r * sin gall)) by ring. reflexivity.
Qed.
Print Assumptions C406_symmetric.
(** the number of stars is the integral to the distance times the area *)
Theorem C406_number : forall quad lim bad du crowd snrs mags pix gall galb vs D, Rabs galb <= lim ->
  run quad true lim bad du crowd snrs mags pix gall galb vs = Ok D ->
  run quad false lim bad du crowd snrs mags pix gall galb vs =
    Ok (quad (star_density gall galb) 0 D * match pix with Some a => a | None => PI * ((175/100 * PI / 180) * (175/100 * PI / 180)) end).
Proof.
  intros quad lim bad du crowd snrs mags pix gall galb vs D L H. unfold run in *. destruct (Rlt_dec lim (Rabs galb)); [lra|].
  destruct (final_distance du crowd snrs vs mags) as [d|]; [|discriminate]. cbn [bind] in *. injection H as ->. reflexivity.
Qed.
Print Assumptions C406_number.

(** cases: a star of magnitude 10 in r, no dust, depth 25: 10 kpc *)
Definition r25 : list visit := [{| v_band := "r"; v_m5 := 25 |}].
Example C403_case : final_distance (Flat [("r"%string, 2)] 0) None [("r"%string, 5)] r25 [("r"%string, 10)] = Ok 10.
Proof.
  unfold final_distance, distances, r25. cbn [key dget String.eqb Ascii.eqb Bool.eqb bind distance m_app depth depth_m5 filter v_band map Astrom_Model.rsum fold_right v_m5].
  unfold key. cbn [dget String.eqb Ascii.eqb Bool.eqb bind]. unfold Astrom_Model.rsum. cbn [fold_right fold_left]. rewrite Rplus_0_r, log10_rp, sqrt100.
  replace (5 / 5) with 1 by field. unfold Depth_Model.log10 at 1. rewrite ln_1. f_equal.
  replace ((- (5 / 2) * (0 / ln 10) + 5 / 4 * (4 / 5 * 25) - 2 * 0 - 10) / 5) with (INR 3).
  - rewrite Rpower_pow by lra. cbn [pow]. field.
  - cbn [INR]. unfold Rdiv at 3. rewrite (Rmult_0_l (/ ln 10)). field.
Qed.
Example C404_case : exists D', final_distance (Flat [("r"%string, 2)] 0) None [("r"%string, 5)] (r25 ++ r25) [("r"%string, 10)] = Ok D' /\ 10 <= D'.
Proof. apply C404_visits, C403_case. Qed.
Example C405_case : forall D, final_distance (Flat [("r"%string, 2); ("g"%string, 3)] 0) None [("r"%string, 5); ("g"%string, 5)] r25 [("r"%string, 10); ("g"%string, 11)] = Ok D -> D = 0.
Proof.
  intros D. apply (C405_missing _ _ _ _ _ _ _ "g"%string 11); [right; left; reflexivity|]. intros v [<-|[]]. discriminate.
Qed.
Example C406_case : star_density 1 (PI / 2) 3 <= star_density 1 0 3.
Proof. apply C406_latitude; [lra|]. rewrite sin_0, sin_PI2, Rabs_R0, Rabs_R1. lra. Qed.
