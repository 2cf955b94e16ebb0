(** Lemmas for the dust-corrected depth metrics. *)
From Coq Require Import String Ascii Reals ZArith Lra Lia Psatz List Permutation.
From Verif Require Import Base Depth_Model Depth_Spec Depth_Proofs Lens_Model Lens_Spec Small_Spec.
From Verif Require Small_Proofs.
Import ListNotations.
Open Scope R_scope.

Lemma rltb_true x y : rltb x y = true <-> x < y.
Proof. apply Small_Proofs.Rlt_b. Qed.
Lemma rltb_false x y : rltb x y = false <-> y <= x.
Proof. apply Small_Proofs.Rlt_b_false. Qed.
Lemma reqb_true x y : reqb x y = true <-> x = y.
Proof. unfold reqb. destruct (Req_EM_T x y); split; auto; discriminate. Qed.
Lemma reqb_false x y : x <> y -> reqb x y = false.
Proof. intro H. destruct (reqb x y) eqn:E; [|reflexivity]. apply reqb_true in E. contradiction. Qed.

Lemma distinct_spec n l : (n <= distinct l)%nat <-> AtLeast n l.
Proof.
  unfold distinct. split.
  - intro H. exists (nodup string_dec l). split; [apply NoDup_nodup|]. split; [|assumption]. intros x I. now apply nodup_In in I.
  - intros (s & ND & I & L). eapply Nat.le_trans; [exact L|]. apply NoDup_incl_length; [assumption|]. intros x Hx. apply nodup_In. now apply I.
Qed.
Lemma distinct_ltb n l : (distinct l <? n)%nat = false <-> AtLeast n l.
Proof. rewrite Nat.ltb_ge. apply distinct_spec. Qed.
Lemma distinct_ltb_true n l : (distinct l <? n)%nat = true <-> ~ AtLeast n l.
Proof. rewrite <- distinct_ltb. destruct (distinct l <? n)%nat; split; congruence. Qed.

(** ** Depth *)
Lemma dust_same ext ms d : DustDepth ext ms d <-> ms <> [] /\ same_flux (d + ext) ms.
Proof.
  unfold DustDepth, same_flux. replace 0.8 with (4/5) by lra. reflexivity.
Qed.
Lemma dust_unique ext ms d d' : DustDepth ext ms d -> DustDepth ext ms d' -> d = d'.
Proof.
  rewrite !dust_same. intros [_ A] [_ B]. unfold same_flux in A, B. rewrite <- B in A. apply (flux_inj (d + ext) (d' + ext)) in A. lra.
Qed.
Lemma dust_exists ext ms : ms <> [] -> exists c, coadd ms = Val c /\ DustDepth ext ms (c - ext).
Proof.
  intro NE. pose proof (coadd_val ms NE) as E. eexists. split; [exact E|]. apply dust_same. split; [assumption|].
  apply coadd_Val_inv in E. replace (_ - ext + ext) with (5/4 * log10 (rsum (map flux ms))) by ring. apply E.
Qed.
Definition rows_in (t : table) (fc b : string) : list visit := filter (fun v => String.eqb (v_str v fc) b) (t_rows t).
Lemma select_ok t fc b : has fc (t_cols t) = true -> select t fc b = Ok {| t_cols := t_cols t; t_rows := rows_in t fc b |}.
Proof. intro H. unfold select, column. rewrite H. reflexivity. Qed.
Lemma has_in c l : has c l = true <-> In c l.
Proof.
  unfold has. rewrite existsb_exists. split.
  - intros (x & I & E). apply String.eqb_eq in E. now subst.
  - intro I. exists c. split; [assumption|apply String.eqb_refl].
Qed.

Lemma exgal_empty ax1 fc bad ebv t : t_rows t = [] -> exgal_m5 ax1 fc bad ebv t = Ok bad.
Proof. intro H. unfold exgal_m5. rewrite H. reflexivity. Qed.
Lemma exgal_some ax1 fc bad ebv t b a : has fc (t_cols t) = true -> t_rows t <> [] ->
  (exists v r, t_rows t = v :: r /\ v_str v fc = b) -> lookup ax1 b = Some a ->
  (exists v, In v (t_rows t) /\ -666 < v_m5 v) ->
  exists d, exgal_m5 ax1 fc bad ebv t = Ok (Some d) /\ DustDepth (a * ebv) (map v_m5 (t_rows t)) d.
Proof.
  intros HC NE (v & r & Ev & Bv) HA (w & Iw & Dw). unfold exgal_m5.
  assert (NM : map v_m5 (t_rows t) <> []) by (destruct (t_rows t); [congruence|discriminate]).
  destruct (dust_exists (a * ebv) _ NM) as (c & E & D).
  assert (R : coaddm5_run None (map (fun v => (EmptyString, v_m5 v)) (t_rows t)) = Val c).
  { rewrite <- E. destruct (t_rows t) as [|v0 r0]; [congruence|]. cbn [coaddm5_run map snd]. now rewrite map_map. }
  rewrite R. pose proof (coadd_deepest _ (v_m5 w) c (in_map v_m5 _ _ Iw) E) as LE.
  rewrite reqb_false by lra. unfold column. rewrite HC, Ev. cbn [bind map arr_get nth_error]. rewrite Bv. unfold key. rewrite HA. cbn [bind].
  exists (c - a * ebv). split; [reflexivity|]. rewrite Ev in D. exact D.
Qed.
Lemma exgal_band ax1 fc bad ebv t b a : has fc (t_cols t) = true -> lookup ax1 b = Some a ->
  (forall v, In v (t_rows t) -> -666 < v_m5 v) ->
  (rows_in t fc b = [] /\ exgal_m5 ax1 fc bad ebv {| t_cols := t_cols t; t_rows := rows_in t fc b |} = Ok bad)
  \/ exists d, exgal_m5 ax1 fc bad ebv {| t_cols := t_cols t; t_rows := rows_in t fc b |} = Ok (Some d)
     /\ DustDepth (a * ebv) (map v_m5 (rows_in t fc b)) d.
Proof.
  intros HC HA HD. destruct (rows_in t fc b) as [|v r] eqn:E.
  - left. split; [reflexivity|]. now apply exgal_empty.
  - right. assert (IV : forall w, In w (v :: r) -> v_str w fc = b /\ In w (t_rows t)).
    { intros w I. rewrite <- E in I. unfold rows_in in I. apply filter_In in I. destruct I as [I Q]. apply String.eqb_eq in Q. auto. }
    apply exgal_some with (b := b); auto.
    + discriminate.
    + exists v, r. split; [reflexivity|]. apply IV. now left.
    + exists v. split; [now left|]. apply HD, IV. now left.
Qed.
(** more images are deeper *)
Lemma dust_more ext ms ms' d d' : DustDepth ext ms d -> DustDepth ext (ms ++ ms') d' -> d <= d'.
Proof.
  rewrite !dust_same. intros [_ A] [_ B]. unfold same_flux in A, B.
  change (flux (d + ext) = rsum (map flux ms)) in A. change (flux (d' + ext) = rsum (map flux (ms ++ ms'))) in B.
  rewrite map_app, rsum_app in B. pose proof (flux_sum_nonneg ms').
  destruct (Rle_lt_dec d d') as [L|L]; [assumption|]. exfalso.
  pose proof (flux_lt (d' + ext) (d + ext) ltac:(lra)). lra.
Qed.

(** ** Rows of depths *)
(** what a band contributes: the bad value without visits, else the dust-corrected depth *)
Definition BandDepth (ax1 : dict) (fc : string) (bad : num) (ebv : R) (t : table) (b : string) (d : num) : Prop :=
  exists a, lookup ax1 b = Some a /\
  ((rows_in t fc b = [] /\ d = bad) \/ exists x, d = Some x /\ DustDepth (a * ebv) (map v_m5 (rows_in t fc b)) x).
Lemma band_depths_ok ax1 fc bad ebv t bands : has fc (t_cols t) = true -> (forall v, In v (t_rows t) -> -666 < v_m5 v) ->
  (forall b, In b bands -> lookup ax1 b <> None) ->
  exists ds, band_depths ax1 fc bad ebv t bands = Ok ds /\ Forall2 (BandDepth ax1 fc bad ebv t) bands ds.
Proof.
  intros HC HD. induction bands as [|b rest IH]; intro HA; [exists []; split; [reflexivity|constructor]|].
  destruct (lookup ax1 b) as [a|] eqn:EA; [|destruct (HA b (or_introl eq_refl) EA)].
  destruct (IH (fun c I => HA c (or_intror I))) as (ds & E & F).
  cbn [band_depths]. rewrite (select_ok _ _ _ HC). cbn [bind].
  destruct (exgal_band ax1 fc bad ebv t b a HC EA HD) as [[N X]|(d & X & D)]; rewrite X; cbn [bind]; rewrite E; cbn [bind].
  - exists (bad :: ds). split; [reflexivity|]. constructor; [|assumption]. exists a. split; [assumption|]. now left.
  - exists (Some d :: ds). split; [reflexivity|]. constructor; [|assumption]. exists a. split; [assumption|]. right. eauto.
Qed.
Lemma subtract_none md : forall bands i ds, (forall b, In b bands -> lookup md b = None) -> subtract_means md i bands ds = Ok ds.
Proof.
  induction bands as [|b rest IH]; intros i ds H; [reflexivity|]. cbn [subtract_means]. rewrite (H b) by (now left). apply IH. intros; apply H. now right.
Qed.
Lemma subtract_fail md : forall bands i ds, (exists b, In b bands /\ lookup md b <> None) -> subtract_means md (S i) bands ds = Err IndexError.
Proof.
  induction bands as [|b rest IH]; intros i ds (c & I & N); [destruct I|]. cbn [subtract_means].
  destruct (lookup md b) eqn:E; [reflexivity|]. apply IH. destruct I as [<-|I]; [contradiction|eauto].
Qed.
Lemma ndot_some xs cs : ndot (map Some xs) cs = Some (fold_right Rplus 0 (map (fun p => fst p * snd p) (combine xs cs))).
Proof.
  revert cs. induction xs as [|x xs IH]; intro cs; [reflexivity|]. destruct cs as [|c cs]; [reflexivity|].
  unfold ndot in *. cbn [map combine fold_right fst snd nmul]. rewrite IH. reflexivity.
Qed.
Lemma ndot_nan l cs : In None l -> length l = length cs -> ndot l cs = None.
Proof.
  revert cs. induction l as [|x l IH]; intros cs I L; [destruct I|]. destruct cs as [|c cs]; [discriminate|].
  unfold ndot in *. cbn [combine map fold_right fst snd]. destruct I as [->|I].
  - reflexivity.
  - rewrite (IH cs I ltac:(cbn in L; lia)). destruct (nmul x (Some c)); reflexivity.
Qed.

(** ** Surface brightness *)
Lemma log10_Rpower x : 0 < x -> Rpower 10 (log10 x) = x.
Proof.
  intro P. unfold Rpower, log10. replace (ln x / ln 10 * ln 10) with (ln x) by (pose proof ln10_pos; field; lra). now apply exp_ln.
Qed.
Lemma pow10_log c x : 0 < x -> Rpower 10 (c * log10 x) = Rpower x c.
Proof.
  intro P. unfold Rpower, log10. f_equal. pose proof ln10_pos. field. lra.
Qed.
Section SB.
Context (zp k airmass mu_sky rn pix n t area : R).
Context (Hrn : 0 < rn) (Hpix : 0 < pix) (Hn : 0 < n) (Ht : 0 < t) (Harea : 0 < area).
Let ext := k * airmass.
Let L := sb_limits zp k airmass mu_sky rn pix n t area.
Let S := signal zp ext t area.
Let B := sky_counts zp t area mu_sky.
Let V := read_var rn pix area.
Lemma pix2_pos : 0 < pix ^ 2.
Proof. apply pow_lt. assumption. Qed.
Lemma npix_pos : 0 < area / pix ^ 2.
Proof. apply Rdiv_lt_0_compat; [assumption|apply pix2_pos]. Qed.
Lemma ta_pos : 0 < t * area.
Proof. now apply Rmult_lt_0_compat. Qed.
Lemma S_pos mu : 0 < S mu.
Proof. unfold S, signal. apply Rmult_lt_0_compat; [apply ta_pos|apply exp_pos]. Qed.
Lemma B_pos : 0 < B.
Proof. unfold B, sky_counts. apply Rmult_lt_0_compat; [apply ta_pos|apply exp_pos]. Qed.
Lemma V_pos : 0 < V.
Proof. unfold V, read_var. apply Rmult_lt_0_compat; [now apply pow_lt|apply npix_pos]. Qed.
Lemma S_decr a b : a <= b -> S b <= S a.
Proof. intro H. unfold S, signal. apply Rmult_le_compat_l; [left; apply ta_pos|]. apply Rle_Rpower; lra. Qed.
Lemma S_source : S (source_lim L) = n ^ 2.
Proof.
  unfold S, signal, L, sb_limits. cbn [source_lim]. fold ext.
  replace (area / pix ^ 2 * pix ^ 2 * t) with (t * area) by (field; pose proof pix2_pos; lra).
  replace (- 0.4 * (-5 * log10 n + 25/10 * log10 (t * area) + zp - ext + ext - zp)) with (2 * log10 n + -1 * log10 (t * area)) by lra.
  rewrite Rpower_plus, !pow10_log by (auto using ta_pos).
  replace (-1) with (- (1)) by lra. rewrite Rpower_Ropp, Rpower_1 by apply ta_pos.
  replace (Rpower n 2) with (n ^ 2) by (rewrite <- (Rpower_pow 2) by assumption; f_equal; cbn; lra).
  pose proof ta_pos. field. split; lra.
Qed.
Lemma S_sky : S (sky_lim L) ^ 2 = n ^ 2 * B.
Proof.
  unfold S, signal, B, sky_counts, L, sb_limits. cbn [sky_lim]. fold ext.
  replace (pix ^ 2 * t * (area / pix ^ 2)) with (t * area) by (field; pose proof pix2_pos; lra).
  set (q := n ^ 2 / (t * area)).
  assert (Pq : 0 < q) by (unfold q; apply Rdiv_lt_0_compat; [now apply pow_lt|apply ta_pos]).
  replace (- 0.4 * (- (5/4) * log10 q + 5/10 * mu_sky + 5/10 * zp - ext + ext - zp)) with (/2 * log10 q + /2 * (- 0.4 * (mu_sky - zp))) by lra.
  rewrite Rpower_plus, pow10_log by assumption.
  set (y := - 0.4 * (mu_sky - zp)).
  assert (Q2 : Rpower q (/2) ^ 2 = q).
  { rewrite <- (Rpower_pow 2) by (apply exp_pos). rewrite Rpower_mult. replace (/2 * INR 2) with 1 by (cbn; lra). now apply Rpower_1. }
  assert (Y2 : Rpower 10 (/2 * y) ^ 2 = Rpower 10 y).
  { rewrite <- (Rpower_pow 2) by (apply exp_pos). rewrite Rpower_mult. f_equal. cbn. lra. }
  rewrite !Rpow_mult_distr, Q2, Y2. unfold q. pose proof ta_pos. field. split; lra.
Qed.
Lemma S_rn : S (rn_lim L) ^ 2 = n ^ 2 * V.
Proof.
  unfold S, signal, V, read_var, L, sb_limits. cbn [rn_lim]. fold ext.
  pose proof npix_pos as NP. pose proof pix2_pos as PP.
  set (m := area / pix ^ 2) in *. set (w := sqrt m).
  assert (Pw : 0 < w) by (apply sqrt_lt_R0; assumption).
  assert (Wm : w * w = m) by (apply sqrt_sqrt; lra).
  set (q := n * rn / (t * pix ^ 2 * w)).
  assert (Pd : 0 < t * pix ^ 2 * w) by (apply Rmult_lt_0_compat; [apply Rmult_lt_0_compat; [exact Ht|exact PP]|exact Pw]).
  assert (Pq : 0 < q) by (unfold q; apply Rdiv_lt_0_compat; [now apply Rmult_lt_0_compat|assumption]).
  replace (- 0.4 * (- (25/10) * log10 q + zp - ext + ext - zp)) with (log10 q) by lra.
  rewrite log10_Rpower by assumption.
  replace area with (w * w * pix ^ 2) by (rewrite Wm; unfold m; field; lra).
  rewrite <- Wm. unfold q. field. repeat split; lra.
Qed.
Lemma S_limit_ge : n ^ 2 <= S (sb_limit L) /\ n ^ 2 * B <= S (sb_limit L) ^ 2 /\ n ^ 2 * V <= S (sb_limit L) ^ 2.
Proof.
  assert (LE : sb_limit L <= sky_lim L /\ sb_limit L <= source_lim L /\ sb_limit L <= rn_lim L).
  { unfold sb_limit. pose proof (Rmin_l (Rmin (sky_lim L) (source_lim L)) (rn_lim L)). pose proof (Rmin_r (Rmin (sky_lim L) (source_lim L)) (rn_lim L)).
    pose proof (Rmin_l (sky_lim L) (source_lim L)). pose proof (Rmin_r (sky_lim L) (source_lim L)). lra. }
  destruct LE as (L1 & L2 & L3). apply S_decr in L1, L2, L3.
  pose proof (S_pos (sky_lim L)). pose proof (S_pos (rn_lim L)).
  split; [rewrite <- S_source; assumption|]. split; [rewrite <- S_sky|rewrite <- S_rn]; apply pow_incr; lra.
Qed.
Lemma S_limit_eq : S (sb_limit L) ^ 2 = n ^ 2 * S (sb_limit L) \/ S (sb_limit L) ^ 2 = n ^ 2 * B \/ S (sb_limit L) ^ 2 = n ^ 2 * V.
Proof.
  unfold sb_limit. destruct (Rle_dec (Rmin (sky_lim L) (source_lim L)) (rn_lim L)) as [A|A].
  - rewrite Rmin_left by assumption. destruct (Rle_dec (sky_lim L) (source_lim L)) as [C|C].
    + rewrite Rmin_left by assumption. right. left. apply S_sky.
    + rewrite Rmin_right by lra. left. rewrite S_source. ring.
  - rewrite Rmin_right by lra. right. right. apply S_rn.
Qed.
Lemma snr_lt mu c : 0 < c -> (snr zp ext t area mu_sky rn pix mu < c <-> S mu ^ 2 < c ^ 2 * (S mu + B + V)).
Proof.
  intro Pc. unfold snr. fold S. fold B. fold V. fold (S mu). cbv zeta.
  pose proof (S_pos mu) as PS. pose proof B_pos. pose proof V_pos.
  change (signal zp ext t area mu) with (S mu).
  set (q := S mu + B + V). assert (Pq : 0 < q) by (unfold q; lra).
  assert (Ps : 0 < sqrt q) by (now apply sqrt_lt_R0).
  assert (SS : sqrt q * sqrt q = q) by (apply sqrt_sqrt; lra).
  replace (c ^ 2 * q) with ((c * sqrt q) ^ 2) by (rewrite Rpow_mult_distr; rewrite <- SS at 2; ring).
  assert (E : S mu / sqrt q < c <-> S mu < c * sqrt q).
  { split; intro G.
    - apply Rmult_lt_compat_r with (r := sqrt q) in G; [|assumption]. replace (S mu / sqrt q * sqrt q) with (S mu) in G by (field; lra). exact G.
    - apply Rmult_lt_reg_r with (sqrt q); [assumption|]. replace (S mu / sqrt q * sqrt q) with (S mu) by (field; lra). exact G. }
  rewrite E. assert (0 < c * sqrt q) by (now apply Rmult_lt_0_compat). split; intro G; [nra|].
  destruct (Rlt_le_dec (S mu) (c * sqrt q)); [assumption|nra].
Qed.
Lemma snr_ge mu c : 0 < c -> (c <= snr zp ext t area mu_sky rn pix mu <-> c ^ 2 * (S mu + B + V) <= S mu ^ 2).
Proof.
  intro Pc. pose proof (snr_lt mu c Pc) as H. split; intro G.
  - destruct (Rlt_le_dec (S mu ^ 2) (c ^ 2 * (S mu + B + V))) as [C|C]; [apply H in C; lra|assumption].
  - destruct (Rlt_le_dec (snr zp ext t area mu_sky rn pix mu) c) as [C|C]; [apply H in C; lra|assumption].
Qed.
Lemma S_shift mu x : 0 < x -> S (mu - 2.5 * (ln x / ln 10)) = x * S mu.
Proof.
  intro Px. unfold S, signal. fold (log10 x).
  replace (- 0.4 * (mu - 2.5 * log10 x + ext - zp)) with (log10 x + - 0.4 * (mu + ext - zp)) by lra.
  rewrite Rpower_plus, log10_Rpower by assumption. ring.
Qed.
End SB.
Lemma Rpower_inj_10 x y : Rpower 10 x = Rpower 10 y -> x = y.
Proof.
  intro H. unfold Rpower in H. apply exp_inv in H. pose proof ln10_pos. apply Rmult_eq_reg_r with (ln 10); lra.
Qed.
Lemma exgal_nocol ax1 fc bad ebv t : has fc (t_cols t) = false -> (exists v, In v (t_rows t) /\ -666 < v_m5 v) ->
  exgal_m5 ax1 fc bad ebv t = Err ValueError.
Proof.
  intros HC (w & Iw & Dw). unfold exgal_m5.
  assert (NM : map v_m5 (t_rows t) <> []) by (destruct (t_rows t); [destruct Iw|discriminate]).
  destruct (dust_exists 0 _ NM) as (c & E & D).
  assert (R : coaddm5_run None (map (fun v => (EmptyString, v_m5 v)) (t_rows t)) = Val c).
  { rewrite <- E. destruct (t_rows t) as [|v0 r0]; [destruct Iw|]. cbn [coaddm5_run map snd]. now rewrite map_map. }
  rewrite R. pose proof (coadd_deepest _ (v_m5 w) c (in_map v_m5 _ _ Iw) E) as LE.
  rewrite reqb_false by lra. unfold column. rewrite HC. reflexivity.
Qed.
Lemma Forall2_length' {A B} (P : A -> B -> Prop) l m : Forall2 P l m -> length m = length l.
Proof. induction 1; cbn; congruence. Qed.
Lemma Forall2_impl' {A B} (P Q : A -> B -> Prop) l m : (forall a b, P a b -> Q a b) -> Forall2 P l m -> Forall2 Q l m.
Proof. intro H. induction 1; constructor; auto. Qed.
