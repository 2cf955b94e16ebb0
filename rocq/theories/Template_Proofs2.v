(** Lemmas for the template metric: benchmarks, depth and seeing of the template, difference images. *)
From Coq Require Import Reals ZArith Lra Lia Psatz List Permutation Sorted.
From Verif Require Import Base Calendar_Model Depth_Model Depth_Proofs Template_Model Template_Spec Template_Proofs Small_Spec.
From Verif Require Small_Model Small_Proofs.
Import ListNotations.
Open Scope R_scope.

(** ** Benchmarks *)
Lemma str_leb_refl b : str_leb b b = true.
Proof. induction b as [|c b IH]; [reflexivity|]. cbn [str_leb]. now rewrite Ascii.eqb_refl. Qed.
Lemma first_band_same b l : (forall c, In c l -> c = b) -> first_band b l = b.
Proof.
  revert b. induction l as [|c l IH]; intros b H; [reflexivity|]. cbn [first_band].
  rewrite (H c) by (now left). rewrite str_leb_refl. apply IH. intros. apply H. now right.
Qed.
Lemma benches_inv cf dec data bs bm : benches cf dec data = Ok (bs, bm) ->
  exists ls lm, bs = Rmax ls (percentile (map tv_seeing data) (cf_seeing_pct cf))
             /\ bm = Rmin lm (percentile (map tv_m5 data) (100 - cf_m5_pct cf)).
Proof.
  unfold benches. destruct data as [|v t]; [discriminate|]. unfold bind.
  destruct (key (cf_wavelens _ _)); [|discriminate].
  destruct (match cf_m5 cf with inl d => _ | inr m => _ end); [|discriminate].
  destruct (key (extinction_coeffs _)); [|discriminate]. intro H. injection H as <- <-. eauto.
Qed.
Lemma benches_first cf dec v t b lam m5thr coeff : first_band (tv_band v) (map tv_band t) = b ->
  cf_wavelens cf b = Some lam -> (match cf_m5 cf with inl d => d b | inr m => Some m end) = Some m5thr ->
  extinction_coeffs b = Some coeff ->
  benches cf dec (v :: t) =
  Ok (Rmax (best_seeing (cf_seeing cf) (min_airmass dec (cf_lat cf)) lam) (percentile (map tv_seeing (v :: t)) (cf_seeing_pct cf)),
      Rmin (best_m5 m5thr coeff (min_airmass dec (cf_lat cf)) (cf_seeing cf) (best_seeing (cf_seeing cf) (min_airmass dec (cf_lat cf)) lam))
           (percentile (map tv_m5 (v :: t)) (100 - cf_m5_pct cf))).
Proof.
  intros HB HL HM HE. unfold benches.
  rewrite HB, HL, HE. unfold bind, key. destruct (cf_m5 cf) as [d|m].
  - rewrite HM. reflexivity.
  - injection HM as ->. reflexivity.
Qed.
Lemma benches_band cf dec data b lam m5thr coeff : data <> [] -> (forall v, In v data -> tv_band v = b) ->
  cf_wavelens cf b = Some lam -> (match cf_m5 cf with inl d => d b | inr m => Some m end) = Some m5thr ->
  extinction_coeffs b = Some coeff ->
  benches cf dec data =
  Ok (Rmax (best_seeing (cf_seeing cf) (min_airmass dec (cf_lat cf)) lam) (percentile (map tv_seeing data) (cf_seeing_pct cf)),
      Rmin (best_m5 m5thr coeff (min_airmass dec (cf_lat cf)) (cf_seeing cf) (best_seeing (cf_seeing cf) (min_airmass dec (cf_lat cf)) lam))
           (percentile (map tv_m5 data) (100 - cf_m5_pct cf))).
Proof.
  intros NE HB HL HM HE. destruct data as [|v t]; [congruence|]. apply benches_first with (b := b); auto.
  rewrite (HB v) by (now left).
  apply first_band_same. intros c I. apply in_map_iff in I. destruct I as (w & <- & I). apply HB. now right.
Qed.

Lemma count_map {A B} (f : A -> B) (q : B -> bool) l : length (filter q (map f l)) = length (filter (fun x => q (f x)) l).
Proof. induction l as [|x l IH]; [reflexivity|]. cbn. destruct (q (f x)); cbn; now rewrite IH. Qed.
Lemma both_count {A} (p q : A -> bool) l : (length (filter p l) + length (filter q l) <= length l + length (filter (fun x => p x && q x) l))%nat.
Proof. induction l as [|x l IH]; cbn; [lia|]. destruct (p x), (q x); cbn; lia. Qed.

Lemma share_seeing cf dec data bs bm : data <> [] -> 0 <= cf_seeing_pct cf <= 100 -> benches cf dec data = Ok (bs, bm) ->
  cf_seeing_pct cf / 100 * INR (length data - 1) < INR (length (filter (fun v => rleb (tv_seeing v) bs) data)).
Proof.
  intros NE P B. destruct (benches_inv _ _ _ _ _ B) as (ls & lm & -> & _).
  assert (NM : map tv_seeing data <> []) by (destruct data; [congruence|discriminate]).
  pose proof (percentile_below _ _ _ (percentile_is _ _ NM P)) as Q. rewrite map_length in Q.
  specialize (Q ltac:(destruct data; [congruence|cbn; lia]) (fun y => rleb y (Rmax ls (percentile (map tv_seeing data) (cf_seeing_pct cf))))).
  rewrite count_map in Q. apply Q. intros y L. unfold rleb. apply Small_Proofs.Rle_b. eapply Rle_trans; [exact L|apply Rmax_r].
Qed.
Lemma share_m5 cf dec data bs bm : data <> [] -> 0 <= cf_m5_pct cf <= 100 -> benches cf dec data = Ok (bs, bm) ->
  cf_m5_pct cf / 100 * INR (length data - 1) < INR (length (filter (fun v => rleb bm (tv_m5 v)) data)).
Proof.
  intros NE P B. destruct (benches_inv _ _ _ _ _ B) as (ls & lm & _ & ->).
  assert (NM : map tv_m5 data <> []) by (destruct data; [congruence|discriminate]).
  assert (P' : 0 <= 100 - cf_m5_pct cf <= 100) by lra.
  pose proof (percentile_above _ _ _ (percentile_is _ _ NM P')) as Q. rewrite map_length in Q.
  specialize (Q ltac:(destruct data; [congruence|cbn; lia]) (fun y => rleb (Rmin lm (percentile (map tv_m5 data) (100 - cf_m5_pct cf))) y)).
  rewrite count_map in Q. replace (100 - (100 - cf_m5_pct cf)) with (cf_m5_pct cf) in Q by ring.
  apply Q. intros y L. unfold rleb. apply Small_Proofs.Rle_b. eapply Rle_trans; [apply Rmin_r|exact L].
Qed.

(** ** Depth and seeing of the template *)
Lemma inv_noise m : / (noise m) ^ 2 = flux m.
Proof.
  unfold noise, flux. rewrite <- (Rpower_pow 2) by (apply exp_pos). rewrite Rpower_mult, <- Rpower_Ropp. f_equal. cbn [INR]. lra.
Qed.
Lemma noise_pos m : 0 < noise m.
Proof. apply exp_pos. Qed.
Lemma noise_sq m : noise m ^ 2 = / flux m.
Proof. rewrite <- inv_noise, Rinv_inv. reflexivity. Qed.
Lemma rsum_scale c l : rsum (map (fun x => c * x) l) = c * rsum l.
Proof. unfold rsum. induction l as [|x l IH]; cbn; [ring|]. rewrite IH. ring. Qed.
Lemma rsum_map_scale {A} c (f : A -> R) l : rsum (map (fun x => c * f x) l) = c * rsum (map f l).
Proof. induction l as [|x l IH]; cbn; [ring|]. unfold rsum in *. cbn. rewrite IH. ring. Qed.
Lemma rsum_map_nonneg {A} (f : A -> R) l : (forall x, In x l -> 0 <= f x) -> 0 <= rsum (map f l).
Proof. induction l as [|x l IH]; intro H; cbn; [lra|]. pose proof (H x (or_introl eq_refl)). specialize (IH (fun y I => H y (or_intror I))). unfold rsum in *. lra. Qed.
Lemma rsum_map_le {A} (f g : A -> R) l : (forall x, In x l -> f x <= g x) -> rsum (map f l) <= rsum (map g l).
Proof. induction l as [|x l IH]; intro H; cbn; [lra|]. pose proof (H x (or_introl eq_refl)). specialize (IH (fun y I => H y (or_intror I))). unfold rsum in *. lra. Qed.
Lemma rsum_map_ext {A} (f g : A -> R) l : (forall x, In x l -> f x = g x) -> rsum (map f l) = rsum (map g l).
Proof. intro H. f_equal. now apply map_ext_in. Qed.

Definition wsum (l : list visit) : R := rsum (map (fun v => flux (tv_m5 v)) l).
Lemma wsum_pos l : l <> [] -> 0 < wsum l.
Proof. intro NE. unfold wsum. rewrite <- (map_map tv_m5 flux). apply flux_sum_pos. destruct l; [congruence|discriminate]. Qed.
Lemma f0_sq l : template_f0 l ^ 2 = 25 * wsum l.
Proof.
  unfold template_f0. replace (sqrt _ ^ 2) with (Rsqr (sqrt (rsum (map (fun v => 25 * flux (tv_m5 v)) l)))) by (unfold Rsqr; ring).
  rewrite Rsqr_sqrt.
  - apply rsum_map_scale.
  - apply rsum_map_nonneg. intros. pose proof (flux_pos (tv_m5 x)). lra.
Qed.
Lemma f0_pos l : l <> [] -> 0 < template_f0 l.
Proof.
  intro NE. unfold template_f0. apply sqrt_lt_R0. rewrite rsum_map_scale. pose proof (wsum_pos l NE). unfold wsum in *. lra.
Qed.
Lemma seeing_sq l : l <> [] -> template_seeing l ^ 2 * wsum l = rsum (map (fun v => tv_seeing v ^ 2 * flux (tv_m5 v)) l)
  /\ 0 <= template_seeing l.
Proof.
  intro NE. split; [|apply sqrt_pos].
  unfold template_seeing.
  replace (sqrt (rsum (map (fun v => (tv_seeing v / image_noise (template_f0 l) v) ^ 2) l)) ^ 2)
    with (Rsqr (sqrt (rsum (map (fun v => (tv_seeing v / image_noise (template_f0 l) v) ^ 2) l)))) by (unfold Rsqr; ring).
  rewrite Rsqr_sqrt by (apply rsum_map_nonneg; intros; apply pow2_ge_0).
  rewrite Rmult_comm, <- rsum_map_scale. apply rsum_map_ext. intros v _.
  unfold image_noise. fold (noise (tv_m5 v)).
  assert (E : (tv_seeing v / (template_f0 l / 5 * noise (tv_m5 v))) ^ 2 = tv_seeing v ^ 2 * 25 / (template_f0 l ^ 2) * (/ noise (tv_m5 v) ^ 2)).
  { pose proof (f0_pos l NE). pose proof (noise_pos (tv_m5 v)). field. split; lra. }
  rewrite E, f0_sq, inv_noise. pose proof (wsum_pos l NE). field. lra.
Qed.
Lemma seeing_between l lo hi : l <> [] -> 0 <= lo -> (forall v, In v l -> lo <= tv_seeing v <= hi) -> lo <= template_seeing l <= hi.
Proof.
  intros NE L0 H. destruct (seeing_sq l NE) as [E P]. pose proof (wsum_pos l NE) as W.
  assert (H0 : 0 <= hi). { destruct l as [|v l]; [congruence|]. pose proof (H v (or_introl eq_refl)). lra. }
  assert (A : lo ^ 2 * wsum l <= template_seeing l ^ 2 * wsum l).
  { rewrite E. unfold wsum. rewrite <- rsum_map_scale. apply rsum_map_le. intros v I. pose proof (flux_pos (tv_m5 v)). destruct (H v I). apply Rmult_le_compat_r; [lra|]. apply pow_incr. lra. }
  assert (B : template_seeing l ^ 2 * wsum l <= hi ^ 2 * wsum l).
  { rewrite E. unfold wsum. rewrite <- rsum_map_scale. apply rsum_map_le. intros v I. pose proof (flux_pos (tv_m5 v)). destruct (H v I). apply Rmult_le_compat_r; [lra|]. apply pow_incr. lra. }
  apply Rmult_le_reg_r in A; [|assumption]. apply Rmult_le_reg_r in B; [|assumption].
  split; apply Rsqr_incr_0_var; unfold Rsqr; nra.
Qed.
Lemma template_m5_coadd l : l <> [] -> coadd (map tv_m5 l) = Val (template_m5 l).
Proof.
  intro NE. rewrite coadd_val by (destruct l; [congruence|discriminate]). unfold template_m5. now rewrite map_map.
Qed.

(** ** Difference images *)
Lemma log10_sqrt x : 0 < x -> log10 (sqrt x) = log10 x / 2.
Proof.
  intro P. unfold log10. rewrite <- (sqrt_sqrt x) at 2 by lra. rewrite ln_mult by (apply sqrt_lt_R0; lra).
  pose proof ln10_pos. field. lra.
Qed.
Lemma diff_noise tm5 v : noise (diff_m5 tm5 v) ^ 2 = noise (tv_m5 v) ^ 2 + noise tm5 ^ 2.
Proof.
  rewrite !noise_sq. unfold diff_m5.
  set (x := 1 + Rpower 10 (- (4/5) * (tm5 - tv_m5 v))).
  assert (Px : 1 < x) by (unfold x; pose proof (exp_pos (- (4/5) * (tm5 - tv_m5 v) * ln 10)); unfold Rpower; lra).
  rewrite log10_sqrt by lra.
  replace (tv_m5 v + - (25/10) * (log10 x / 2)) with (tv_m5 v + 5/4 * - log10 x) by lra.
  assert (E : flux (tv_m5 v + 5/4 * - log10 x) = flux (tv_m5 v) / x).
  { assert (L : Rpower 10 (- log10 x) = / x).
    { rewrite Rpower_Ropp. f_equal. unfold Rpower, log10.
      replace (ln x / ln 10 * ln 10) with (ln x) by (pose proof ln10_pos; field; lra). apply exp_ln. lra. }
    change (flux (tv_m5 v) / x) with (flux (tv_m5 v) * / x). rewrite <- L. unfold flux.
    replace (4/5 * (tv_m5 v + 5/4 * - log10 x)) with (4/5 * tv_m5 v + - log10 x) by lra.
    rewrite Rpower_plus. reflexivity. }
  rewrite E. unfold x. pose proof (flux_pos (tv_m5 v)) as Fv. pose proof (flux_pos tm5) as Ft.
  assert (G : Rpower 10 (- (4/5) * (tm5 - tv_m5 v)) = flux (tv_m5 v) / flux tm5).
  { unfold flux, Rdiv. rewrite <- Rpower_Ropp, <- Rpower_plus. f_equal. lra. }
  rewrite G. field. split; [lra|]. split; [lra|]. lra.
Qed.
Lemma noise_lt a b : noise a < noise b <-> b < a.
Proof.
  unfold noise. assert (L : 1 < 10) by lra. split; intro H.
  - destruct (Rlt_le_dec b a) as [G|G]; [assumption|]. exfalso.
    assert (Rpower 10 (- (4/10) * b) <= Rpower 10 (- (4/10) * a)) by (apply Rle_Rpower; lra). lra.
  - apply Rpower_lt; lra.
Qed.
