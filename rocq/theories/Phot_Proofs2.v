(** Lemmas about photometry: counts and magnitudes. *)
From Verif Require Import Base Astrom_Model Astrom_Proofs Astrom_Proofs2 MoMag_Model MoMag_Proofs Resample_Model Resample_Spec Resample_Proofs Resample_Proofs2 Resample_Proofs3 Resample_Props Resample_Props2 Phot_Model Phot_Spec Phot_Proofs.
From Coq Require Import Reals List Lia Lra.
Open Scope R_scope.

Lemma planck_pos : 0 < planck. Proof. unfold planck. apply Rdiv_lt_0_compat; [lra|apply pow_lt; lra]. Qed.
Lemma jansky_pos : 0 < ergsetc2jansky. Proof. apply pow_lt. lra. Qed.
Lemma nm2m_pos : 0 < nm2m. Proof. apply Rdiv_lt_0_compat; [lra|apply pow_lt; lra]. Qed.
Lemma tiny_pos : 0 < 1 / 10 ^ 300. Proof. apply Rdiv_lt_0_compat; [lra|apply pow_lt; lra]. Qed.

(** magnitudes *)
Lemma mag_of_flux zp m : mag_from_flux zp (flux_from_mag zp m) = m.
Proof. unfold mag_from_flux, flux_from_mag. rewrite lg_pow. field. Qed.
Lemma flux_of_mag zp f : 0 < f -> flux_from_mag zp (mag_from_flux zp f) = f.
Proof. intros H. unfold mag_from_flux, flux_from_mag. rewrite <- (pow_lg f H) at 2. f_equal. field. Qed.
Lemma flux_pos zp m : 0 < flux_from_mag zp m. Proof. apply pow10_pos. Qed.
Lemma flux_shift zp m d : flux_from_mag zp (m + d) = Rpower 10 (- (2/5) * d) * flux_from_mag zp m.
Proof. unfold flux_from_mag. rewrite <- pow10_plus. f_equal. ring. Qed.
Lemma mag_scale zp k f : 0 < k -> 0 < f -> mag_from_flux zp (k * f) = mag_from_flux zp f - 5/2 * lg k.
Proof. intros Hk Hf. unfold mag_from_flux. rewrite lg_mult by auto. ring. Qed.
Lemma zp_flux : flux_from_mag zp_new 0 = 3631.
Proof. unfold flux_from_mag, zp_new. replace (- (2/5) * (0 + - (5/2) * lg 3631)) with (lg 3631) by field. apply pow_lg. lra. Qed.

(** resampling commutes with multiplication when missing values are NaN *)
Definition times (k : R) (l : list R) : list R := map (fun x => x * k) l.
Lemma times_length k l : length (times k l) = length l. Proof. apply map_length. Qed.
Lemma light_times w f k lo hi : light w (times k f) lo hi = light w f lo hi * k.
Proof.
  unfold times. rewrite (map_ext (fun x => x * k) (fun x => k * x)) by (intros; ring). rewrite light_scale. ring.
Qed.
Lemma covered_dec w lo hi : covered w lo hi \/ ~ covered w lo hi.
Proof. unfold covered. destruct (Rle_dec (bin_lo w 0) lo), (Rle_dec hi (bin_hi w (length w - 1))); tauto. Qed.
Lemma option_nth (l : list (option R)) (h : R -> R) j : nth j (map (option_map h) l) None = option_map h (nth j l None).
Proof. change None with (option_map h None) at 1. apply map_nth. Qed.
Lemma spectres_times g w f k : ascending g -> (2 <= length g)%nat -> spectrum w f ->
  exists vs, spectres g w f None = Ok vs /\ spectres g w (times k f) None = Ok (map (option_map (fun x => x * k)) vs).
Proof.
  intros Ag Lg (Aw & Lw & Lf). destruct (C174_mean g w f None Ag Aw Lg Lw Lf) as (vs & E & B & C).
  destruct (C174_mean g w (times k f) None Ag Aw Lg Lw) as (vs' & E' & B' & C'). { rewrite times_length. exact Lf. }
  exists vs. split; [exact E|]. rewrite E'. f_equal. apply (same_values _ _ g); [exact B'|rewrite map_length; exact B|].
  intros j Hj. rewrite option_nth. destruct (covered_dec w (bin_lo g j) (bin_hi g j)) as [K|K].
  - rewrite (proj1 (C j Hj) K), (proj1 (C' j Hj) K). cbn. f_equal. rewrite light_times. unfold Rdiv. ring.
  - rewrite (proj2 (C j Hj) K), (proj2 (C' j Hj) K). reflexivity.
Qed.
Lemma some_all_times k f : some_all (times k f) = map (option_map (fun x => x * k)) (some_all f).
Proof. unfold some_all, times. rewrite !map_map. reflexivity. Qed.
Lemma resample_times g w f k : ascending g -> (2 <= length g)%nat -> spectrum w f ->
  exists w' vs, resample_match g w f false None = Ok (w', vs) /\ resample_match g w (times k f) false None = Ok (w', map (option_map (fun x => x * k)) vs).
Proof.
  intros Ag Lg S. pose proof S as (_ & _ & Lf). unfold resample_match. rewrite times_length, (proj2 (Nat.eqb_eq _ _) (eq_sym Lf)).
  destruct (false || need_match g w)%bool.
  - destruct (spectres_times g w f k Ag Lg S) as (vs & -> & ->). exists g, vs. split; reflexivity.
  - exists w, (some_all f). rewrite some_all_times. split; reflexivity.
Qed.
Lemma numbers_times k vs : numbers (map (option_map (fun x => x * k)) vs) = option_map (times k) (numbers vs).
Proof.
  induction vs as [|[x|] vs IH]; [reflexivity| |reflexivity]. cbn [map option_map numbers]. rewrite IH. destruct (numbers vs); reflexivity.
Qed.
Lemma zip_times h k a b : (forall x y, h (x * k) y = h x y * k) -> zip_with h (times k a) b = times k (zip_with h a b).
Proof.
  intros H. revert b. induction a as [|x a IH]; intros [|y b]; try reflexivity. unfold zip_with, times in *. cbn [map combine fst snd]. rewrite H. f_equal. apply IH.
Qed.
Lemma zip_times_r h k a b : (forall x y, h x (y * k) = h x y * k) -> zip_with h a (times k b) = times k (zip_with h a b).
Proof.
  intros H. revert b. induction a as [|x a IH]; intros [|y b]; try reflexivity. unfold zip_with, times in *. cbn [map combine fst snd]. rewrite H. f_equal. apply IH.
Qed.
Lemma rsum_times k l : rsum (times k l) = rsum l * k.
Proof. induction l as [|x l IH]; unfold times, rsum in *; cbn [map fold_right]; [ring|]. rewrite IH. ring. Qed.
Lemma mids_times k l : mids (times k l) = times k (mids l).
Proof.
  apply (nth_ext _ _ 0 0); [rewrite times_length, !mids_length, times_length; reflexivity|]. intros i Hi. rewrite mids_length, times_length in Hi.
  assert (T : forall j l, nth j (times k l) 0 = nth j l 0 * k). { intros j l'. unfold times. rewrite <- (map_nth (fun x => x * k)). f_equal. ring. }
  rewrite T, !mids_nth, !T by (rewrite ?times_length; lia). field.
Qed.
Lemma trapz_times k y x : trapz (times k y) x = trapz y x * k.
Proof. unfold trapz. rewrite mids_times, zip_times_r by (intros; ring). apply rsum_times. Qed.
Lemma calc_flux_times b w f k : ascending (b_w b) -> (2 <= length (b_w b))%nat -> spectrum w f ->
  exists x, calc_flux b w f None = Ok x /\ calc_flux b w (times k f) None = Ok (option_map (fun x => x * k) x).
Proof.
  intros Ag Lg S. unfold calc_flux. destruct (resample_times (b_w b) w f k Ag Lg S) as (w' & vs & -> & ->). cbn [bind fst snd].
  eexists. split; [reflexivity|]. f_equal. rewrite numbers_times. destruct (numbers vs); [|reflexivity]. cbn [option_map].
  destruct (b_phi (with_phi b)); [|reflexivity]. destruct (Req_EM_T (phi_norm b) 0); [reflexivity|]. cbn [option_map]. f_equal.
  rewrite zip_times by (intros; ring). apply trapz_times.
Qed.
Lemma calc_adu_times pp b w f k : ascending (b_w b) -> (2 <= length (b_w b))%nat -> spectrum w f ->
  exists x, calc_adu pp b w f = Ok x /\ calc_adu pp b w (times k f) = Ok (option_map (fun x => x * k) x).
Proof.
  intros Ag Lg S. unfold calc_adu. destruct (resample_times (b_w b) w f k Ag Lg S) as (w' & vs & -> & ->). cbn [bind fst snd].
  eexists. split; [reflexivity|]. f_equal. rewrite numbers_times. destruct (numbers vs); [|reflexivity]. cbn [option_map]. f_equal.
  unfold nphoton. rewrite zip_times by (intros; unfold Rdiv; ring). rewrite zip_times by (intros; ring). rewrite rsum_times. ring.
Qed.

(** the counts *)
Definition bin_sum (g : list R) (y : nat -> R) : R := addup (map (fun i => y i * (nth 1 g 0 - nth 0 g 0)) (seq 0 (length g))).
Lemma calc_adu_value pp b w f : ascending (b_w b) -> (2 <= length (b_w b))%nat -> length (b_sb b) = length (b_w b) -> spectrum w f -> serves (b_w b) w ->
  calc_adu pp b w f = Ok (Some (adu_factor pp * bin_sum (b_w b) (fun i => mean_at (b_w b) w f i / nth i (b_w b) 0 * nth i (b_sb b) 0))).
Proof.
  intros Ag Lg Ls S V. unfold calc_adu. rewrite resample_serves by auto. cbn [bind fst snd]. rewrite numbers_some. do 2 f_equal.
  unfold nphoton, bin_sum. rewrite (zip_as_tab Rdiv _ _ (length (b_w b))) by (rewrite ?tab_length; auto).
  rewrite (zip_as_tab Rmult _ _ (length (b_w b))) by (rewrite ?tab_length; auto). unfold first_step. change addup with rsum.
  rewrite (rsum_ext _ (fun i => (nth 1 (b_w b) 0 - nth 0 (b_w b) 0) * (mean_at (b_w b) w f i / nth i (b_w b) 0 * nth i (b_sb b) 0))) by (intros; ring).
  rewrite rsum_scale. rewrite (rsum_ext _ (fun i => nth i (tab (fun j => nth j (tab (mean_at (b_w b) w f) (length (b_w b))) 0 / nth j (b_w b) 0) (length (b_w b))) 0 * nth i (b_sb b) 0)).
  - unfold tab at 1. ring.
  - intros i Hi. apply in_seq in Hi. rewrite !tab_nth by lia. reflexivity.
Qed.
