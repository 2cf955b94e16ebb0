(** Properties of magnitudes: C180-C184. *)
From Verif Require Import Base Astrom_Model Astrom_Proofs Astrom_Proofs2 MoMag_Model MoMag_Proofs Resample_Model Resample_Spec Resample_Proofs Resample_Proofs2 Resample_Proofs3 Resample_Props Resample_Props2 Phot_Model Phot_Spec Phot_Proofs Phot_Proofs2.
From Coq Require Import Reals List Lia Lra.
Open Scope R_scope.

(** a small bandpass and a small spectrum for the examples *)
Definition ex_band : bandpass := {| b_w := [400; 500; 600]; b_sb := [0; 1/2; 1/4]; b_phi := None |}.
Definition ex_w : list R := [300; 400; 500; 600; 700].
Lemma ex_throughput : throughput (b_w ex_band) (b_sb ex_band).
Proof.
  repeat split; cbn [b_w b_sb ex_band length nth]; try lia; try lra; [asc| |exists (1/2); split; [right; left; reflexivity|lra]].
  intros x [<-|[<-|[<-|[]]]]; lra.
Qed.
Lemma ex_ok : band_ok ex_band. Proof. split; [apply ex_throughput|left; reflexivity]. Qed.
Lemma ex_serves : serves (b_w ex_band) ex_w.
Proof. split; [split; cbn; lra|right; left; cbn; lia]. Qed.
Lemma ex_spectrum f : length f = 5%nat -> spectrum ex_w f.
Proof. intros L. split; [asc|]. split; [cbn; lia|exact L]. Qed.

(** C180: the flux in a bandpass is the mean of the flux per frequency weighted by throughput over wavelength, lies between
    the least and the greatest flux, adds up for sums of sources, and does not depend on the scale of the throughput *)
Theorem C180_mean : forall w sb wl fnu fill b, throughput w sb -> set_bandpass w sb = Ok b -> spectrum wl fnu -> serves w wl ->
  calc_flux b wl fnu fill = Ok (Some (band_mean w sb (mean_at w wl fnu))).
Proof.
  intros w sb wl fnu fill b T E S V. unfold set_bandpass in E. destruct (Nat.eqb (length w) (length sb)); [|discriminate]. injection E as <-.
  apply calc_flux_value; auto. split; [exact T|left; reflexivity].
Qed.
Print Assumptions C180_mean.
Theorem C180_between : forall w sb wl fnu fill b lo hi, throughput w sb -> set_bandpass w sb = Ok b -> spectrum wl fnu -> serves w wl ->
  (forall y, In y fnu -> lo <= y <= hi) -> exists x, calc_flux b wl fnu fill = Ok (Some x) /\ lo <= x <= hi.
Proof.
  intros w sb wl fnu fill b lo hi T E S V H. eexists. split; [apply (C180_mean w sb); eauto|]. pose proof T as (Ag & Lg & _).
  rewrite <- (band_mean_const w sb T lo) at 1. rewrite <- (band_mean_const w sb T hi).
  split; apply band_mean_le; auto; intros i Hi; destruct (mean_at_bounds w wl fnu lo hi i); auto; apply V.
Qed.
Print Assumptions C180_between.
Theorem C180_sum : forall w sb wl f h fill b, throughput w sb -> set_bandpass w sb = Ok b -> spectrum wl f -> spectrum wl h -> serves w wl ->
  exists x y, calc_flux b wl f fill = Ok (Some x) /\ calc_flux b wl h fill = Ok (Some y) /\
    calc_flux b wl (map (fun p => fst p + snd p) (combine f h)) fill = Ok (Some (x + y)).
Proof.
  intros w sb wl f h fill b T E Sf Sh V. pose proof Sf as (Aw & Lw & Lf). pose proof Sh as (_ & _ & Lh).
  assert (S : spectrum wl (map (fun p => fst p + snd p) (combine f h))). { repeat split; auto. rewrite map_length, combine_length. lia. }
  do 2 eexists. split; [apply (C180_mean w sb); eauto|]. split; [apply (C180_mean w sb); eauto|].
  rewrite (C180_mean w sb) by auto. rewrite <- band_mean_plus. do 2 f_equal. apply band_mean_ext.
  intros i _. apply mean_at_plus; auto.
Qed.
Print Assumptions C180_sum.
Theorem C180_scale : forall w sb k wl fnu fill b b', throughput w sb -> 0 < k -> set_bandpass w sb = Ok b -> set_bandpass w (map (fun x => k * x) sb) = Ok b' ->
  spectrum wl fnu -> serves w wl -> calc_flux b' wl fnu fill = calc_flux b wl fnu fill.
Proof.
  intros w sb k wl fnu fill b b' T K E E' S V. pose proof T as (Ag & Lg & Ls & P0 & Hs & (x & Hx & Px)).
  assert (T' : throughput w (map (fun x => k * x) sb)).
  { repeat split; auto; [rewrite map_length; exact Ls| |].
    - intros y Hy. apply in_map_iff in Hy. destruct Hy as (z & <- & Hz). specialize (Hs z Hz). nra.
    - exists (k * x). split; [apply in_map_iff; exists x; auto|nra]. }
  rewrite (C180_mean w sb wl fnu fill b) by auto. rewrite (C180_mean w (map (fun x => k * x) sb) wl fnu fill b') by auto. do 2 f_equal.
  destruct (band_norm w sb T) as [N _].
  assert (M : forall i, nth i (map (fun x => k * x) sb) 0 = k * nth i sb 0). { intros i. rewrite <- (map_nth (fun x => k * x)). f_equal. ring. }
  unfold band_mean.
  rewrite (integral_ext w (fun i => mean_at w wl fnu i * (nth i (map (fun x => k * x) sb) 0 / nth i w 0)) (fun i => k * (mean_at w wl fnu i * (nth i sb 0 / nth i w 0))))
    by (intros; rewrite M; unfold Rdiv; ring).
  rewrite (integral_ext w (fun i => nth i (map (fun x => k * x) sb) 0 / nth i w 0) (fun i => k * (nth i sb 0 / nth i w 0)))
    by (intros; rewrite M; unfold Rdiv; ring).
  rewrite !integral_scale. field. split; [lra|lra].
Qed.
Print Assumptions C180_scale.
Example C180_case : throughput (b_w ex_band) (b_sb ex_band) /\ set_bandpass (b_w ex_band) (b_sb ex_band) = Ok ex_band /\
  spectrum ex_w [1; 2; 3; 4; 5] /\ serves (b_w ex_band) ex_w.
Proof. split; [apply ex_throughput|]. split; [reflexivity|]. split; [apply ex_spectrum; reflexivity|apply ex_serves]. Qed.

(** C181: a source with the same flux at all wavelengths has the magnitude of that flux in every bandpass; 3631 Jy is
    magnitude zero; a source k times as bright is 2.5 log10 k magnitudes brighter in every bandpass *)
Theorem C181_flat : forall w sb wl k fill b, throughput w sb -> set_bandpass w sb = Ok b -> ascending wl -> (2 <= length wl)%nat -> serves w wl ->
  1 / 10 ^ 300 <= 3631 * k -> calc_mag zp_new b wl (map (fun _ => 3631 * k) wl) fill = Ok (Some (- five_halves_log10 k)).
Proof.
  intros w sb wl k fill b T E Aw Lw V K. pose proof T as (Ag & Lg & _).
  assert (S : spectrum wl (map (fun _ => 3631 * k) wl)) by (repeat split; auto; apply map_length).
  unfold calc_mag. rewrite (C180_mean w sb) by auto. cbn [bind].
  rewrite (band_mean_ext w sb _ (fun _ => 3631 * k)) by (intros i Hi; apply mean_at_const; auto; apply V).
  rewrite band_mean_const by exact T. destruct (Rlt_dec (3631 * k) (1 / 10 ^ 300)) as [L|_]; [lra|]. do 2 f_equal.
  pose proof tiny_pos. assert (0 < k) by lra. unfold mag_from_flux, zp_new. rewrite lg_mult by lra. unfold five_halves_log10, lg. ring.
Qed.
Print Assumptions C181_flat.
Theorem C181_brighter : forall w sb wl fnu k b m, ascending w -> (2 <= length w)%nat -> set_bandpass w sb = Ok b -> spectrum wl fnu -> 0 < k ->
  forall zp, calc_mag zp b wl fnu None = Ok (Some m) ->
  calc_mag zp b wl (multiply_flux_norm k fnu) None = Ok (Some (m - five_halves_log10 k)) \/
  (calc_mag zp b wl (multiply_flux_norm k fnu) None = Err ValueError /\ k < 1).
Proof.
  intros w sb wl fnu k b m Ag Lg E S K zp. unfold set_bandpass in E. destruct (Nat.eqb (length w) (length sb)); [|discriminate]. injection E as <-.
  set (b := {| b_w := w; b_sb := sb; b_phi := None |}). destruct (calc_flux_times b wl fnu k Ag Lg S) as (x & E1 & E2).
  unfold calc_mag, multiply_flux_norm. fold (times k fnu). rewrite E1, E2. cbn [bind]. destruct x as [x|]; [|discriminate]. cbn [option_map].
  pose proof tiny_pos as TP.
  destruct (Rlt_dec x (1 / 10 ^ 300)) as [L|L]; [discriminate|]. intros M. injection M as <-.
  destruct (Rlt_dec (x * k) (1 / 10 ^ 300)) as [L'|L'].
  - right. split; [reflexivity|]. apply Rnot_le_lt. intros K1. apply Rnot_lt_le in L. apply (Rlt_irrefl (x * k)). apply Rlt_le_trans with (1 / 10 ^ 300); [exact L'|].
    apply Rle_trans with x; [exact L|]. rewrite <- (Rmult_1_r x) at 1. apply Rmult_le_compat_l; lra.
  - left. do 2 f_equal. rewrite Rmult_comm, mag_scale by lra. reflexivity.
Qed.
Print Assumptions C181_brighter.
Example C181_case : calc_mag zp_new ex_band ex_w (map (fun _ => 3631 * 100) ex_w) None = Ok (Some (-5)).
Proof.
  rewrite (C181_flat (b_w ex_band) (b_sb ex_band)); auto; try apply ex_throughput; try apply ex_serves; try (cbn; lia); try asc.
  - do 2 f_equal. unfold five_halves_log10. replace 100 with (10 * 10) by lra. rewrite ln_mult by lra. pose proof ln10_pos. field. lra.
  - apply Rle_trans with 1; [|lra]. apply Rmult_le_reg_r with (10 ^ 300); [apply pow_lt; lra|]. unfold Rdiv. rewrite Rmult_assoc, Rinv_l, !Rmult_1_l by (apply pow_nonzero; lra).
    apply pow_R1_Rle. lra.
Qed.

(** C182: normalizing a spectrum to a magnitude gives it this magnitude *)
Theorem C182_norm : forall zp w sb wl fnu m b n, ascending w -> (2 <= length w)%nat -> set_bandpass w sb = Ok b -> spectrum wl fnu ->
  calc_flux_norm zp m b wl fnu None = Ok (Some n) -> 0 < n /\
  (1 / 10 ^ 300 <= flux_from_mag zp m -> calc_mag zp b wl (multiply_flux_norm n fnu) None = Ok (Some m)).
Proof.
  intros zp w sb wl fnu m b n Ag Lg E S N. unfold calc_flux_norm in N. destruct (calc_mag zp b wl fnu None) as [[c|]|] eqn:M; try discriminate.
  cbn [bind] in N. injection N as <-. split; [apply pow10_pos|]. intros B.
  destruct (C181_brighter w sb wl fnu (Rpower 10 (- (2/5) * (m - c))) b c Ag Lg E S (pow10_pos _) zp M) as [H|[H _]].
  - rewrite H. do 2 f_equal. unfold five_halves_log10. fold (lg (Rpower 10 (- (2/5) * (m - c)))). rewrite lg_pow. field.
  - exfalso. unfold set_bandpass in E. destruct (Nat.eqb (length w) (length sb)); [|discriminate]. injection E as <-.
    set (b := {| b_w := w; b_sb := sb; b_phi := None |}) in *. set (k := Rpower 10 (- (2/5) * (m - c))) in *.
    destruct (calc_flux_times b wl fnu k Ag Lg S) as (x & E1 & E2).
    unfold calc_mag, multiply_flux_norm in H, M. fold (times k fnu) in H. rewrite E1 in M. rewrite E2 in H. cbn [bind] in H, M. destruct x as [x|]; [|discriminate]. cbn [option_map] in H.
    destruct (Rlt_dec x (1 / 10 ^ 300)) as [L|L]; [discriminate|]. destruct (Rlt_dec (x * k) (1 / 10 ^ 300)) as [L'|L']; [|discriminate].
    pose proof tiny_pos. injection M as M. apply (Rlt_irrefl (1 / 10 ^ 300)). apply Rle_lt_trans with (x * k); [|exact L'].
    apply Rle_trans with (flux_from_mag zp m); [exact B|]. right. rewrite <- (flux_of_mag zp x) by lra. rewrite M. unfold flux_from_mag, k. rewrite <- pow10_plus. f_equal. ring.
Qed.
Print Assumptions C182_norm.
Example C182_case : exists n, calc_flux_norm zp_new 20 ex_band ex_w (map (fun _ => 3631 * 100) ex_w) None = Ok (Some n).
Proof. unfold calc_flux_norm. rewrite C181_case. cbn [bind]. eexists. reflexivity. Qed.

(** C183: magnitudes and fluxes are inverse to each other, brighter means smaller *)
Theorem C183_inverse : forall zp, (forall m, mag_from_flux zp (flux_from_mag zp m) = m) /\ (forall f, 0 < f -> flux_from_mag zp (mag_from_flux zp f) = f) /\
  (forall m n, m < n -> 0 < flux_from_mag zp n < flux_from_mag zp m) /\
  (forall m, flux_from_mag zp (m - 5) = 100 * flux_from_mag zp m) /\ flux_from_mag zp_new 0 = 3631.
Proof.
  intros zp. split; [apply mag_of_flux|]. split; [intros f H; apply flux_of_mag, H|]. split; [|split].
  - intros m n H. split; [apply flux_pos|]. apply pow10_lt. lra.
  - intros m. unfold Rminus. rewrite flux_shift. f_equal. replace (- (2/5) * - (5)) with (1 + 1) by lra. rewrite pow10_plus, !Rpower_1 by lra. lra.
  - apply zp_flux.
Qed.
Print Assumptions C183_inverse.
Example C183_case : flux_from_mag zp_new 5 = 3631 / 100.
Proof. pose proof (proj1 (proj2 (proj2 (proj2 (C183_inverse zp_new)))) 5) as H. replace (5 - 5) with 0 in H by lra. rewrite zp_flux in H. lra. Qed.

(** C184: a Sed that was cleared and set again gives the same magnitudes as a new one: it does not, the zeropoint is rounded *)
Lemma lg_3631 : 89/10 < 5/2 * lg 3631 < 89/10 + 1/5000.
Proof.
  assert (E : forall x n, 0 < x -> lg (x ^ n) = INR n * lg x).
  { intros x n Hx. induction n as [|n IH]; [unfold lg; simpl; rewrite ln_1; unfold Rdiv; ring|].
    rewrite <- tech_pow_Rmult, lg_mult, IH, S_INR by (auto; apply pow_lt; auto). ring. }
  assert (L10 : lg 10 = 1) by (unfold lg; pose proof ln10_pos; field; lra).
  pose proof (E 3631 25%nat ltac:(lra)) as E1. pose proof (E 10 89%nat ltac:(lra)) as E2. rewrite L10 in E2.
  replace (INR 25) with 25 in E1 by (simpl; lra). replace (INR 89) with 89 in E2 by (rewrite INR_IZR_INZ; reflexivity).
  split.
  - assert (10 ^ 89 < 3631 ^ 25) as P. { rewrite !pow_IZR. apply IZR_lt. reflexivity. }
    pose proof (lg_lt (10 ^ 89) (3631 ^ 25) ltac:(apply pow_lt; lra) P). lra.
  - assert (3631 ^ 25 * 1000 < 10 ^ 89 * 1002) as P. { rewrite !pow_IZR, <- !mult_IZR. apply IZR_lt. reflexivity. }
    assert (P' : 3631 ^ 25 < 10 ^ 89 * (1002 / 1000)) by lra.
    pose proof (lg_lt _ _ (pow_lt 3631 25 ltac:(lra)) P') as Q. rewrite lg_mult, E1, E2 in Q by (try apply pow_lt; lra).
    assert (lg (1002 / 1000) < 2 / 1000) as R; [|lra].
    unfold lg. assert (1 < ln 10). { rewrite <- (ln_exp 1). apply ln_increasing; [apply exp_pos|]. pose proof exp_le_3. lra. }
    assert (ln (1002/1000) <= 2/1000). { rewrite <- (ln_exp (2/1000)). pose proof (exp_ineq1 (2/1000) ltac:(lra)). apply Rlt_le, ln_increasing; lra. }
    apply Rmult_lt_reg_r with (ln 10); [lra|]. unfold Rdiv at 1. rewrite Rmult_assoc, Rinv_l by lra. nra.
Qed.
Theorem C184_cleared_refuted : ~ (forall f, 0 < f -> mag_from_flux zp_cleared f = mag_from_flux zp_new f).
Proof. intros C. specialize (C 1 ltac:(lra)). unfold mag_from_flux, zp_cleared, zp_new in C. pose proof lg_3631. lra. Qed.
Print Assumptions C184_cleared_refuted.
Theorem C184_cleared_partial : forall f, mag_from_flux zp_cleared f < mag_from_flux zp_new f < mag_from_flux zp_cleared f + 1/5000.
Proof. intros f. unfold mag_from_flux, zp_cleared, zp_new. pose proof lg_3631. lra. Qed.
Print Assumptions C184_cleared_partial.
Example C184_case : mag_from_flux zp_new 3631 = 0 /\ mag_from_flux zp_cleared 3631 < 0.
Proof. pose proof (C184_cleared_partial 3631). assert (mag_from_flux zp_new 3631 = 0); [|split; lra]. rewrite <- zp_flux. apply mag_of_flux. Qed.
