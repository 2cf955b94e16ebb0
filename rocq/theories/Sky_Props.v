(** C290-C295: angles, interpolation of the templates and twilight of the sky brightness model. *)
From Coq Require Import String Reals ZArith Lra Lia Psatz List Permutation Sorted.
From Verif Require Import Base Depth_Model Depth_Proofs Template_Model Template_Spec Template_Proofs Sky_Model Sky_Spec Sky_Proofs.
Import ListNotations.
Open Scope R_scope.

(** ** C290: angles *)
(** [wrap_ra] brings every angle into [0, 2 pi) without changing its direction, and is the only way to do so. *)
Theorem C290_wrap x y : Wrapped x y <-> wrap_ra x = y.
Proof. split; [intro W; eapply wrap_unique; [apply wrap_spec|exact W]|intros <-; apply wrap_spec]. Qed.
Print Assumptions C290_wrap.
Example C290_wrap_case : wrap_ra (- PI / 2) = 3 * PI / 2 /\ Wrapped (5 * PI) PI.
Proof.
  pose proof PI_RGT_0. split.
  - apply C290_wrap. split; [lra|]. exists 1%Z. lra.
  - split; [lra|]. exists (-2)%Z. lra.
Qed.

(** The azimuth relative to the moon is the angle between the two azimuths, from 0 to pi: it does not depend on which
    comes first, nor on whole turns, and the two directions have the same cosine. *)
Theorem C290_azimuth az m d : (Between az m d <-> calc_az_rel_moon az m = d)
  /\ calc_az_rel_moon az m = calc_az_rel_moon m az
  /\ (forall k : Z, calc_az_rel_moon (az + 2 * PI * IZR k) m = calc_az_rel_moon az m)
  /\ cos (calc_az_rel_moon az m) = cos (az - m).
Proof.
  assert (U : forall e, Between az m e -> calc_az_rel_moon az m = e) by (intros e B; eapply between_unique; [apply az_between|exact B]).
  split; [split; [apply U|intros <-; apply az_between]|]. split; [apply U, between_sym, az_between|]. split.
  - intro k. symmetry. apply U. destruct (az_between (az + 2 * PI * IZR k) m) as [B [j [E|E]]]; (split; [exact B|]).
    + exists (k + j)%Z. left. rewrite E, plus_IZR. lra.
    + exists (j - k)%Z. right. rewrite E, minus_IZR. lra.
  - assert (C : forall x (k : Z), cos (x + 2 * PI * IZR k) = cos x).
    { intros x k. destruct k as [|p|p].
      - f_equal. lra.
      - replace (2 * PI * IZR (Z.pos p)) with (2 * INR (Pos.to_nat p) * PI) by (rewrite INR_IZR_INZ, positive_nat_Z; ring). apply cos_period.
      - rewrite <- (cos_period (x + 2 * PI * IZR (Z.neg p)) (Pos.to_nat p)). f_equal. rewrite INR_IZR_INZ, positive_nat_Z.
        change (Z.neg p) with (- Z.pos p)%Z. rewrite opp_IZR. ring. }
    destruct (az_between az m) as [_ [k [E|E]]]; rewrite E, C; [reflexivity|]. replace (m - az) with (- (az - m)) by ring. apply cos_neg.
Qed.
Print Assumptions C290_azimuth.
Example C290_azimuth_case : calc_az_rel_moon (11 * PI / 6) (PI / 6) = PI / 3.
Proof. pose proof PI_RGT_0. apply (C290_azimuth _ _ (PI / 3)). split; [lra|]. exists 1%Z. right. lra. Qed.

(** ** C291: templates that depend on the airmass *)
Lemma flux_of_mag_is m : m <> 0 -> FluxMag (flux_of_mag m) m.
Proof. intro N. unfold flux_of_mag, FluxMag. now rewrite (proj2 (reqb_false _ _) N). Qed.
Lemma pow10_pos x : 0 < Rpower 10 x. Proof. apply exp_pos. Qed.
Lemma pow10_le x y : x <= y -> Rpower 10 x <= Rpower 10 y.
Proof. intros [L| ->]; [left; apply Rpower_lt; lra|lra]. Qed.

(** Inside the range of the templates the flux is that of the magnitude interpolated between the two neighbouring templates:
    never brighter than the brightest or fainter than the faintest template, and equal to a template at its airmass. *)
Theorem C291_inside_partial grid mags p lo hi : Increasing grid -> length mags = length grid -> Inside grid p ->
  0 < lo -> (forall m, In m mags -> lo <= m <= hi) ->
  exists m, Interp grid mags p m /\ (forall m', Interp grid mags p m' -> m' = m)
    /\ FluxMag (single_mag grid mags p) m
    /\ Rpower 10 (- (4/10) * (hi - ln 3631 / ln 10)) <= single_mag grid mags p <= Rpower 10 (- (4/10) * (lo - ln 3631 / ln 10)).
Proof.
  intros Inc L I Plo B. assert (H : Interp grid mags p (weight1 grid mags p)) by now apply weight1_interp.
  exists (weight1 grid mags p). split; [exact H|]. split; [intros m' H'; eapply interp_unique; eassumption|].
  pose proof (interp_between _ _ _ _ lo hi H B) as Bm.
  assert (F : FluxMag (single_mag grid mags p) (weight1 grid mags p)) by (apply flux_of_mag_is; lra). split; [exact F|].
  unfold FluxMag in F. rewrite F. split; apply pow10_le; lra.
Qed.
Print Assumptions C291_inside_partial.
Lemma increasing2 a b : a < b -> Increasing [a; b].
Proof. intro L. apply sorted_increasing. repeat (constructor; [|constructor; auto]). repeat constructor. Qed.
Lemma inside2 a b p : a <= p <= b -> Inside [a; b] p.
Proof. intro H. exists a, b. cbn. tauto. Qed.
Example C291_inside_case : exists m, Interp [1; 2] [21; 20] 1.5 m /\ m = 20.5.
Proof.
  exists 20.5. split; [|reflexivity]. exists O, 1, 2, 21, 20. cbn. split; [reflexivity|]. split; [reflexivity|]. right.
  split; [reflexivity|]. split; [reflexivity|]. split; lra.
Qed.

(** Outside the range of airmass of the templates the component has no flux at all. *)
Theorem C291_outside grid mags spectra p : Increasing grid -> grid <> [] -> (forall x, In x grid -> p < x) \/ (forall x, In x grid -> x < p) ->
  single_mag grid mags p = 0 /\ single_spec grid spectra p = 0.
Proof.
  intros Inc N H. assert (O : ~ Inside grid p) by (intros (a & b & Ia & Ib & A & B); destruct H as [H|H]; [pose proof (H a Ia)|pose proof (H b Ib)]; lra).
  unfold single_mag, single_spec, flux_of_mag, flux_of_log. rewrite !(weight1_out grid _ p Inc N O). rewrite (proj2 (reqb_true 0 0) eq_refl). split; reflexivity.
Qed.
Print Assumptions C291_outside.
Example C291_outside_case : single_mag [1; 3] [21; 20] 3.5 = 0.
Proof. apply (C291_outside [1; 3] [21; 20] []); [apply increasing2; lra|discriminate|]. right. intros x [<-|[<-|[]]]; lra. Qed.

(** ** C292: spectra are interpolated in their logarithm *)
Lemma log10_le x y : 0 < x -> x <= y -> log10 x <= log10 y.
Proof.
  intros P [L| ->]; [|lra]. unfold log10, Rdiv. apply Rmult_le_compat_r; [left; apply Rinv_0_lt_compat, ln10_pos|]. left. now apply ln_increasing.
Qed.
Lemma pow10_log10 x : 0 < x -> Rpower 10 (log10 x) = x.
Proof.
  intro P. unfold Rpower, log10. pose proof ln10_pos. replace (ln x / ln 10 * ln 10) with (ln x) by (field; lra). now apply exp_ln.
Qed.
Lemma log10_1 : log10 1 = 0. Proof. unfold log10. rewrite ln_1. unfold Rdiv. ring. Qed.
Lemma log10_neg x : 0 < x < 1 -> log10 x < 0.
Proof.
  intros [P L]. rewrite <- log10_1. unfold log10, Rdiv. apply Rmult_lt_compat_r; [apply Rinv_0_lt_compat, ln10_pos|]. now apply ln_increasing.
Qed.

(** If all templates have a positive flux below one, the logarithm of the flux is interpolated, so the flux lies between the
    smallest and the largest template. *)
Theorem C292_spectrum_partial grid spectra p lo hi : Increasing grid -> length spectra = length grid -> Inside grid p ->
  0 < lo -> hi < 1 -> (forall f, In f spectra -> lo <= f <= hi) ->
  lo <= single_spec grid spectra p <= hi
  /\ Interp grid (map (fun f => ln f / ln 10) spectra) p (ln (single_spec grid spectra p) / ln 10).
Proof.
  intros Inc L I Plo Hhi B.
  assert (E : map log_spec spectra = map (fun f => ln f / ln 10) spectra).
  { apply map_ext_in. intros f If. apply B in If. unfold log_spec. now rewrite (proj2 (reqb_false f 0)) by lra. }
  assert (H : Interp grid (map log_spec spectra) p (weight1 grid (map log_spec spectra) p)).
  { apply weight1_interp; auto. now rewrite map_length. }
  assert (Bw : log10 lo <= weight1 grid (map log_spec spectra) p <= log10 hi).
  { eapply interp_between; [exact H|]. intros y Iy. rewrite E in Iy. apply in_map_iff in Iy as (f & <- & If). apply B in If.
    split; apply log10_le; lra. }
  unfold single_spec, flux_of_log. set (w := weight1 grid (map log_spec spectra) p) in *.
  assert (hi_pos : 0 < hi). { destruct grid as [|g t]; [destruct I as (a & _ & [] & _)|]. destruct spectra as [|f s]; [discriminate|]. pose proof (B f (or_introl eq_refl)). lra. }
  assert (Nw : w <> 0) by (pose proof (log10_neg hi ltac:(lra)); lra). rewrite (proj2 (reqb_false _ _) Nw). split.
  - destruct Bw as [B1 B2]. apply pow10_le in B1, B2. rewrite pow10_log10 in B1, B2 by lra. lra.
  - replace (ln (Rpower 10 w) / ln 10) with w; [rewrite <- E; exact H|]. unfold Rpower. rewrite ln_exp. pose proof ln10_pos. field. lra.
Qed.
Print Assumptions C292_spectrum_partial.
Example C292_spectrum_case : 1/1000 <= single_spec [1; 2] [1/1000; 1/100] 1.5 <= 1/100.
Proof.
  apply (C292_spectrum_partial [1; 2] [1/1000; 1/100] 1.5 (1/1000) (1/100)); try lra; [apply increasing2; lra|reflexivity|apply inside2; lra|].
  intros f [<-|[<-|[]]]; lra.
Qed.

Lemma weight1_half y0 y1 : weight1 [1; 2] [y0; y1] 1.5 = (y0 + y1) / 2.
Proof.
  apply weight1_interp; [apply increasing2; lra|reflexivity|apply inside2; lra|].
  exists O, 1, 2, y0, y1. cbn. split; [reflexivity|]. split; [reflexivity|]. right. split; [reflexivity|]. split; [reflexivity|]. split; [lra|].
  replace ((1.5 - 1) / (2 - 1)) with (1 / 2) by lra. lra.
Qed.
(** Where one neighbour has no flux the interpolated flux is brighter than both: a zero is handled as if it were one. *)
Theorem C292_zero_refuted : ~ (forall grid spectra p lo hi, Increasing grid -> length spectra = length grid -> Inside grid p ->
  0 <= lo -> (forall f, In f spectra -> lo <= f <= hi) -> lo <= single_spec grid spectra p <= hi).
Proof.
  intro H. specialize (H [1; 2] [0; 1/1000] 1.5 0 (1/1000) (increasing2 1 2 ltac:(lra)) eq_refl (inside2 1 2 1.5 ltac:(lra)) ltac:(lra)).
  assert (K : 0 <= single_spec [1; 2] [0; 1/1000] 1.5 <= 1/1000) by (apply H; intros f [<-|[<-|[]]]; lra).
  unfold single_spec in K. cbn [map] in K. rewrite weight1_half in K. unfold log_spec in K.
  rewrite (proj2 (reqb_true 0 0) eq_refl), (proj2 (reqb_false (1/1000) 0)) in K by lra.
  assert (Ln : log10 (1/1000) < 0) by (apply log10_neg; lra).
  unfold flux_of_log in K. rewrite (proj2 (reqb_false _ 0)) in K by lra.
  assert (L : Rpower 10 (log10 (1/1000)) < Rpower 10 ((0 + log10 (1/1000)) / 2)) by (apply Rpower_lt; lra).
  rewrite pow10_log10 in L by lra. lra.
Qed.
Print Assumptions C292_zero_refuted.
(** A template whose flux is exactly one is reported as zero, even at its own airmass. *)
Theorem C292_one_refuted : ~ (forall grid spectra i x f, Increasing grid -> length spectra = length grid ->
  nth_error grid i = Some x -> nth_error spectra i = Some f -> 0 < f -> single_spec grid spectra x = f).
Proof.
  intro H. specialize (H [1; 2] [1; 1] O 1 1 (increasing2 1 2 ltac:(lra)) eq_refl eq_refl eq_refl ltac:(lra)).
  unfold single_spec in H. cbn [map] in H.
  assert (W : weight1 [1; 2] [log_spec 1; log_spec 1] 1 = log_spec 1).
  { apply weight1_interp; [apply increasing2; lra|reflexivity|apply inside2; lra|]. exists O, 1, 2, (log_spec 1), (log_spec 1). cbn. tauto. }
  rewrite W in H. unfold log_spec in H. rewrite (proj2 (reqb_false 1 0)) in H by lra. rewrite log10_1 in H.
  unfold flux_of_log in H. rewrite (proj2 (reqb_true 0 0) eq_refl) in H. lra.
Qed.
Print Assumptions C292_one_refuted.

(** ** C293: airglow *)
(** The airglow is interpolated in airmass and solar flux. *)
Theorem C293_airglow_partial ams sfs table x y lo hi : Increasing ams -> Increasing sfs -> Full (length ams) (length sfs) table ->
  Inside ams x -> Inside sfs y -> 0 < lo -> (forall r m, In r table -> In m r -> lo <= m <= hi) ->
  exists m, Interp2 ams sfs table x y m /\ (forall m', Interp2 ams sfs table x y m' -> m' = m)
    /\ FluxMag (airglow_mag ams sfs (concat table) x y) m /\ lo <= m <= hi.
Proof.
  intros Ia Is F Hx Hy Plo B. assert (H : Interp2 ams sfs table x y (airglow_weight ams sfs (concat table) x y)) by now apply airglow_interp.
  exists (airglow_weight ams sfs (concat table) x y). pose proof (interp2_between _ _ _ _ _ _ lo hi H B) as Bm.
  split; [exact H|]. split; [intros m' H'; apply (interp2_unique ams sfs table x y); assumption|]. split; [apply flux_of_mag_is; lra|exact Bm].
Qed.
Print Assumptions C293_airglow_partial.
(** Outside the range of airmass or of solar flux there is no airglow. *)
Theorem C293_outside ams sfs values x y : Increasing ams -> Increasing sfs -> ams <> [] -> sfs <> [] ->
  ~ (Inside ams x /\ Inside sfs y) -> airglow_mag ams sfs values x y = 0.
Proof.
  intros Ia Is Na Ns H. unfold airglow_mag. rewrite airglow_out by assumption. unfold flux_of_mag. now rewrite (proj2 (reqb_true 0 0) eq_refl).
Qed.
Print Assumptions C293_outside.
Example C293_case : Interp2 [1; 2] [50; 310] [[22; 21]; [20; 19]] 1.5 180 20.5 /\ Full 2 2 [[22; 21]; [20; 19]]
  /\ ~ (Inside [1; 2] 1.5 /\ Inside [50; 310] 400).
Proof.
  split; [|split].
  - exists [21.5; 19.5]. split.
    + constructor; [|constructor; [|constructor]].
      * exists O, 50, 310, 22, 21. cbn. split; [reflexivity|]. split; [reflexivity|]. right. split; [reflexivity|]. split; [reflexivity|]. split; lra.
      * exists O, 50, 310, 20, 19. cbn. split; [reflexivity|]. split; [reflexivity|]. right. split; [reflexivity|]. split; [reflexivity|]. split; lra.
    + exists O, 1, 2, 21.5, 19.5. cbn. split; [reflexivity|]. split; [reflexivity|]. right. split; [reflexivity|]. split; [reflexivity|]. split; lra.
  - split; [reflexivity|]. repeat constructor.
  - intros [_ (a & b & _ & [<-|[<-|[]]] & H)]; lra.
Qed.

(** ** C294: moon and zodiacal light *)
Lemma sel_known hpids nb kn : Sel (fun q : Z * R => In (fst q) hpids) nb kn -> kn = filter (fun q => known hpids (fst q)) nb.
Proof. intro S. eapply sel_unique; [exact S|]. apply sel_filter. intro q. apply known_spec. Qed.

(** The moonlight is the weighted mean of the table at the neighbouring pixels that the table knows; in each of them it is
    interpolated in the altitude of the moon and in its distance from the sun. *)
Theorem C294_moon_partial seps alts hpids table nb kn malt sep : Increasing seps -> Increasing alts -> NoDup hpids ->
  length table = length seps -> Forall (Full (length alts) (length hpids)) table ->
  Inside alts malt -> Inside seps sep ->
  Sel (fun q : Z * R => In (fst q) hpids) nb kn -> fold_right Rplus 0 (map snd kn) <> 0 ->
  exists cs, Forall2 (fun q c => exists j, nth_error hpids j = Some (fst q) /\ Interp2 seps alts (Pixel j table) sep malt c) kn cs
  /\ forall m, m * fold_right Rplus 0 (map snd kn) = fold_right Rplus 0 (map (fun qc => snd (fst qc) * snd qc) (combine kn cs)) -> m <> 0 ->
     FluxMag (moon_mag seps alts hpids (concat (map (@concat R) table)) nb malt sep) m.
Proof.
  intros Is Ia ND L F Ha Hs S N. apply sel_known in S.
  destruct (moon_sum seps alts hpids table nb malt sep Is Ia ND L F Ha Hs kn S N) as (cs & Fc & E). exists cs. split; [exact Fc|].
  intros m Em Nm. unfold rsum in E. rewrite <- Em in E. apply Rmult_eq_reg_r in E; [|exact N]. unfold moon_mag. rewrite E. now apply flux_of_mag_is.
Qed.
Print Assumptions C294_moon_partial.

Lemma mean_between (A : Type) (kn : list (A * R)) cs lo hi : (forall q, In q kn -> 0 <= snd q) -> length cs = length kn -> (forall c, In c cs -> lo <= c <= hi) ->
  lo * fold_right Rplus 0 (map snd kn) <= fold_right Rplus 0 (map (fun qc : A * R * R => snd (fst qc) * snd qc) (combine kn cs)) <= hi * fold_right Rplus 0 (map snd kn).
Proof.
  revert cs. induction kn as [|q t IH]; intros cs W L B; destruct cs as [|c cs]; try discriminate; cbn; [lra|].
  injection L as L. assert (Wq := W q (or_introl eq_refl)). assert (Bc := B c (or_introl eq_refl)).
  specialize (IH cs (fun x I => W x (or_intror I)) L (fun x I => B x (or_intror I))). nra.
Qed.
(** With the (non-negative) weights of the neighbours, the magnitude stays between the brightest and the faintest entry. *)
Theorem C294_bounds_partial seps alts hpids table nb malt sep lo hi : Increasing seps -> Increasing alts -> NoDup hpids ->
  length table = length seps -> Forall (Full (length alts) (length hpids)) table ->
  Inside alts malt -> Inside seps sep ->
  (forall q, In q nb -> 0 <= snd q) -> (exists q, In q nb /\ In (fst q) hpids /\ 0 < snd q) ->
  0 < lo -> (forall b r m, In b table -> In r b -> In m r -> lo <= m <= hi) ->
  exists m, lo <= m <= hi /\ FluxMag (moon_mag seps alts hpids (concat (map (@concat R) table)) nb malt sep) m.
Proof.
  intros Is Ia ND L F Ha Hs W [q0 (I0 & K0 & W0)] Plo B.
  set (kn := filter (fun q => known hpids (fst q)) nb).
  assert (S : Sel (fun q : Z * R => In (fst q) hpids) nb kn) by (apply sel_filter; intro q; apply known_spec).
  assert (Wk : forall q, In q kn -> 0 <= snd q) by (intros q I; apply filter_In in I as [I _]; now apply W).
  assert (P : 0 < fold_right Rplus 0 (map snd kn)).
  { assert (I : In q0 kn) by (apply filter_In; split; [exact I0|now apply known_spec]). clear S. clearbody kn.
    assert (N0 : forall l : list (Z * R), (forall q, In q l -> 0 <= snd q) -> 0 <= fold_right Rplus 0 (map snd l)).
    { induction l as [|x t IH]; intro H; cbn; [lra|]. pose proof (H x (or_introl eq_refl)). pose proof (IH (fun y J => H y (or_intror J))). lra. }
    induction kn as [|x t IH]; [destruct I|]. cbn. destruct I as [->|I].
    - pose proof (N0 t (fun y J => Wk y (or_intror J))). lra.
    - pose proof (IH (fun y J => Wk y (or_intror J)) I). pose proof (Wk x (or_introl eq_refl)). lra. }
  destruct (C294_moon_partial seps alts hpids table nb kn malt sep Is Ia ND L F Ha Hs S ltac:(lra)) as (cs & Fc & E).
  set (s := fold_right Rplus 0 (map snd kn)) in *.
  set (t := fold_right Rplus 0 (map (fun qc : Z * R * R => snd (fst qc) * snd qc) (combine kn cs))) in *.
  assert (Bt : lo * s <= t <= hi * s).
  { apply mean_between; [exact Wk|clear -Fc; induction Fc; cbn; congruence|]. intros c Ic.
    assert (X : exists (q : Z * R) j, nth_error hpids j = Some (fst q) /\ Interp2 seps alts (Pixel j table) sep malt c).
    { clear -Fc Ic. induction Fc as [|q d k cs H Fc IH]; [destruct Ic|]. destruct Ic as [->|Ic]; [destruct H as (j & H1 & H2); now exists q, j|now apply IH]. }
    destruct X as (q & j & Ej & Hj). assert (Lj : (j < length hpids)%nat) by (apply nth_error_Some; congruence).
    eapply interp2_between; [exact Hj|]. intros r a Ir Iia. unfold Pixel in Ir. apply in_map_iff in Ir as (b & <- & Ib).
    apply in_map_iff in Iia as (row & <- & Irow). apply (B b row); auto. apply nth_In.
    rewrite Forall_forall in F. destruct (F b Ib) as [_ Fb]. rewrite Forall_forall in Fb. rewrite (Fb row Irow). exact Lj. }
  exists (t / s). assert (Q : t / s * s = t) by (field; lra).
  assert (Bm : lo <= t / s <= hi) by (split; apply (Rmult_le_reg_r s); lra). split; [exact Bm|]. apply E; [exact Q|lra].
Qed.
Print Assumptions C294_bounds_partial.

(** No moonlight if the moon is below the altitudes of the table, or if the table knows none of the neighbouring pixels. *)
Theorem C294_none seps alts hpids values nb malt sep : Increasing alts -> alts <> [] ->
  (forall a, In a alts -> malt < a) \/ (forall q, In q nb -> ~ In (fst q) hpids) ->
  moon_mag seps alts hpids values nb malt sep = 0.
Proof.
  intros Ia Na H. assert (W : moon_weight seps alts hpids values nb malt sep = 0).
  { unfold moon_weight. destruct (rltb malt (g_min alts)) eqn:E; [reflexivity|]. destruct H as [H|H].
    - apply rltb_false in E. destruct alts as [|a t]; [now elim Na|]. cbn in E. pose proof (H a (or_introl eq_refl)). lra.
    - apply rsum_zero. intros p I. rewrite (hp_weights_none hpids nb H p I). ring. }
  unfold moon_mag. rewrite W. unfold flux_of_mag. now rewrite (proj2 (reqb_true 0 0) eq_refl).
Qed.
Print Assumptions C294_none.

(** The zodiacal light is interpolated in airmass in each neighbouring pixel and averaged with the weights of the pixels
    (pixel numbers from zero on, as in a full healpix map). *)
Theorem C294_zodiacal_partial ams n table nb kn am : Increasing ams -> Full (length ams) n table -> Inside ams am ->
  Sel (fun q : Z * R => (0 <= fst q < Z.of_nat n)%Z) nb kn -> fold_right Rplus 0 (map snd kn) <> 0 ->
  exists cs, Forall2 (fun q c => exists j, fst q = Z.of_nat j /\ (j < n)%nat /\ Interp ams (map (fun row => nth j row 0) table) am c) kn cs
  /\ forall m, m * fold_right Rplus 0 (map snd kn) = fold_right Rplus 0 (map (fun qc => snd (fst qc) * snd qc) (combine kn cs)) -> m <> 0 ->
     FluxMag (zodiacal_mag ams (map Z.of_nat (seq 0 n)) (concat table) nb am) m.
Proof.
  intros Ia F Ha S N.
  assert (K : kn = filter (fun q => known (map Z.of_nat (seq 0 n)) (fst q)) nb).
  { eapply sel_unique; [exact S|]. apply sel_filter. intro q. rewrite known_spec, in_map_iff. split.
    - intros (j & <- & I). apply in_seq in I. lia.
    - intro B. exists (Z.to_nat (fst q)). split; [lia|]. apply in_seq. lia. }
  destruct (zodiacal_sum ams n table nb am Ia F Ha kn K N) as (cs & Fc & E). exists cs. split; [exact Fc|].
  intros m Em Nm. unfold rsum in E. rewrite <- Em in E. apply Rmult_eq_reg_r in E; [|exact N]. unfold zodiacal_mag. rewrite E. now apply flux_of_mag_is.
Qed.
Print Assumptions C294_zodiacal_partial.
Example C294_case : Sel (fun q : Z * R => In (fst q) [3; 7]%Z) [(3%Z, 0.5); (5%Z, 0.25); (7%Z, 0.25)] [(3%Z, 0.5); (7%Z, 0.25)]
  /\ fold_right Rplus 0 (map snd [(3%Z, 0.5); (7%Z, 0.25)]) <> 0 /\ NoDup [3; 7]%Z
  /\ Forall (Full 2 2) [[[20; 21]; [22; 23]]; [[18; 19]; [20; 21]]].
Proof.
  split; [|split; [cbn; lra|split]].
  - apply sel_yes; [cbn; tauto|]. apply sel_no; [cbn; lia|]. apply sel_yes; [cbn; tauto|]. constructor.
  - repeat constructor; cbn; lia.
  - repeat constructor.
Qed.

(** Below the range of distances from the sun the code does not use the edge of the table, as its comment says: it
    extrapolates the line through the first and the last entry. *)
Theorem C294_edge_refuted : ~ (forall seps alts hpids values nb malt sep, Increasing seps -> Increasing alts -> NoDup hpids ->
  Inside alts malt -> (forall s, In s seps -> sep < s) ->
  moon_mag seps alts hpids values nb malt sep = moon_mag seps alts hpids values nb malt (hd 0 seps)).
Proof.
  intro H. specialize (H [10; 90] [5] [0%Z] [20; 28] [(0%Z, 1)] 5 2).
  assert (I5 : Increasing [5]) by (apply sorted_increasing; repeat constructor).
  assert (In5 : Inside [5] 5) by (exists 5, 5; cbn; split; [tauto|]; split; [tauto|lra]).
  specialize (H (increasing2 10 90 ltac:(lra)) I5). specialize (H ltac:(repeat constructor; auto) In5).
  assert (K : moon_mag [10; 90] [5] [0%Z] [20; 28] [(0%Z, 1)] 5 2 = moon_mag [10; 90] [5] [0%Z] [20; 28] [(0%Z, 1)] 5 10) by (apply H; intros s [<-|[<-|[]]]; lra).
  clear H. assert (B : forall x y, x < y -> rltb x y = true) by (intros; now apply rltb_true).
  assert (B' : forall x y, y <= x -> rltb x y = false) by (intros; now apply rltb_false).
  assert (Eq : forall x y, x = y -> reqb x y = true) by (intros; now apply reqb_true).
  assert (Ne : forall x y, x <> y -> reqb x y = false) by (intros; now apply reqb_false).
  assert (V : forall p, p <= 10 -> moon_weight [10; 90] [5] [0%Z] [20; 28] [(0%Z, 1)] 5 p = 20 + (p - 10) / 10).
  { intros p Lp. unfold moon_weight, g_min. cbn [hd]. rewrite B' by lra.
    unfold indx_and_weights. cbn [searchsorted length Nat.sub Nat.eqb nth]. rewrite !B' by lra. cbn [Nat.eqb nth].
    rewrite (Eq (5 - 5) 0) by lra. rewrite (Ne (10 - 90) 0) by lra. cbn [ix_r ix_l w_r w_l].
    unfold hp_weights, known. cbn [map fst snd existsb Z.eqb orb].
    unfold rsum. cbn [map fold_right snd]. rewrite (Ne (1 + 0) 0) by lra. cbn. field. }
  unfold moon_mag in K. rewrite !V in K by lra.
  unfold flux_of_mag in K. rewrite !Ne in K by lra.
  assert (L : Rpower 10 (- (4 / 10) * (20 + (10 - 10) / 10 - log10 3631)) < Rpower 10 (- (4 / 10) * (20 + (2 - 10) / 10 - log10 3631))) by (apply Rpower_lt; lra).
  lra.
Qed.
Print Assumptions C294_edge_refuted.
