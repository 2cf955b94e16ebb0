(** C324 the depth on the meridian; C325 photometric parameters and dust; C326 zero points and colours of stars. *)
From Coq Require Import String Ascii Reals ZArith List Bool Lia Lra.
From Verif Require Import Base Depth_Model Depth_Proofs Template_Model Sky_Proofs Param_Model Param_Spec.
From Verif Require Import Param_Props2.
Import ListNotations.
Open Scope R_scope.

Lemma ltrue : forall x y, x < y -> rltb x y = true.
Proof. intros x y H. destruct (rltb x y) eqn:E; [reflexivity|apply rltb_false in E; lra]. Qed.
Lemma lfalse : forall x y, y <= x -> rltb x y = false.
Proof. intros x y H. destruct (rltb x y) eqn:E; [apply rltb_true in E; lra|reflexivity]. Qed.
Lemma ln_div : forall x y, 0 < x -> 0 < y -> ln (x / y) = ln x - ln y.
Proof. intros x y X Y. unfold Rdiv. rewrite ln_mult by (try apply Rinv_0_lt_compat; assumption). rewrite ln_Rinv by assumption. ring. Qed.
Lemma log10_div : forall x y, 0 < x -> 0 < y -> log10 (x / y) = log10 x - log10 y.
Proof. intros x y X Y. unfold log10. rewrite ln_div by assumption. pose proof ln10_pos. field. lra. Qed.
Lemma log10_lt : forall x y, 0 < x -> x < y -> log10 x < log10 y.
Proof. intros x y X Y. unfold log10. pose proof ln10_pos. apply Rmult_lt_compat_r; [apply Rinv_0_lt_compat; exact H|apply ln_increasing; assumption]. Qed.

(** ** C324 *)
Definition known_band (b : string) : Prop := In b ["u"; "g"; "r"; "i"; "z"; "y"]%string.

Lemma tables : forall b, known_band b -> exists s k, dget String.eqb sky_slopes b = Some s /\ dget String.eqb k_atm b = Some k /\ s < 0 /\ 0 < k.
Proof.
  intros b H. unfold known_band in H. cbn in H. destruct H as [<-|[<-|[<-|[<-|[<-|[<-|[]]]]]]]; eexists; eexists; (split; [reflexivity|]); (split; [reflexivity|]); lra.
Qed.

(** the depth that a visit would have had on the meridian is never shallower than its own, and is its own exactly when the
    visit was made at the least airmass that its declination allows *)
Theorem C324_deeper : forall lat v,
  known_band (o_band v) -> 0 < cos (o_dec v * PI / 180 - lat) -> 1 / cos (o_dec v * PI / 180 - lat) <= o_airmass v ->
  exists o, m5_optimal lat v = Ok o /\ o_m5 v <= o /\ (o = o_m5 v <-> o_airmass v = 1 / cos (o_dec v * PI / 180 - lat)).
Proof.
  intros lat v K C A. destruct (tables _ K) as (s & k & S & KK & S0 & K0).
  assert (X : min_airmass lat (o_dec v) = 1 / cos (o_dec v * PI / 180 - lat)).
  { unfold min_airmass, rad. f_equal. unfold Rabs. destruct (Rcase_abs _); [apply cos_neg|reflexivity]. }
  unfold m5_optimal. rewrite S, KK, X. cbv zeta. set (x := 1 / cos (o_dec v * PI / 180 - lat)) in *.
  assert (X0 : 0 < x) by (unfold x; apply Rdiv_lt_0_compat; lra).
  eexists. split; [reflexivity|].
  set (sky := if rltb 0 (o_moon v) || rltb (rad (-18)) (o_sun v) then 0 else s * (o_airmass v - x)).
  assert (SK : sky <= 0) by (unfold sky; destruct (_ || _); nra).
  assert (L : log10 (x / o_airmass v) <= 0 /\ (o_airmass v = x -> log10 (x / o_airmass v) = 0)).
  { split.
    - rewrite log10_div by lra. pose proof (log10_le x (o_airmass v) X0 A). lra.
    - intros ->. rewrite log10_div by lra. lra. }
  destruct L as [L1 L2].
  assert (P : k * (x - o_airmass v) <= 0) by nra.
  split; [lra|]. split; intros E.
  - assert (Q : k * (x - o_airmass v) = 0) by lra. apply Rmult_integral in Q. destruct Q; lra.
  - rewrite (L2 E). assert (Z : sky = 0) by (unfold sky; destruct (_ || _); [reflexivity|rewrite E; ring]). rewrite Z, E. ring.
Qed.
Print Assumptions C324_deeper.

(** a visit in another band ends the run *)
Theorem C324_unknown : forall lat v, ~ known_band (o_band v) -> m5_optimal lat v = Err KeyError.
Proof.
  intros lat v N. unfold m5_optimal. destruct (dget String.eqb sky_slopes (o_band v)) eqn:E; [|reflexivity].
  exfalso. apply N. unfold sky_slopes in E. cbn [dget] in E. unfold known_band. cbn.
  destruct (String.eqb_spec (o_band v) "g") as [->|_]; [tauto|]. destruct (String.eqb_spec (o_band v) "i") as [->|_]; [tauto|].
  destruct (String.eqb_spec (o_band v) "r") as [->|_]; [tauto|]. destruct (String.eqb_spec (o_band v) "u") as [->|_]; [tauto|].
  destruct (String.eqb_spec (o_band v) "y") as [->|_]; [tauto|]. destruct (String.eqb_spec (o_band v) "z") as [->|_]; [tauto|]. discriminate E.
Qed.
Print Assumptions C324_unknown.

(** the column with the depth itself is not among the columns asked for *)
Theorem C324_columns_refuted : ~ (forall airmass dec sky seeing m5 filter_ moon sun, In m5 (m5_cols_req airmass dec sky seeing filter_ moon sun)).
Proof.
  intros H. specialize (H "airmass" "fieldDec" "skyBrightness" "seeingFwhmEff" "fiveSigmaDepth" "filter" "moonAlt" "sunAlt")%string.
  cbn in H. repeat (destruct H as [H|H]; [discriminate H|]). destruct H.
Qed.
Print Assumptions C324_columns_refuted.

(** the sky is not left alone in twilight, since the altitude of the sun in degrees is compared with radians *)
Theorem C324_twilight_refuted : ~ (forall lat a d b m moon sun sun' o o', moon <= 0 -> -18 < sun -> -18 < sun' ->
  m5_optimal lat (Build_m5_visit a d b m moon sun) = Ok o -> m5_optimal lat (Build_m5_visit a d b m moon sun') = Ok o' -> o = o').
Proof.
  intros H. assert (P4 := PI_4). assert (P0 := PI_RGT_0).
  assert (M : min_airmass 0 0 = 1).
  { unfold min_airmass, rad. replace (0 * PI / 180 - 0) with 0 by lra. rewrite Rabs_R0, cos_0. lra. }
  assert (X : m5_optimal 0 (Build_m5_visit 2 0 "r" 24 (-10) (-10)) = Ok (24 - 0.5 * (-0.61378749766766827 * (2 - 1)) - 0.15 * log10 (1 / 2) - 0.13 * (1 - 2))).
  { unfold m5_optimal. cbn [o_band o_airmass o_dec o_m5 o_moon o_sun]. rewrite M. cbv zeta.
    change (dget String.eqb sky_slopes "r"%string) with (Some (-0.61378749766766827)). change (dget String.eqb k_atm "r"%string) with (Some 0.13). cbv iota.
    rewrite (lfalse 0 (-10)) by lra. rewrite (lfalse (rad (-18)) (-10)) by (unfold rad; lra). reflexivity. }
  assert (Y : m5_optimal 0 (Build_m5_visit 2 0 "r" 24 (-10) 10) = Ok (24 - 0.5 * 0 - 0.15 * log10 (1 / 2) - 0.13 * (1 - 2))).
  { unfold m5_optimal. cbn [o_band o_airmass o_dec o_m5 o_moon o_sun]. rewrite M. cbv zeta.
    change (dget String.eqb sky_slopes "r"%string) with (Some (-0.61378749766766827)). change (dget String.eqb k_atm "r"%string) with (Some 0.13). cbv iota.
    rewrite (ltrue (rad (-18)) 10) by (unfold rad; lra). rewrite orb_true_r. reflexivity. }
  specialize (H 0 2 0 "r"%string 24 (-10) (-10) 10 _ _ ltac:(lra) ltac:(lra) ltac:(lra) X Y). lra.
Qed.
Print Assumptions C324_twilight_refuted.

(** with the seeing growing as airmass^0.6, the depth should change by 2.5 log10 of the ratio; a tenth of that is applied *)
Theorem C324_seeing_refuted : ~ (forall lat v o k, dget String.eqb [("u", 0.50); ("g", 0.21); ("r", 0.13); ("i", 0.10); ("z", 0.07); ("y", 0.18)]%string (o_band v) = Some k ->
  0 < o_moon v -> 0 < cos (o_dec v * PI / 180 - lat) -> 0 < o_airmass v ->
  m5_optimal lat v = Ok o ->
  let x := 1 / cos (o_dec v * PI / 180 - lat) in
  o = o_m5 v - 25/10 * log10 (Rpower x 0.6 / Rpower (o_airmass v) 0.6) - k * (x - o_airmass v)).
Proof.
  intros H.
  assert (M : min_airmass 0 0 = 1).
  { unfold min_airmass, rad. replace (0 * PI / 180 - 0) with 0 by lra. rewrite Rabs_R0, cos_0. lra. }
  assert (X : m5_optimal 0 (Build_m5_visit 2 0 "r" 24 10 0) = Ok (24 - 0.5 * 0 - 0.15 * log10 (1 / 2) - 0.13 * (1 - 2))).
  { unfold m5_optimal. cbn [o_band o_airmass o_dec o_m5 o_moon o_sun]. rewrite M. cbv zeta.
    change (dget String.eqb sky_slopes "r"%string) with (Some (-0.61378749766766827)). change (dget String.eqb k_atm "r"%string) with (Some 0.13). cbv iota.
    rewrite (ltrue 0 10) by lra. reflexivity. }
  specialize (H 0 (Build_m5_visit 2 0 "r" 24 10 0) (24 - 0.5 * 0 - 0.15 * log10 (1 / 2) - 0.13 * (1 - 2)) 0.13 eq_refl). cbn [o_band o_airmass o_dec o_m5 o_moon o_sun] in H.
  replace (0 * PI / 180 - 0) with 0 in H by lra. rewrite cos_0 in H.
  specialize (H ltac:(lra) ltac:(lra) ltac:(lra) X). cbv zeta in H. replace (1 / 1) with 1 in H by lra.
  assert (E : log10 (Rpower 1 0.6 / Rpower 2 0.6) = 0.6 * log10 (1 / 2)).
  { unfold log10, Rpower. rewrite ln_1. replace (0.6 * 0) with 0 by ring. rewrite exp_0.
    rewrite (ln_div 1) by (try apply exp_pos; lra). rewrite ln_exp, ln_1. rewrite (ln_div 1 2) by lra. rewrite ln_1. unfold Rdiv. ring. }
  rewrite E in H. assert (L : log10 (1 / 2) < 0) by (rewrite <- log10_1; apply log10_lt; lra). lra.
Qed.
Print Assumptions C324_seeing_refuted.

Example C324_case : exists o, m5_optimal 0 (Build_m5_visit 2 0 "r" 24 (-10) (-1)) = Ok o /\ 24 < o.
Proof.
  destruct (C324_deeper 0 (Build_m5_visit 2 0 "r" 24 (-10) (-1))) as (o & O & L & E); cbn [o_band o_airmass o_dec o_m5 o_moon o_sun] in *;
    replace (0 * PI / 180 - 0) with 0 in * by lra; rewrite ?cos_0 in *.
  - unfold known_band. cbn. tauto.
  - lra.
  - lra.
  - exists o. split; [exact O|]. destruct (Rle_lt_or_eq_dec _ _ L) as [K|K]; [exact K|]. symmetry in K. apply E in K. lra.
Qed.

(** ** C325 *)
Definition std (b p : string) : option R :=
  dget String.eqb [("exptime", 15); ("nexp", 2); ("effarea", PI * (321.15 * 321.15)); ("gain", 2.3); ("platescale", 0.2);
    ("sigma_sys", if existsb (String.eqb b) ["u"; "z"; "y"] then 0.0075 else 0.005); ("readnoise", 8.8); ("darkcurrent", 0.2); ("othernoise", 0)]%string p.

Lemma params_get : forall (value : string -> option R) ps p, In p ps ->
  dget String.eqb (map (fun p => (p, match value p with Some v => v | None => 0 end)) ps) p = Some (match value p with Some v => v | None => 0 end).
Proof.
  intros value ps p H. induction ps as [|q ps IH]; [destruct H|]. cbn [map dget]. destruct (String.eqb p q) eqn:E.
  - apply String.eqb_eq in E. subst q. reflexivity.
  - apply IH. destruct H as [->|H]; [rewrite String.eqb_refl in E; discriminate E|exact H].
Qed.

(** for the six bands and for no band: what is given is kept, everything else has the standard value of the band (r for none) *)
Theorem C325_standard : forall given bandpass,
  (bandpass = None \/ exists b, bandpass = Some b /\ In b ["u"; "g"; "r"; "i"; "z"; "y"]%string) ->
  exists ps, phot_params given bandpass = Ok ps /\
  forall p, In p ["exptime"; "nexp"; "effarea"; "gain"; "platescale"; "sigma_sys"; "readnoise"; "darkcurrent"; "othernoise"]%string ->
    dget String.eqb ps p = match dget String.eqb given p with Some v => Some v | None => std (match bandpass with Some b => b | None => "r"%string end) p end.
Proof.
  intros given bandpass HB. unfold phot_params. cbv zeta.
  set (key := match bandpass with Some b => b | None => "any"%string end).
  assert (DF : forall p, In p par_names -> default_of p key = std (match bandpass with Some b => b | None => "r"%string end) p /\ default_of p key <> None).
  { intros p HP. assert (AR : 6.423 / 2 * 100 = 321.15) by lra. unfold default_of, std. rewrite AR.
    destruct HB as [->|(b & -> & HB)]; unfold key.
    - cbn in HP. decompose [or] HP; subst; try (split; [reflexivity|discriminate]). contradiction.
    - cbn in HB. decompose [or] HB; subst; try contradiction; cbn in HP; decompose [or] HP; subst; try contradiction; (split; [reflexivity|discriminate]). }
  set (value := fun p => match dget String.eqb given p with Some v => Some v | None => default_of p key end).
  assert (FA : forallb (fun p => match value p with Some _ => true | None => false end) par_names = true).
  { apply forallb_forall. intros p HP. unfold value. destruct (dget String.eqb given p); [reflexivity|]. destruct (default_of p key) eqn:E; [reflexivity|]. destruct (DF p HP). contradiction. }
  unfold value in FA. rewrite FA. eexists. split; [reflexivity|]. intros p HP.
  change ["exptime"; "nexp"; "effarea"; "gain"; "platescale"; "sigma_sys"; "readnoise"; "darkcurrent"; "othernoise"]%string with par_names in HP.
  pose proof (params_get value par_names p HP) as PG. unfold value in PG. etransitivity; [exact PG|]. destruct (dget String.eqb given p); [reflexivity|].
  destruct (DF p HP) as [E N]. destruct (default_of p key) eqn:D; [exact E|contradiction].
Qed.
Print Assumptions C325_standard.

(** for any other name all nine must be given: then they are kept, otherwise the parameters are refused *)
Theorem C325_other : forall given b, ~ In b ["u"; "g"; "r"; "i"; "z"; "y"; "any"]%string ->
  let names := ["exptime"; "nexp"; "effarea"; "gain"; "platescale"; "sigma_sys"; "readnoise"; "darkcurrent"; "othernoise"]%string in
  ((forall p, In p names -> dget String.eqb given p <> None) ->
     exists ps, phot_params given (Some b) = Ok ps /\ forall p, In p names -> dget String.eqb ps p = dget String.eqb given p) /\
  ((exists p, In p names /\ dget String.eqb given p = None) -> phot_params given (Some b) = Err RuntimeError).
Proof.
  intros given b N names. unfold phot_params. cbv zeta.
  assert (D : forall p, default_of p b = None).
  { intros p. unfold default_of. destruct (existsb (String.eqb b) band_names) eqn:E; [|reflexivity].
    apply existsb_exists in E. destruct E as (x & I & E). apply String.eqb_eq in E. subst x. contradiction. }
  set (value := fun p => match dget String.eqb given p with Some v => Some v | None => default_of p b end).
  split.
  - intros A. assert (FA : forallb (fun p => match value p with Some _ => true | None => false end) par_names = true).
    { apply forallb_forall. intros p HP. unfold value. specialize (A p HP). destruct (dget String.eqb given p); [reflexivity|contradiction]. }
    unfold value in FA. rewrite FA. eexists. split; [reflexivity|]. intros p HP. pose proof (params_get value par_names p HP) as PG. unfold value in PG. etransitivity; [exact PG|].
    specialize (A p HP). destruct (dget String.eqb given p); [reflexivity|contradiction].
  - intros (p & HP & G). destruct (forallb _ par_names) eqn:F; [|reflexivity].
    rewrite forallb_forall in F. specialize (F p HP). cbv beta in F. rewrite G, D in F. discriminate F.
Qed.
Print Assumptions C325_other.

(** so the values for "any" band do not serve an unknown band *)
Theorem C325_any_refuted : ~ (forall given b, exists ps, phot_params given (Some b) = Ok ps).
Proof.
  intros H. destruct (H [] "w"%string) as [ps E]. destruct (C325_other [] "w"%string) as [_ Q]; [cbn; intuition discriminate|].
  rewrite Q in E; [discriminate E|]. exists "gain"%string. split; [cbn; tauto|reflexivity].
Qed.
Print Assumptions C325_any_refuted.

Example C325_case : exists ps, phot_params [("exptime", 30)]%string (Some "u"%string) = Ok ps /\
  dget String.eqb ps "exptime"%string = Some 30 /\ dget String.eqb ps "sigma_sys"%string = Some 0.0075.
Proof.
  destruct (C325_standard [("exptime", 30)]%string (Some "u"%string)) as (ps & E & Q).
  - right. exists "u"%string. split; [reflexivity|cbn; tauto].
  - exists ps. split; [exact E|]. split; rewrite Q; try (cbn; tauto); reflexivity.
Qed.

(** *** dust *)
Definition Grid (band : list (R * R)) : Prop := Forall (fun p => 0 <= fst p) band /\ 0 < fold_right Rplus 0 (map fst band).

Lemma pow_le_one_plus : forall t u, 0 <= t <= 1 -> exp (t * u) <= 1 + t * (exp u - 1).
Proof.
  intros t u [T0 T1].
  assert (A : exp (t * u) * (1 + (1 - t) * u) <= exp u).
  { replace u with (t * u + (1 - t) * u) at 3 by ring. rewrite exp_plus. apply Rmult_le_compat_l; [left; apply exp_pos|]. apply exp_ineq1_le. }
  assert (B : exp (t * u) * (1 - t * u) <= 1).
  { assert (O : exp (t * u) * exp (- (t * u)) = 1) by (rewrite <- exp_plus, Rplus_opp_r; apply exp_0).
    rewrite <- O at 2. apply Rmult_le_compat_l; [left; apply exp_pos|]. pose proof (exp_ineq1_le (- (t * u))). lra. }
  replace (exp (t * u)) with (t * (exp (t * u) * (1 + (1 - t) * u)) + (1 - t) * (exp (t * u) * (1 - t * u))) by ring. nra.
Qed.

Definition light (band : list (R * R)) (e : R) : R := rsum (map (fun p => fst p * Rpower 10 (- (4/10) * (snd p * e))) band).
Lemma light_cons : forall p t e, light (p :: t) e = fst p * Rpower 10 (- (4/10) * (snd p * e)) + light t e.
Proof. reflexivity. Qed.

Lemma light_nonneg : forall band e, Forall (fun p => 0 <= fst p) band -> 0 <= light band e.
Proof.
  intros band e H. induction H as [|p t P H IH]; [unfold light; cbn; lra|]. rewrite light_cons.
  pose proof (exp_pos ((- (4/10) * (snd p * e)) * ln 10)) as E. fold (Rpower 10 (- (4/10) * (snd p * e))) in E. nra.
Qed.
Lemma light_pos : forall band e, Grid band -> 0 < light band e.
Proof.
  intros band e [N S]. revert S. induction N as [|p t P N IH]; intros S; [cbn in S; lra|]. cbn in S. rewrite light_cons.
  pose proof (exp_pos ((- (4/10) * (snd p * e)) * ln 10)) as E. fold (Rpower 10 (- (4/10) * (snd p * e))) in E.
  destruct (Rle_lt_or_eq_dec _ _ P) as [Q|Q].
  - pose proof (light_nonneg t e N). nra.
  - rewrite <- Q. rewrite <- Q in S. specialize (IH ltac:(lra)). lra.
Qed.
Lemma light_zero : forall band, light band 0 = fold_right Rplus 0 (map fst band).
Proof.
  induction band as [|p t IH]; [reflexivity|]. rewrite light_cons, IH. cbn. replace (- (4/10) * (snd p * 0)) with 0 by ring.
  unfold Rpower. rewrite Rmult_0_l, exp_0. ring.
Qed.

(** the power mean inequality, as the light at a fraction of the dust *)
Lemma light_power : forall band t e, Grid band -> 0 <= t <= 1 -> 
  light band (t * e) <= light band 0 * exp (t * ln (light band e / light band 0)).
Proof.
  intros band t e G T. pose proof (light_pos band e G) as Pe. pose proof (light_pos band 0 G) as P0.
  set (m := ln (light band e / light band 0)).
  assert (EM : exp m = light band e / light band 0) by (unfold m; apply exp_ln; apply Rdiv_lt_0_compat; assumption).
  assert (L : forall b, Forall (fun p => 0 <= fst p) b -> light b (t * e) <= exp (t * m) * (light b 0 + t * (light b e / exp m - light b 0))).
  { intros b F. induction F as [|p l P F IH].
    - unfold light. cbn. pose proof (exp_pos (t * m)). unfold Rdiv. rewrite Rmult_0_l. lra.
    - rewrite !light_cons.
      set (a := - (4/10) * (snd p * e) * ln 10).
      assert (A1 : Rpower 10 (- (4/10) * (snd p * (t * e))) = exp (t * a)) by (unfold Rpower, a; f_equal; ring).
      assert (A2 : Rpower 10 (- (4/10) * (snd p * e)) = exp a) by reflexivity.
      assert (A3 : Rpower 10 (- (4/10) * (snd p * 0)) = 1) by (unfold Rpower; replace (- (4/10) * (snd p * 0) * ln 10) with 0 by ring; apply exp_0).
      rewrite A1, A2, A3.
      assert (J : exp (t * a) <= exp (t * m) * (1 + t * (exp a / exp m - 1))).
      { replace (t * a) with (t * m + t * (a - m)) by ring. rewrite exp_plus. apply Rmult_le_compat_l; [left; apply exp_pos|].
        replace (exp a / exp m) with (exp (a - m)); [apply pow_le_one_plus; exact T|].
        unfold Rminus. rewrite exp_plus, exp_Ropp. reflexivity. }
      apply (Rmult_le_compat_l (fst p)) in J; [|exact P]. unfold Rdiv in *. nra. }
  specialize (L band (proj1 G)). rewrite EM in L.
  replace (light band e / (light band e / light band 0)) with (light band 0) in L by (field; lra). lra.
Qed.

Lemma band_mag_light : forall zp band e, band_mag zp band e = zp - 25/10 * log10 (light band e).
Proof. reflexivity. Qed.

(** dust never brightens, and more dust dims more *)
Theorem C325_dust_dims : forall zp band e1 e2, Grid band -> Forall (fun p => 0 <= snd p) band -> e1 <= e2 ->
  band_mag zp band e1 <= band_mag zp band e2.
Proof.
  intros zp band e1 e2 G C L. rewrite !band_mag_light.
  assert (M : light band e2 <= light band e1).
  { destruct G as [N _]. clear -N C L. induction band as [|p t IH]; [unfold light; cbn; lra|].
    inversion N; subst. inversion C; subst. rewrite !light_cons.
    assert (Rpower 10 (- (4/10) * (snd p * e2)) <= Rpower 10 (- (4/10) * (snd p * e1))) by (apply Rle_Rpower; nra).
    specialize (IH ltac:(assumption) ltac:(assumption)). nra. }
  pose proof (log10_le _ _ (light_pos band e2 G) M). lra.
Qed.
Print Assumptions C325_dust_dims.

(** the extinction is r_x E(B-V) at E(B-V) = 1, at most that beyond and at least that below: r_x overestimates the extinction of
    more dust and underestimates that of less *)
Theorem C325_dust_partial : forall zp band e, Grid band ->
  (e = 1 -> band_mag zp band e - band_mag zp band 0 = dust_r_x zp band 1 * e) /\
  (1 <= e -> band_mag zp band e - band_mag zp band 0 <= dust_r_x zp band 1 * e) /\
  (0 <= e <= 1 -> dust_r_x zp band 1 * e <= band_mag zp band e - band_mag zp band 0).
Proof.
  intros zp band e G. unfold dust_r_x. rewrite !band_mag_light.
  assert (K : forall t x, 0 <= t <= 1 -> log10 (light band (t * x)) <= log10 (light band 0) + t * (log10 (light band x) - log10 (light band 0))).
  { intros t x T. pose proof (light_power band t x G T) as P. pose proof (light_pos band x G) as Px. pose proof (light_pos band 0 G) as P0.
    apply log10_le in P; [|apply light_pos; exact G].
    assert (E : log10 (light band 0 * exp (t * ln (light band x / light band 0))) = log10 (light band 0) + t * (log10 (light band x) - log10 (light band 0))).
    { unfold log10. rewrite ln_mult by (try apply exp_pos; assumption). rewrite ln_exp, ln_div by assumption. unfold Rdiv. ring. }
    lra. }
  split; [intros ->; ring|]. split.
  - intros L. specialize (K (1 / e) e). assert (T : 0 <= 1 / e <= 1).
    { split; [left; apply Rdiv_lt_0_compat; lra|]. apply Rmult_le_reg_r with e; [lra|]. replace (1 / e * e) with 1 by (field; lra). lra. }
    specialize (K T). replace (1 / e * e) with 1 in K by (field; lra).
    set (D := log10 (light band e) - log10 (light band 0)) in *.
    assert (K2 : e * (log10 (light band 1) - log10 (light band 0)) <= D).
    { replace D with (e * (1 / e * D)) by (field; lra). apply Rmult_le_compat_l; [lra|]. lra. }
    unfold D in K2. lra.
  - intros T. specialize (K e 1 T). replace (e * 1) with e in K by ring. lra.
Qed.
Print Assumptions C325_dust_partial.

(** if every wavelength is dimmed alike, r_x E(B-V) is the extinction for every E(B-V) *)
Theorem C325_dust_grey : forall zp band c e, Grid band -> Forall (fun p => snd p = c) band ->
  band_mag zp band e - band_mag zp band 0 = dust_r_x zp band 1 * e.
Proof.
  intros zp band c e G C. unfold dust_r_x. rewrite !band_mag_light.
  assert (L : forall x, light band x = light band 0 * Rpower 10 (- (4/10) * (c * x))).
  { intros x. clear G. induction C as [|p t P C IH]; [unfold light; cbn; ring|]. rewrite !light_cons, IH, P.
    replace (- (4/10) * (c * 0)) with 0 by ring. assert (O : Rpower 10 0 = 1) by (unfold Rpower; rewrite Rmult_0_l; apply exp_0). rewrite O. ring. }
  pose proof (light_pos band 0 G) as P0. rewrite (L e), (L 1).
  assert (E : forall x, log10 (light band 0 * Rpower 10 (- (4/10) * (c * x))) = log10 (light band 0) - 4/10 * (c * x)).
  { intros x. unfold log10. rewrite ln_mult by (try apply exp_pos; assumption). unfold Rpower. rewrite ln_exp. pose proof ln10_pos. field. lra. }
  rewrite !E. field.
Qed.
Print Assumptions C325_dust_grey.

(** with another reference, r_x is the extinction at the reference and not per unit of E(B-V) *)
Theorem C325_dust_refuted : ~ (forall zp band ref, Grid band -> 0 < ref -> band_mag zp band ref - band_mag zp band 0 = dust_r_x zp band ref * ref).
Proof.
  intros H. assert (G : Grid [(1, 1)]) by (split; [constructor; [cbn; lra|constructor]|cbn; lra]).
  specialize (H 0 [(1, 1)] 2 G ltac:(lra)). unfold dust_r_x in H.
  pose proof (C325_dust_grey 0 [(1, 1)] 1 2 G ltac:(repeat constructor)) as E2. unfold dust_r_x in E2.
  assert (A : band_mag 0 [(1, 1)] 1 - band_mag 0 [(1, 1)] 0 = 1).
  { rewrite !band_mag_light, light_zero. unfold light. cbn. rewrite !Rplus_0_r, !Rmult_1_l. rewrite log10_1. unfold log10, Rpower. rewrite ln_exp. pose proof ln10_pos. field. lra. }
  lra.
Qed.
Print Assumptions C325_dust_refuted.

Example C325_dust_case : Grid [(1, 2); (3, 4)] /\ Forall (fun p => 0 <= snd p) [(1, 2); (3, 4)].
Proof. split; [split; [repeat constructor; cbn; lra|cbn; lra]|repeat constructor; cbn; lra]. Qed.

(** ** C326 *)
Definition six : list string := ["u"; "g"; "r"; "i"; "z"; "y"]%string.

(** there is a zero point for the six bands and for no other, in all three sets of detectors *)
Theorem C326_bands : forall d b x t,
  (In b six -> exists z h, zeropoint d b x t = Ok z /\ zeropoint_hardware d b t = Ok h) /\
  (~ In b six -> zeropoint d b x t = Err KeyError /\ zeropoint_hardware d b t = Err KeyError).
Proof.
  intros d b x t. split.
  - intros H. cbn in H. destruct H as [<-|[<-|[<-|[<-|[<-|[<-|[]]]]]]]; destruct d; eexists; eexists; (split; reflexivity).
  - intros N. unfold six in N. cbn in N.
    assert (U : String.eqb b "u" = false) by (apply String.eqb_neq; intros ->; tauto).
    assert (GG : String.eqb b "g" = false) by (apply String.eqb_neq; intros ->; tauto).
    assert (RR : String.eqb b "r" = false) by (apply String.eqb_neq; intros ->; tauto).
    assert (I : String.eqb b "i" = false) by (apply String.eqb_neq; intros ->; tauto).
    assert (Z : String.eqb b "z" = false) by (apply String.eqb_neq; intros ->; tauto).
    assert (Y : String.eqb b "y" = false) by (apply String.eqb_neq; intros ->; tauto).
    unfold zeropoint, zeropoint_hardware. destruct d; cbn [zp_table hw_table dget]; rewrite U, GG, RR, I, Z, Y; split; reflexivity.
Qed.
Print Assumptions C326_bands.

Lemma zp_form : forall d b x t z, zeropoint d b x t = Ok z -> exists z1 k h, k < 0 /\ z1 - k <= h /\
  (forall x' t', zeropoint d b x' t' = Ok (z1 + k * (x' - 1) + 25/10 * log10 t')) /\ (forall t', zeropoint_hardware d b t' = Ok (h + 25/10 * log10 t')).
Proof.
  intros d b x t z H. destruct (in_dec string_dec b six) as [I|I].
  - cbn in I. destruct I as [<-|[<-|[<-|[<-|[<-|[<-|[]]]]]]]; destruct d; eexists; eexists; eexists;
      (split; [|split; [|split; [intros x' t'; reflexivity|intros t'; reflexivity]]]); lra.
  - destruct (C326_bands d b x t) as [_ Q]. destruct (Q I) as [E _]. rewrite E in H. discriminate H.
Qed.

(** the counts 10^((zp - m)/2.5) of a source are proportional to the exposure time *)
Theorem C326_counts : forall d b x t m z1 z, 0 < t -> zeropoint d b x 1 = Ok z1 -> zeropoint d b x t = Ok z ->
  Rpower 10 ((z - m) / 2.5) = t * Rpower 10 ((z1 - m) / 2.5).
Proof.
  intros d b x t m z1 z T H1 H. destruct (zp_form _ _ _ _ _ H1) as (a & k & h & _ & _ & F & _). rewrite F in H1, H. injection H1 as <-. injection H as <-.
  rewrite log10_1. replace ((a + k * (x - 1) + 25 / 10 * log10 t - m) / 2.5) with ((a + k * (x - 1) + 25 / 10 * 0 - m) / 2.5 + log10 t) by lra.
  rewrite Rpower_plus. assert (E : Rpower 10 (log10 t) = t).
  { unfold Rpower, log10. pose proof ln10_pos. replace (ln t / ln 10 * ln 10) with (ln t) by (field; lra). apply exp_ln. exact T. }
  rewrite E. ring.
Qed.
Print Assumptions C326_counts.

(** more air, fewer counts: the zero point falls with the airmass *)
Theorem C326_airmass : forall d b x1 x2 t z1 z2, x1 < x2 -> zeropoint d b x1 t = Ok z1 -> zeropoint d b x2 t = Ok z2 -> z2 < z1.
Proof.
  intros d b x1 x2 t z1 z2 L H1 H2. destruct (zp_form _ _ _ _ _ H1) as (a & k & h & K & _ & F & _). rewrite F in H1, H2. injection H1 as <-. injection H2 as <-. nra.
Qed.
Print Assumptions C326_airmass.

(** the atmosphere never adds light: without it the zero point is at least as high, for any airmass *)
Theorem C326_hardware : forall d b x t z h, 0 <= x -> zeropoint d b x t = Ok z -> zeropoint_hardware d b t = Ok h -> z <= h.
Proof.
  intros d b x t z h X H1 H2. destruct (zp_form _ _ _ _ _ H1) as (a & k & h' & K & L & F & F'). rewrite F in H1. rewrite F' in H2. injection H1 as <-. injection H2 as <-. nra.
Qed.
Print Assumptions C326_hardware.

Example C326_case : exists z h, zeropoint E2v "u" 1.2 30 = Ok z /\ zeropoint_hardware E2v "u" 30 = Ok h.
Proof. eexists. eexists. split; reflexivity. Qed.

(** *** stars *)
Definition Mags (l : list (string * R)) (u g r i z y : R) : Prop :=
  dget String.eqb l "u"%string = Some u /\ dget String.eqb l "g"%string = Some g /\ dget String.eqb l "r"%string = Some r /\
  dget String.eqb l "i"%string = Some i /\ dget String.eqb l "z"%string = Some z /\ dget String.eqb l "y"%string = Some y.

(** the star has the r magnitude that was asked for, and the same colours whatever that is *)
Theorem C326_stars : forall s r1 r2 l1, stellar_mags s r1 = Ok l1 ->
  exists l2 u g i z y u' g' i' z' y', stellar_mags s r2 = Ok l2 /\ Mags l1 u g r1 i z y /\ Mags l2 u' g' r2 i' z' y' /\
  u' - u = r2 - r1 /\ g' - g = r2 - r1 /\ i' - i = r2 - r1 /\ z' - z = r2 - r1 /\ y' - y = r2 - r1.
Proof.
  intros s r1 r2 l1 H. unfold stellar_mags in *. destruct (dget String.eqb star_table s) as [[[[[ug gr] ri] iz] zy]|]; [|discriminate H].
  injection H as <-. do 11 eexists. split; [reflexivity|]. split; [repeat split|]. split; [repeat split|]. cbv zeta. repeat split; ring.
Qed.
Print Assumptions C326_stars.

(** along the main sequence every later type is redder in u-g, g-r, r-i and i-z *)
Definition sequence : list string := ["O"; "B"; "A"; "F"; "G"; "K"; "M"]%string.
Theorem C326_sequence : forall k a b ra rb, nth_error sequence k = Some a -> nth_error sequence (S k) = Some b ->
  exists la lb u g i z y u' g' i' z' y', stellar_mags a ra = Ok la /\ stellar_mags b rb = Ok lb /\ Mags la u g ra i z y /\ Mags lb u' g' rb i' z' y' /\
  u - g < u' - g' /\ g - ra < g' - rb /\ ra - i < rb - i' /\ i - z < i' - z'.
Proof.
  intros k a b ra rb A B.
  do 6 (destruct k as [|k]; [cbn in A, B; injection A as <-; injection B as <-; do 12 eexists; split; [reflexivity|]; split; [reflexivity|];
    split; [repeat split|]; split; [repeat split|]; cbv zeta; repeat split; lra|]).
  cbn in B. destruct k; discriminate B.
Qed.
Print Assumptions C326_sequence.

(** but not in z-y: F stars are bluer than A stars there *)
Theorem C326_zy_refuted : ~ (forall k a b r la lb z y z' y', nth_error sequence k = Some a -> nth_error sequence (S k) = Some b ->
  stellar_mags a r = Ok la -> stellar_mags b r = Ok lb ->
  dget String.eqb la "z"%string = Some z -> dget String.eqb la "y"%string = Some y -> dget String.eqb lb "z"%string = Some z' -> dget String.eqb lb "y"%string = Some y' ->
  z - y < z' - y').
Proof.
  intros H.
  assert (X := H 2%nat "A"%string "F"%string 0 _ _ _ _ _ _ eq_refl eq_refl eq_refl eq_refl eq_refl eq_refl eq_refl eq_refl). lra.
Qed.
Print Assumptions C326_zy_refuted.

(** any other type is refused *)
Theorem C326_types : forall s r,
  (In s (sequence ++ ["HeWD_25200_80"; "WD_11000_85"; "WD_3000_85"]%string) <-> exists l, stellar_mags s r = Ok l) /\
  (~ In s (sequence ++ ["HeWD_25200_80"; "WD_11000_85"; "WD_3000_85"]%string) -> stellar_mags s r = Err ValueError).
Proof.
  intros s r.
  assert (N : ~ In s (sequence ++ ["HeWD_25200_80"; "WD_11000_85"; "WD_3000_85"]%string) -> stellar_mags s r = Err ValueError).
  { intros N. unfold stellar_mags. destruct (dget String.eqb star_table s) eqn:E; [|reflexivity]. exfalso. apply N.
    assert (I : In s (map fst star_table)).
    { clear -E. induction star_table as [|[k v] t IH]; [discriminate E|]. cbn in E |- *. destruct (String.eqb s k) eqn:K; [left; symmetry; apply String.eqb_eq; exact K|right; apply IH; exact E]. }
    exact I. }
  split; [|exact N]. split.
  - intros H. cbn in H. decompose [or] H; subst; try contradiction; eexists; reflexivity.
  - intros [l E]. destruct (in_dec string_dec s (sequence ++ ["HeWD_25200_80"; "WD_11000_85"; "WD_3000_85"]%string)) as [I|I]; [exact I|]. rewrite (N I) in E. discriminate E.
Qed.
Print Assumptions C326_types.
