(** C297-C301: magnitudes, set_params, identifiers and helper functions of the sky brightness model. *)
From Coq Require Import String Reals ZArith Lra Lia Psatz List Permutation Sorted.
From Verif Require Import Base Depth_Model Depth_Proofs Template_Model Template_Spec Template_Proofs Sky_Model Sky_Spec Sky_Proofs Sky_Proofs2 Sky_Props Sky_Props2.
Import ListNotations.
Open Scope R_scope.

(** ** C297: magnitudes *)
(** what is shown for a total flux: the magnitude it belongs to, infinity for nothing, otherwise NaN *)
Definition Shows (total : option R) (m : mag) : Prop :=
  match total with
  | Some f => (0 < f /\ exists x, m = MFin x /\ FluxMag f x) \/ (f = 0 /\ m = MInf) \/ (f < 0 /\ m = MNan)
  | None => m = MNan
  end.
Lemma shows_mag_of x : Shows x (mag_of x).
Proof.
  destruct x as [f|]; [|reflexivity]. cbn. destruct (rltb 0 f) eqn:E; [apply rltb_true in E|apply rltb_false in E].
  - left. split; [exact E|]. eexists. split; [reflexivity|]. unfold FluxMag. replace (- (4/10) * (- (25/10) * log10 f + log10 3631 - ln 3631 / ln 10)) with (log10 f) by (unfold log10; lra).
    symmetry. now apply pow10_log10.
  - right. destruct (reqb f 0) eqn:Q; [apply reqb_true in Q; tauto|apply reqb_false in Q]. right. split; [lra|reflexivity].
Qed.
Lemma fluxmag_inj f x y : FluxMag f x -> FluxMag f y -> x = y.
Proof.
  unfold FluxMag. intros -> H. assert (I : forall u v, Rpower 10 u = Rpower 10 v -> u = v).
  { intros u v E. pose proof ln10_pos. unfold Rpower in E. apply exp_inv in E. apply Rmult_eq_reg_r in E; lra. }
  apply I in H. lra.
Qed.
Lemma fluxmag_pos f x : FluxMag f x -> 0 < f. Proof. intros ->. apply pow10_pos. Qed.
Lemma shows_unique x m m' : Shows x m -> Shows x m' -> m = m'.
Proof.
  destruct x as [f|]; cbn; [|congruence].
  intros [(P & u & -> & Hu)|[(E & ->)|(L & ->)]] [(P' & u' & -> & Hu')|[(E' & ->)|(L' & ->)]]; try lra; try reflexivity.
  f_equal. eapply fluxmag_inj; eassumption.
Qed.

(** After the coordinates are set, [return_mags] has one entry per requested filter and, in it, one magnitude per point: that of
    the total of the components in this filter, whatever the other filters and points; NaN beyond the airmass limit. *)
Theorem C297_mags_partial o h on filters points o' : s_mags o = true -> 2.5 < s_limit o -> Loaded o h ->
  Sel (fun kb => snd kb = true) (s_comps o) on ->
  filters <> [] -> (forall f, In f filters -> In f lsst) -> (exists p, In p points /\ 1 <= p_airmass p <= s_limit o) ->
  setter o points filters o' ->
  exists table, return_mags o' = Ok table /\ map fst table = filters
    /\ forall f col, In (f, col) table -> Forall2 (fun p m =>
         (1 <= p_airmass p <= s_limit o -> Shows (Total (map (fun kb => h (fst kb) p f) on)) m)
         /\ (~ 1 <= p_airmass p <= s_limit o -> m = MNan)) points col.
Proof.
  intros M L Ld S Nf Kf G H. destruct (some_good _ _ G) as [G1 G2].
  pose proof (interp_sky_ok (s_limit o) (s_objs o) (s_comps o) h (length filters) filters points ltac:(lra) Ld eq_refl (known_lsst _ Kf) Nf G2) as E.
  assert (E' : interp_sky (s_limit o) (s_objs o) (s_comps o) (if s_mags o then length filters else s_npix o) filters points
               = Ok (sky_rows (s_limit o) h (map fst on) filters points)) by (rewrite M, (on_sel _ _ S); exact E).
  destruct (setter_inv _ _ _ _ _ G1 E' H) as [r ->].
  exists (mag_table (s_limit o) h (map fst on) filters points). split; [|split].
  - exact (return_mags_ok (with_spec (with_points o filters r points) (sky_rows (s_limit o) h (map fst on) filters points)) points h (map fst on) filters eq_refl eq_refl eq_refl).
  - unfold mag_table. rewrite map_map. cbn. apply map_id.
  - intros f col I. unfold mag_table in I. apply in_map_iff in I as (f' & E2 & _). injection E2 as -> <-.
    clear. induction points as [|p t IH]; [constructor|]. cbn [map]. constructor; [|exact IH]. rewrite map_map.
    destruct (good (s_limit o) p) eqn:Q; [apply good_spec in Q; split; [intros _; apply shows_mag_of|tauto]|].
    split; [intro V; apply (good_spec (s_limit o) p) in V; congruence|reflexivity].
Qed.
Print Assumptions C297_mags_partial.
(** The magnitudes invert the fluxes of the templates; more flux is brighter, a hundred times the flux is five magnitudes. *)
Theorem C297_scale f g m n : 0 < f -> Shows (Some f) m -> Shows (Some g) n ->
  (forall x, FluxMag f x -> m = MFin x)
  /\ (f < g -> exists x y, m = MFin x /\ n = MFin y /\ y < x)
  /\ (g = 100 * f -> exists x, m = MFin x /\ n = MFin (x - 5)).
Proof.
  intros P Sm Sn. assert (Hm : exists x, m = MFin x /\ FluxMag f x) by (cbn in Sm; destruct Sm as [(_ & H)|[(E & _)|(E & _)]]; [exact H|lra|lra]).
  destruct Hm as (x & -> & Hx). split; [|split].
  - intros x' Hx'. f_equal. eapply fluxmag_inj; eassumption.
  - intro L. assert (Hn : exists y, n = MFin y /\ FluxMag g y) by (cbn in Sn; destruct Sn as [(_ & H)|[(E & _)|(E & _)]]; [exact H|lra|lra]).
    destruct Hn as (y & -> & Hy). exists x, y. split; [reflexivity|]. split; [reflexivity|].
    destruct (Rlt_le_dec y x) as [Q|Q]; [exact Q|exfalso]. unfold FluxMag in Hx, Hy.
    assert (K : Rpower 10 (- (4/10) * (y - ln 3631 / ln 10)) <= Rpower 10 (- (4/10) * (x - ln 3631 / ln 10))) by (apply pow10_le; lra). lra.
  - intro E. exists x. split; [reflexivity|]. apply (shows_unique (Some g) n); [exact Sn|]. cbn. left. split; [lra|]. exists (x - 5). split; [reflexivity|].
    unfold FluxMag in *. rewrite E. replace (- (4/10) * (x - 5 - ln 3631 / ln 10)) with (2 + (- (4/10) * (x - ln 3631 / ln 10))) by lra.
    rewrite Rpower_plus, <- Hx. f_equal. replace 2 with (INR 2) by (cbn; lra). rewrite Rpower_pow by lra. lra.
Qed.
Print Assumptions C297_scale.

Definition table3 (limit : R) (pts : list R) : result (list (string * list mag)) :=
  return_mags (fst (set_ra_dec (merged limit) pts (map at_airmass pts) ["r"%string])).
Lemma merged_case limit pts : 2.5 < limit -> (exists x, In x pts /\ 1 <= x <= limit) ->
  exists col, table3 limit pts = Ok [("r"%string, col)] /\ Forall2 (fun x m =>
    (1 <= x <= limit -> Shows (Some (single_mag [1; 2] [21; 20] x)) m) /\ (~ 1 <= x <= limit -> m = MNan)) pts col.
Proof.
  intros L (x & I & V). set (h := fun _ : string => single_flux [1; 2] (fun _ => [21; 20])).
  assert (Kf : forall f, In f ["r"%string] -> In f lsst) by (intros f [<-|[]]; cbn; tauto).
  assert (G : exists p, In p (map at_airmass pts) /\ 1 <= p_airmass p <= s_limit (merged limit)) by (exists (at_airmass x); split; [now apply in_map|exact V]).
  destruct (C296_total_partial (merged limit) h _ ["r"%string] (map at_airmass pts) pts eq_refl L (proj1 (C296_new true limit h (only "merged_spec"))) (on_merged limit) ltac:(discriminate) Kf G)
    as ((o' & H) & _ & _).
  destruct (C297_mags_partial (merged limit) h _ ["r"%string] (map at_airmass pts) o' eq_refl L (proj1 (C296_new true limit h (only "merged_spec"))) (on_merged limit) ltac:(discriminate) Kf G (or_introl (ex_intro _ pts H)))
    as (table & E & F & T).
  destruct table as [|[f col] [|? ?]]; try discriminate. injection F as ->. exists col. unfold table3. rewrite H. split; [exact E|].
  specialize (T "r"%string col (or_introl eq_refl)). clear -T. revert col T. induction pts as [|y t IH]; intros col T; inversion T as [|? ? ? ? [T1 T2] T3]; subst; constructor; [|now apply IH].
  cbn in T1, T2. split; [|exact T2]. intro V. specialize (T1 V). unfold single_flux in T1. cbn in T1. rewrite Rplus_0_r in T1. exact T1.
Qed.
Example C297_case : exists x, table3 3 [1.5; 5] = Ok [("r"%string, [MFin x; MNan])].
Proof.
  destruct (merged_case 3 [1.5; 5]) as (col & E & F); [lra|exists 1.5; split; [now left|lra]|].
  inversion F as [|? m ? ? [A _] F1]; subst. inversion F1 as [|? m' ? ? [_ B] F2]; subst. inversion F2; subst.
  rewrite (B ltac:(lra)) in E. specialize (A ltac:(lra)). destruct flux_12 as (v & Ev & Pv). rewrite Ev in A.
  cbn in A. destruct A as [(_ & x & -> & _)|[(Q & _)|(Q & _)]]; [|lra|lra]. exists x. exact E.
Qed.

(** "If set higher, airmass values higher than 3.0 are set to 3.0" is not what happens: beyond the templates there is no flux. *)
Theorem C297_clamp_refuted : ~ (forall limit x y col, 2.5 < limit -> 3 <= x -> x <= limit -> y = 2 -> table3 limit [y; x] = Ok col ->
  exists m, col = [("r"%string, [m; m])]).
Proof.
  intro H. destruct (merged_case 4 [2; 3.5]) as (col & E & F); [lra|exists 2; split; [now left|lra]|].
  destruct (H 4 3.5 2 _ ltac:(lra) ltac:(lra) ltac:(lra) eq_refl E) as (m & Em). injection Em as Em. subst col.
  inversion F as [|? ? ? ? [A _] F1]; subst. inversion F1 as [|? ? ? ? [B _] F2]; subst. specialize (A ltac:(lra)). specialize (B ltac:(lra)).
  assert (E35 : single_mag [1; 2] [21; 20] 3.5 = 0) by (apply (C291_outside [1; 2] [21; 20] []); [apply increasing2; lra|discriminate|right; intros x [<-|[<-|[]]]; lra]).
  rewrite E35 in B. cbn in B. destruct B as [(Q & _)|[(_ & ->)|(Q & _)]]; [lra| |lra].
  assert (W : FluxMag (single_mag [1; 2] [21; 20] 2) 20).
  { assert (weight1 [1; 2] [21; 20] 2 = 20).
    { apply weight1_interp; [apply increasing2; lra|reflexivity|apply inside2; lra|]. exists 1%nat, 2, 2, 20, 20. cbn. tauto. }
    unfold single_mag. rewrite H0. apply flux_of_mag_is. lra. }
  cbn in A. apply fluxmag_pos in W. destruct A as [(_ & x & Q & _)|[(Q & _)|(Q & _)]]; [discriminate|lra|lra].
Qed.
Print Assumptions C297_clamp_refuted.

(** ** C298: the same conditions given by hand *)
Lemma rad_deg x : radians (degrees x) = x.
Proof. unfold radians, degrees. pose proof PI_RGT_0. field. lra. Qed.
Lemma deg_rad x : degrees (radians x) = x.
Proof. unfold radians, degrees. pose proof PI_RGT_0. field. lra. Qed.
(** Giving [set_params] the altitudes, azimuths, ecliptic coordinates and the moon's phase that [set_ra_dec_mjd] reports, in
    degrees or in radians, with the altitude or with the airmass, interpolates at the very same point. *)
Theorem C298_params_partial b t sf deg use_alt : (use_alt = false -> 0 < g_alt t <= PI / 2) ->
  let c x := if deg : bool then x * 180 / PI else x in
  params_point {| q_airmass := 1 / sin (g_alt t); q_az := c (g_az t); q_alt := if use_alt : bool then Some (c (g_alt t)) else None;
                  q_moon_phase := moon_phase b; q_moon_alt := c (b_moon_alt b); q_moon_az := c (b_moon_az b);
                  q_sun_alt := c (b_sun_alt b); q_sun_az := c (b_sun_az b); q_sun_eclip_lon := c (b_sun_eclip_lon b);
                  q_eclip_lon := c (g_lon t); q_eclip_lat := c (g_lat t); q_degrees := deg; q_solar_flux := sf |}
  = grid_point true true true b sf t.
Proof.
  intro A. cbn zeta. set (c := fun x => if deg then x * 180 / PI else x).
  assert (C : forall x, convert deg (c x) = x) by (intro x; unfold convert, c; destruct deg; [exact (rad_deg x)|reflexivity]).
  fold (c (g_az t)) (c (g_alt t)) (c (b_moon_alt b)) (c (b_moon_az b)) (c (b_sun_alt b)) (c (b_sun_az b)) (c (b_sun_eclip_lon b)) (c (g_lon t)) (c (g_lat t)).
  assert (S : cos (PI / 2 - g_alt t) = sin (g_alt t)) by apply cos_shift.
  assert (AL : params_alt {| q_airmass := 1 / sin (g_alt t); q_az := c (g_az t); q_alt := if use_alt then Some (c (g_alt t)) else None;
                  q_moon_phase := moon_phase b; q_moon_alt := c (b_moon_alt b); q_moon_az := c (b_moon_az b);
                  q_sun_alt := c (b_sun_alt b); q_sun_az := c (b_sun_az b); q_sun_eclip_lon := c (b_sun_eclip_lon b);
                  q_eclip_lon := c (g_lon t); q_eclip_lat := c (g_lat t); q_degrees := deg; q_solar_flux := sf |} = g_alt t).
  { unfold params_alt. cbn [q_alt q_degrees q_airmass]. destruct use_alt; [apply C|]. specialize (A eq_refl).
    assert (P : 0 < sin (g_alt t)) by (apply sin_gt_0; pose proof PI_RGT_0; lra).
    replace (1 / (1 / sin (g_alt t))) with (cos (PI / 2 - g_alt t)) by (rewrite S; field; lra). rewrite acos_cos by lra. lra. }
  unfold params_point. rewrite AL. unfold grid_point, moon_phase, airmass_of. cbn [q_airmass q_az q_alt q_moon_phase q_moon_alt q_moon_az q_sun_alt q_sun_az q_sun_eclip_lon q_eclip_lon q_eclip_lat q_degrees q_solar_flux].
  rewrite !C. f_equal; [|lra]. destruct use_alt; [now rewrite C|]. now rewrite S.
Qed.
Print Assumptions C298_params_partial.
Example C298_case : exists t : target, 0 < g_alt t <= PI / 2 /\ airmass_of (g_alt t) = 2.
Proof.
  exists {| g_alt := PI / 6; g_az := 0; g_lon := 0; g_lat := 0 |}. pose proof PI_RGT_0. cbn. split; [lra|]. unfold airmass_of. rewrite cos_shift, sin_PI6. field.
Qed.
(** The distance to the moon, however, is computed from the moon's azimuth in degrees. *)
Definition separation (lon1 lat1 lon2 lat2 : R) : R := acos (sin lat1 * sin lat2 + cos lat1 * cos lat2 * cos (lon1 - lon2)).
Theorem C298_separation_refuted : ~ (forall q, q_degrees q = true ->
  params_targ_sep separation q = separation (radians (q_az q)) (params_alt q) (radians (q_moon_az q)) (radians (q_moon_alt q))).
Proof.
  intro H. specialize (H {| q_airmass := 1; q_az := 1; q_alt := Some 0; q_moon_phase := 0; q_moon_alt := 0; q_moon_az := 1; q_sun_alt := 0;
    q_sun_az := 0; q_sun_eclip_lon := 0; q_eclip_lon := 0; q_eclip_lat := 0; q_degrees := true; q_solar_flux := 0 |} eq_refl).
  unfold params_targ_sep, params_alt, separation, convert in H. cbn [q_alt q_az q_moon_az q_moon_alt q_degrees] in H.
  assert (Z : radians 0 = 0) by (unfold radians; lra). rewrite Z, sin_0, cos_0 in H.
  replace (0 * 0 + 1 * 1 * cos (radians 1 - 1)) with (cos (1 - radians 1)) in H by (replace (radians 1 - 1) with (- (1 - radians 1)) by ring; rewrite cos_neg; ring).
  replace (radians 1 - radians 1) with 0 in H by ring. rewrite cos_0 in H. replace (0 * 0 + 1 * 1 * 1) with (cos 0) in H by (rewrite cos_0; ring).
  pose proof PI_RGT_0. pose proof PI_4. assert (0 < radians 1 < 1/2) by (unfold radians; lra). pose proof PI2_3_2.
  rewrite !acos_cos in H by lra. lra.
Qed.
Print Assumptions C298_separation_refuted.
Theorem C298_radians_partial hav q : q_degrees q = false ->
  params_targ_sep hav q = hav (q_az q) (params_alt q) (q_moon_az q) (q_moon_alt q).
Proof. intro D. unfold params_targ_sep, convert. now rewrite D. Qed.
Print Assumptions C298_radians_partial.

(** ** C299: what [return_mags] needs *)
(** On an object that computes spectra, [return_mags] after [set_params] always fails: it loops over right ascensions. *)
Theorem C299_spectra_refuted limit interp on qs filters lit calc :
  return_band lit calc (fst (set_params (new_sky false limit interp on) qs filters)) = Err AttributeError.
Proof.
  unfold set_params. set (o := new_sky false limit interp on). set (o1 := with_points o filters (s_ra o) (map params_point qs)).
  assert (K : forall spec, return_band lit calc (with_spec o1 spec) = Err AttributeError) by reflexivity.
  assert (K' : return_band lit calc o1 = Err AttributeError) by reflexivity.
  destruct (existsb _ _); [|exact K']. unfold compute. destruct (interp_sky _ _ _ _ _ _); cbn [fst]; [apply K|exact K'].
Qed.
Print Assumptions C299_spectra_refuted.
(** Before any coordinates are set it raises ValueError; after [set_params] without a valid point on a new object AttributeError. *)
Theorem C299_unset mags limit interp on qs filters : return_mags (new_sky mags limit interp on) = Err ValueError
  /\ ((forall q, In q qs -> ~ 1 <= p_airmass (params_point q) <= limit) ->
      snd (set_params (new_sky mags limit interp on) qs filters) = Ok tt
      /\ return_mags (fst (set_params (new_sky mags limit interp on) qs filters)) = Err AttributeError
      /\ forall ra, snd (set_ra_dec (new_sky mags limit interp on) ra (map params_point qs) filters) = Err ValueError).
Proof.
  split; [reflexivity|]. intro H.
  assert (E : existsb (good limit) (map params_point qs) = false).
  { destruct (existsb _ _) eqn:E; [|reflexivity]. apply existsb_exists in E as (p & I & G). apply in_map_iff in I as (q & <- & I). apply good_spec in G. now elim (H q I). }
  unfold set_params, set_ra_dec. cbn [s_limit new_sky]. rewrite E. now repeat split.
Qed.
Print Assumptions C299_unset.
(** The result need not belong to the points: after [set_params] without a valid point, [return_mags] gives what is left of the
    previous call. *)
Definition at_params (x : R) : params :=
  {| q_airmass := x; q_az := 90; q_alt := None; q_moon_phase := 31.67; q_moon_alt := 45; q_moon_az := 0; q_sun_alt := -12; q_sun_az := 0;
     q_sun_eclip_lon := 0; q_eclip_lon := 135; q_eclip_lat := 90; q_degrees := true; q_solar_flux := 130 |}.
Theorem C299_stale_refuted : ~ (forall o qs filters table f col, snd (set_params o qs filters) = Ok tt ->
  return_mags (fst (set_params o qs filters)) = Ok table -> In (f, col) table -> length col = length qs).
Proof.
  intro H. destruct (merged_case 3 [1.5; 2]) as (col & E & F); [lra|exists 2; split; [right; now left|lra]|]. clear F.
  unfold table3 in E. set (o := fst (set_ra_dec (merged 3) [1.5; 2] (map at_airmass [1.5; 2]) ["r"%string])) in *.
  assert (O : exists spec, o = with_spec (with_points (merged 3) ["r"%string] (Some [1.5; 2]) (map at_airmass [1.5; 2])) spec /\ length spec = 2%nat /\ Forall (fun r => length r = 1%nat) spec).
  { set (h := fun _ : string => single_flux [1; 2] (fun _ => [21; 20])).
    assert (Kf : forall f, In f ["r"%string] -> In f lsst) by (intros f [<-|[]]; cbn; tauto).
    assert (G : exists p, In p (map at_airmass [1.5; 2]) /\ 1 <= p_airmass p <= 3) by (exists (at_airmass 1.5); split; [now left|cbn; lra]).
    destruct (some_good _ _ G) as [G1 G2].
    pose proof (interp_sky_ok 3 (s_objs (merged 3)) (s_comps (merged 3)) h 1 ["r"%string] (map at_airmass [1.5; 2]) ltac:(lra) (proj1 (C296_new true 3 h (only "merged_spec"))) eq_refl (known_lsst _ Kf) ltac:(discriminate) G2) as Es.
    eexists. split; [|split].
    - unfold o, set_ra_dec. change (s_limit (merged 3)) with 3. rewrite G1. rewrite (compute_ok (merged 3) _ _ _ _ Es). reflexivity.
    - reflexivity.
    - repeat constructor. }
  destruct O as (spec & Eo & Ls & Fs). destruct spec as [|r1 [|r2 [|]]]; try discriminate. inversion Fs as [|? ? L1 Fs']; subst. inversion Fs' as [|? ? L2 _]; subst.
  destruct r1 as [|x1 [|]]; try discriminate. destruct r2 as [|x2 [|]]; try discriminate.
  assert (B : existsb (good 3) (map params_point [at_params 5]) = false).
  { cbn [map existsb]. replace (good 3 (params_point (at_params 5))) with false; [reflexivity|]. symmetry. apply not_true_iff_false. rewrite good_spec. cbn. lra. }
  assert (B' : good 3 (params_point (at_params 5)) = false) by (cbn [map existsb] in B; now apply orb_false_iff in B as [B _]).
  assert (S : set_params o [at_params 5] ["r"%string] = (with_points o ["r"%string] (s_ra o) (map params_point [at_params 5]), Ok tt)).
  { unfold set_params. replace (s_limit o) with 3 by (rewrite Eo; reflexivity). rewrite B. reflexivity. }
  specialize (H o [at_params 5] ["r"%string] [("r"%string, [MNan; mag_of x2])] "r"%string [MNan; mag_of x2]).
  rewrite S in H. cbn [fst snd] in H. assert (K : 2%nat = 1%nat); [|discriminate]. apply H; [reflexivity| |now left].
  unfold return_mags. cbn [s_points s_spec s_filters s_limit with_points]. rewrite Eo. cbn [s_spec s_limit with_spec with_points merged new_sky map].
  rewrite B'. reflexivity.
Qed.
Print Assumptions C299_stale_refuted.
