(** C295-C299: twilight and the SkyModel object of the sky brightness model. *)
From Coq Require Import String Reals ZArith Lra Lia Psatz List Permutation Sorted.
From Verif Require Import Base Depth_Model Depth_Proofs Template_Model Template_Spec Template_Proofs Sky_Model Sky_Spec Sky_Proofs Sky_Proofs2 Sky_Props.
Import ListNotations.
Open Scope R_scope.

(** ** C295: twilight *)
Lemma towards_spec cut x az : towards cut x az = true <-> cut < x /\ (az < PI / 2 \/ 3 * PI / 2 < az).
Proof. unfold towards. rewrite andb_true_iff, orb_true_iff, !rltb_true. tauto. Qed.
Lemma towards_false cut x az : ~ (cut < x /\ (az < PI / 2 \/ 3 * PI / 2 < az)) -> towards cut x az = false.
Proof. intro H. destruct (towards cut x az) eqn:E; [|reflexivity]. apply towards_spec in E. contradiction. Qed.

(** The twilight grows by a fixed factor for each radian the sun rises, whatever the direction: the slope is that of its
    logarithm.  At the zenith, with the sun at 12 degrees below the horizon, it is the given ratio times the dark sky. *)
Theorem C295_slope_partial cut a x az alpha d :
  twilight_func cut a x az (alpha + d) = twilight_func cut a x az alpha * Rpower 10 (t_slope a * d)
  /\ twilight_func cut a 1 az (- (12 * PI / 180)) = t_ratio a * t_dark a.
Proof.
  assert (P : forall u v, Rpower 10 (u + v) = Rpower 10 u * Rpower 10 v) by (intros; apply Rpower_plus).
  assert (Z : Rpower 10 0 = 1) by (apply Rpower_O; lra). split.
  - unfold twilight_func.
    replace (t_slope a * (alpha + d + radians 12) + t_airmass a * (x - 1)) with ((t_slope a * (alpha + radians 12) + t_airmass a * (x - 1)) + t_slope a * d) by ring.
    rewrite P. destruct (towards cut x az); ring.
  - unfold twilight_func. replace (t_slope a * (- (12 * PI / 180) + radians 12) + t_airmass a * (1 - 1)) with 0 by (unfold radians; field).
    replace (t_az a * cos az * (1 - 1)) with 0 by ring. rewrite Z. destruct (towards cut 1 az); ring.
Qed.
Print Assumptions C295_slope_partial.
(** It is positive and, if the slope is positive, strictly brighter the higher the sun. *)
Theorem C295_brighter_partial cut a x az alpha beta : 0 < t_ratio a -> 0 < t_dark a ->
  0 < twilight_func cut a x az alpha
  /\ (0 < t_slope a -> alpha < beta -> twilight_func cut a x az alpha < twilight_func cut a x az beta).
Proof.
  intros Pr Pd. assert (P : forall u, 0 < twilight_func cut a x az u).
  { intro u. unfold twilight_func. pose proof (Rmult_lt_0_compat _ _ Pr Pd).
    destruct (towards cut x az); [apply Rmult_lt_0_compat; [|apply pow10_pos]|]; apply Rmult_lt_0_compat; auto; apply pow10_pos. }
  split; [apply P|]. intros Ps L. replace beta with (alpha + (beta - alpha)) by ring. rewrite (proj1 (C295_slope_partial cut a x az alpha (beta - alpha))).
  pose proof (P alpha). assert (1 < Rpower 10 (t_slope a * (beta - alpha))); [|nra].
  rewrite <- (Rpower_O 10) by lra. apply Rpower_lt; [lra|]. apply Rmult_lt_0_compat; lra.
Qed.
Print Assumptions C295_brighter_partial.
(** On the side away from the sun the azimuth does not matter; both sides of the sun are alike; and if the azimuth term is
    positive the twilight at a given airmass is nowhere brighter than towards the sun and nowhere fainter than opposite to it. *)
Theorem C295_azimuth_partial cut a x az alpha : 0 < t_ratio a -> 0 < t_dark a -> 0 <= az <= 2 * PI -> 1 <= x ->
  (PI / 2 <= az <= 3 * PI / 2 -> twilight_func cut a x az alpha = twilight_func cut a x PI alpha)
  /\ twilight_func cut a x (2 * PI - az) alpha = twilight_func cut a x az alpha
  /\ (0 <= t_az a -> twilight_func cut a x PI alpha <= twilight_func cut a x az alpha <= twilight_func cut a x 0 alpha).
Proof.
  intros Pr Pd Baz Bx. pose proof PI_RGT_0 as PP. split; [|split].
  - intro B. unfold twilight_func. rewrite !towards_false; [reflexivity| |]; lra.
  - unfold twilight_func. replace (cos (2 * PI - az)) with (cos az).
    2:{ replace (2 * PI - az) with (- az + 2 * INR 1 * PI) by (cbn; ring). rewrite cos_period. symmetry. apply cos_neg. }
    assert (T : towards cut x (2 * PI - az) = towards cut x az).
    { destruct (towards cut x az) eqn:E.
      - apply towards_spec in E. apply towards_spec. split; [tauto|]. destruct E as [_ [E|E]]; [right|left]; lra.
      - apply towards_false. intros [L D]. assert (towards cut x az = true); [|congruence]. apply towards_spec. split; [exact L|]. destruct D; [right|left]; lra. }
    rewrite T. reflexivity.
  - intro Pz. assert (Z : Rpower 10 0 = 1) by (apply Rpower_O; lra).
    unfold twilight_func. cbv zeta. set (f := t_ratio a * t_dark a * Rpower 10 (t_slope a * (alpha + radians 12) + t_airmass a * (x - 1))).
    assert (Pf : 0 < f) by (apply Rmult_lt_0_compat; [now apply Rmult_lt_0_compat|apply pow10_pos]).
    rewrite (towards_false cut x PI) by lra. rewrite cos_0.
    assert (Mono : forall u v, u <= v -> f * Rpower 10 u <= f * Rpower 10 v) by (intros; apply Rmult_le_compat_l; [lra|]; now apply pow10_le).
    pose proof (COS_bound az) as Bc. assert (C : 0 <= t_az a * (x - 1)) by (apply Rmult_le_pos; lra).
    destruct (towards cut x az) eqn:E.
    + pose proof E as E'. apply towards_spec in E' as [L D]. rewrite (proj2 (towards_spec cut x 0)) by (split; [exact L|left; lra]).
      assert (Pc : 0 <= cos az).
      { destruct D as [D|D]; [apply cos_ge_0; lra|]. replace az with ((az - 2 * PI) + 2 * INR 1 * PI) by (cbn; ring). rewrite cos_period. apply cos_ge_0; lra. }
      split.
      * replace f with (f * Rpower 10 0) at 1 by (rewrite Z; ring). apply Mono. replace (t_az a * cos az * (x - 1)) with (cos az * (t_az a * (x - 1))) by ring.
        apply Rmult_le_pos; lra.
      * apply Mono. replace (t_az a * cos az * (x - 1)) with (cos az * (t_az a * (x - 1))) by ring. nra.
    + split; [lra|]. destruct (towards cut x 0); [|lra]. replace f with (f * Rpower 10 0) at 1 by (rewrite Z; ring). apply Mono. lra.
Qed.
Print Assumptions C295_azimuth_partial.
(** The fit to all pixels and the fit at the zenith agree at the zenith. *)
Theorem C295_zenith cut a const az alpha : twilight_func6 cut a const 1 az alpha = zenith_twilight a alpha.
Proof.
  unfold twilight_func6, zenith_twilight, twilight_func. replace (t_az a * cos az * (1 - 1)) with 0 by ring. replace (const * (1 - 1)) with 0 by ring.
  replace (t_slope a * (alpha + radians 12) + t_airmass a * (1 - 1)) with (t_slope a * (alpha + radians 12)) by ring.
  rewrite exp_0, Rpower_O by lra. destruct (towards cut 1 az); ring.
Qed.
Print Assumptions C295_zenith.
(** The twilight of the model is undefined once the sun is more than 15 degrees up, and nothing once it is more than 20
    degrees down or the airmass is above 3; in between it is positive. *)
Theorem C295_range_partial a x az alpha : 0 < t_ratio a -> 0 < t_dark a -> 1 <= x ->
  (15 * PI / 180 < alpha <-> twilight_mag a x az alpha = None)
  /\ (alpha < - 20 * PI / 180 \/ 3 < x /\ alpha <= 15 * PI / 180 <-> twilight_mag a x az alpha = Some 0)
  /\ (- 20 * PI / 180 <= alpha <= 15 * PI / 180 -> x <= 3 -> exists f, twilight_mag a x az alpha = Some f /\ 0 < f).
Proof.
  intros Pr Pd Bx. pose proof PI_RGT_0 as PP. pose proof (proj1 (C295_brighter_partial 1 a x az alpha alpha Pr Pd)) as Pf.
  unfold twilight_mag, radians. destruct (rltb (15 * PI / 180) alpha) eqn:E; [apply rltb_true in E|apply rltb_false in E].
  - split; [tauto|]. split; [split; [lra|discriminate]|]. lra.
  - split; [split; [lra|discriminate]|].
    destruct (rleb (-20 * PI / 180) alpha) eqn:E1; [apply rleb_true in E1|apply rleb_false in E1]; cbn [andb].
    + destruct (rleb x 3) eqn:E2; [apply rleb_true in E2|apply rleb_false in E2]; cbn [andb].
      * rewrite (proj2 (rleb_true _ _) Bx). split; [split; [lra|intro H; injection H as H; lra]|]. intros _ _. eauto.
      * split; [split; [reflexivity|intros _; right; lra]|]. lra.
    + split; [split; [reflexivity|intros _; left; lra]|]. lra.
Qed.
Print Assumptions C295_range_partial.
Example C295_case : exists f, twilight_mag {| t_ratio := 7; t_slope := 23; t_airmass := 0.3; t_az := 0.3; t_dark := 1 |} 1.2 0 (- 12 * PI / 180) = Some f /\ 0 < f.
Proof. pose proof PI_RGT_0. apply C295_range_partial; cbn; try lra. Qed.

(** ** C296: the sum of the components *)
Definition lsst : list string := ["u"; "g"; "r"; "i"; "z"; "y"]%string.
(** the component [k] of the object, if it is switched on, has the flux [h k] *)
Definition Loaded (o : sky) (h : string -> point -> string -> num) : Prop :=
  forall k, In (k, true) (s_comps o) -> dget String.eqb (s_objs o) k = Some (of_columns (h k)).
Lemma known_lsst filters : (forall f, In f filters -> In f lsst) -> forallb known_filter filters = true.
Proof.
  intro H. apply forallb_forall. intros f I. apply H in I. unfold known_filter, lsst in *. apply existsb_exists. exists f. split; [exact I|apply String.eqb_refl].
Qed.
Lemma on_sel comps on : Sel (fun kb : string * bool => snd kb = true) comps on -> map fst on = on_keys comps.
Proof. intro S. unfold on_keys. f_equal. eapply sel_unique; [exact S|]. apply sel_filter. tauto. Qed.
Lemma some_good limit points : (exists p, In p points /\ 1 <= p_airmass p <= limit) -> existsb (good limit) points = true /\ filter (good limit) points <> [].
Proof.
  intros (p & I & G). apply (good_spec limit p) in G. split; [apply existsb_exists; now exists p|].
  intro E. assert (J : In p (filter (good limit) points)) by now apply filter_In. rewrite E in J. destruct J.
Qed.

(** For an airmass limit above 2.5, every valid point gets the total of the components that are switched on, whatever the
    other points and the other filters; the points beyond the limit are undefined. *)
Definition Totals (limit : R) (h : string -> point -> string -> num) (on : list (string * bool)) (filters : list string)
    (points : list point) (spec : list row) : Prop :=
  Forall2 (fun p row => Forall2 (fun f v =>
    (1 <= p_airmass p <= limit -> v = Total (map (fun kb => h (fst kb) p f) on)) /\ (~ 1 <= p_airmass p <= limit -> v = None)) filters row) points spec.
Lemma totals_ok limit h on filters points : Totals limit h on filters points (sky_rows limit h (map fst on) filters points).
Proof.
  unfold Totals, sky_rows. induction points as [|p t IH]; [constructor|]. cbn [map]. constructor; [|exact IH]. clear.
  induction filters as [|f fs IH]; [constructor|]. cbn [map]. constructor; [|exact IH]. rewrite map_map.
  destruct (good limit p) eqn:G; [apply good_spec in G; tauto|]. split; [intro V; apply (good_spec limit p) in V; congruence|reflexivity].
Qed.
Definition setter (o : sky) (points : list point) (filters : list string) (o' : sky) : Prop :=
  (exists ra, set_ra_dec o ra points filters = (o', Ok tt)) \/ (exists qs, map params_point qs = points /\ set_params o qs filters = (o', Ok tt)).
Lemma compute_ok o ra points filters spec : interp_sky (s_limit o) (s_objs o) (s_comps o) (if s_mags o then length filters else s_npix o) filters points = Ok spec ->
  compute (with_points o filters ra points) points = (with_spec (with_points o filters ra points) spec, Ok tt).
Proof. intro E. unfold compute. cbn [s_limit s_objs s_comps s_npix s_filters with_points]. now rewrite E. Qed.
Lemma setter_inv o points filters o' spec : existsb (good (s_limit o)) points = true ->
  interp_sky (s_limit o) (s_objs o) (s_comps o) (if s_mags o then length filters else s_npix o) filters points = Ok spec ->
  setter o points filters o' -> exists ra, o' = with_spec (with_points o filters ra points) spec.
Proof.
  intros G E [(ra & H)|(qs & <- & H)].
  - unfold set_ra_dec in H. cbn zeta in H. rewrite G in H. rewrite (compute_ok o _ _ _ _ E) in H. injection H as <-. now exists (Some ra).
  - unfold set_params in H. cbn zeta in H. rewrite G in H. rewrite (compute_ok o _ _ _ _ E) in H. injection H as <-. now exists (s_ra o).
Qed.

Theorem C296_total_partial o h on filters points ra : s_mags o = true -> 2.5 < s_limit o -> Loaded o h ->
  Sel (fun kb => snd kb = true) (s_comps o) on ->
  filters <> [] -> (forall f, In f filters -> In f lsst) -> (exists p, In p points /\ 1 <= p_airmass p <= s_limit o) ->
  (exists o', set_ra_dec o ra points filters = (o', Ok tt))
  /\ (forall qs, map params_point qs = points -> exists o', set_params o qs filters = (o', Ok tt))
  /\ forall o', setter o points filters o' -> exists spec, s_spec o' = Some spec /\ Totals (s_limit o) h on filters points spec.
Proof.
  intros M L Ld S Nf Kf G. destruct (some_good _ _ G) as [G1 G2].
  pose proof (interp_sky_ok (s_limit o) (s_objs o) (s_comps o) h (length filters) filters points ltac:(lra) Ld eq_refl (known_lsst _ Kf) Nf G2) as E.
  assert (E' : interp_sky (s_limit o) (s_objs o) (s_comps o) (if s_mags o then length filters else s_npix o) filters points
               = Ok (sky_rows (s_limit o) h (map fst on) filters points)) by (rewrite M, (on_sel _ _ S); exact E).
  split; [|split].
  - unfold set_ra_dec. rewrite G1, (compute_ok _ _ _ _ _ E'). eauto.
  - intros qs Q. unfold set_params. rewrite Q, G1, (compute_ok _ _ _ _ _ E'). eauto.
  - intros o' H. destruct (setter_inv _ _ _ _ _ G1 E' H) as [r ->]. cbn. eexists. split; [reflexivity|]. apply totals_ok.
Qed.
Print Assumptions C296_total_partial.
(** The same holds for any airmass limit if every component that is switched on is positive at every valid point. *)
Theorem C296_positive_partial o h on filters points : s_mags o = true -> Loaded o h -> Sel (fun kb => snd kb = true) (s_comps o) on ->
  filters <> [] -> (forall f, In f filters -> In f lsst) -> (exists p, In p points /\ 1 <= p_airmass p <= s_limit o) ->
  (forall k p f, In (k, true) (s_comps o) -> In p points -> 1 <= p_airmass p <= s_limit o -> In f filters -> exists v, h k p f = Some v /\ 0 < v) ->
  forall o', setter o points filters o' -> exists spec, s_spec o' = Some spec /\ Totals (s_limit o) h on filters points spec.
Proof.
  intros M Ld S Nf Kf G P. destruct (some_good _ _ G) as [G1 G2].
  assert (P' : forall k p f, In (k, true) (s_comps o) -> In p points -> good (s_limit o) p = true -> In f filters -> exists v, h k p f = Some v /\ 0 < v).
  { intros k p f I J K. apply P; auto. now apply good_spec. }
  pose proof (interp_sky_pos (s_limit o) (s_objs o) (s_comps o) h (length filters) filters points Ld eq_refl (known_lsst _ Kf) Nf G2 P') as E.
  assert (E' : interp_sky (s_limit o) (s_objs o) (s_comps o) (if s_mags o then length filters else s_npix o) filters points
               = Ok (sky_rows (s_limit o) h (map fst on) filters points)) by (rewrite M, (on_sel _ _ S); exact E).
  intros o' H. destruct (setter_inv _ _ _ _ _ G1 E' H) as [r ->]. cbn. eexists. split; [reflexivity|]. apply totals_ok.
Qed.
Print Assumptions C296_positive_partial.

(** A new object has loaded what it was asked for; switching components off leaves it so. *)
Lemma dget_map {A} (g : string -> A) l k : In k l -> dget String.eqb (map (fun k => (k, g k)) l) k = Some (g k).
Proof.
  induction l as [|x t IH]; intros I; [destruct I|]. cbn. destruct (String.eqb k x) eqn:E; [apply String.eqb_eq in E; now subst|].
  apply IH. destruct I as [->|I]; [rewrite String.eqb_refl in E; discriminate|exact I].
Qed.
Theorem C296_new mags limit h on : let o := new_sky mags limit (fun k => of_columns (h k)) on in
  Loaded o h /\ (forall key, Loaded (switch o key false) h) /\ (forall k b, In (k, b) (s_comps o) -> b = on k) /\ s_mags o = mags /\ s_limit o = limit.
Proof.
  cbn zeta. assert (D : forall k, In k keys -> on k = true -> dget String.eqb (map (fun k => (k, of_columns (h k))) (filter on keys)) k = Some (of_columns (h k))).
  { intros k I E. apply (dget_map (fun k => of_columns (h k))). apply filter_In. now split. }
  split; [|split; [|split; [|split; reflexivity]]].
  - intros k I. cbn [s_comps new_sky] in I. apply in_map_iff in I as (k' & E & I). injection E as -> Eo. now apply D.
  - intros key k I. cbn [s_comps new_sky switch] in I. rewrite map_map in I. apply in_map_iff in I as (k' & E & I). cbn [fst] in E.
    destruct (String.eqb k' key); [discriminate|]. injection E as -> Eo. now apply D.
  - intros k b I. cbn [s_comps new_sky] in I. apply in_map_iff in I as (k' & E & I). injection E as -> <-. reflexivity.
Qed.
Print Assumptions C296_new.

(** a point of a given airmass *)
Definition at_airmass (x : R) : point :=
  {| p_airmass := x; p_alt := 0; p_az := 0; p_az_rel_moon := 0; p_moon_sun_sep := 0; p_moon_alt := 0; p_alt_eclip := 0; p_az_eclip := 0;
     p_sun_alt := 0; p_az_rel_sun := 0; p_solar_flux := 130 |}.
Definition only (k : string) : string -> bool := String.eqb k.
(** the flux of a component that depends on the airmass only *)
Definition single_flux (grid : list R) (mags : string -> list R) : point -> string -> num := fun p f => Some (single_mag grid (mags f) (p_airmass p)).
Definition merged (limit : R) : sky := new_sky true limit (fun _ => of_columns (single_flux [1; 2] (fun _ => [21; 20]))) (only "merged_spec").
Lemma flux_12 : exists v, single_mag [1; 2] [21; 20] 1.5 = v /\ 0 < v.
Proof.
  exists (single_mag [1; 2] [21; 20] 1.5). split; [reflexivity|]. unfold single_mag. rewrite weight1_half. unfold flux_of_mag. rewrite (proj2 (reqb_false _ _)) by lra. apply pow10_pos.
Qed.
Lemma on_merged limit : Sel (fun kb : string * bool => snd kb = true) (s_comps (merged limit)) [("merged_spec"%string, true)].
Proof. cbn. repeat (apply sel_no; [cbn; discriminate|]). apply sel_yes; [reflexivity|]. constructor. Qed.
Example C296_total_case : exists o' spec, set_ra_dec (merged 3) [0; 0; 0] (map at_airmass [1.5; 2.7; 5]) ["r"%string] = (o', Ok tt)
  /\ s_spec o' = Some spec /\ Totals 3 (fun _ => single_flux [1; 2] (fun _ => [21; 20])) [("merged_spec"%string, true)] ["r"%string] (map at_airmass [1.5; 2.7; 5]) spec.
Proof.
  destruct (C296_total_partial (merged 3) (fun _ => single_flux [1; 2] (fun _ => [21; 20])) _ ["r"%string] (map at_airmass [1.5; 2.7; 5]) [0; 0; 0]
    eq_refl ltac:(cbn; lra) (proj1 (C296_new true 3 _ _)) (on_merged 3)) as ((o' & H) & _ & K).
  - discriminate.
  - intros f [<-|[]]. cbn. tauto.
  - exists (at_airmass 1.5). split; [now left|cbn; lra].
  - destruct (K o' (or_introl (ex_intro _ _ H))) as (spec & E & T). exists o', spec. now repeat split.
Qed.

(** For a limit of 2.5 or less a valid point loses its brightness if another point of the same call is beyond the limit and
    a third one is beyond the templates. *)
Theorem C296_limit_refuted : ~ (forall o h on filters points o', s_mags o = true -> Loaded o h -> Sel (fun kb => snd kb = true) (s_comps o) on ->
  filters <> [] -> (forall f, In f filters -> In f lsst) -> setter o points filters o' ->
  exists spec, s_spec o' = Some spec /\ Totals (s_limit o) h on filters points spec).
Proof.
  intro H. set (h := fun _ : string => single_flux [1; 2] (fun _ => [21; 20])). set (pts := map at_airmass [5; 1.5; 2.4]).
  destruct flux_12 as (v & Ev & Pv).
  assert (E24 : single_mag [1; 2] [21; 20] 2.4 = 0) by (apply (C291_outside [1; 2] [21; 20] []); [apply increasing2; lra|discriminate|right; intros x [<-|[<-|[]]]; lra]).
  assert (G : map (good (s_limit (merged 2.5))) pts = [false; true; true]).
  { cbn [map pts s_limit merged new_sky]. unfold pts. cbn [map]. repeat f_equal.
    - destruct (good 2.5 (at_airmass 5)) eqn:E; [apply good_spec in E; cbn in E; lra|reflexivity].
    - apply good_spec. cbn. lra.
    - apply good_spec. cbn. lra. }
  assert (G' : forall x, good 2.5 (at_airmass x) = true <-> 1 <= x <= 2.5) by (intro x; apply good_spec).
  assert (F : filter (good 2.5) pts = [at_airmass 1.5; at_airmass 2.4]).
  { unfold pts. cbn [map filter]. replace (good 2.5 (at_airmass 5)) with false by (symmetry; apply not_true_iff_false; rewrite G'; lra).
    rewrite (proj2 (G' 1.5)) by lra. rewrite (proj2 (G' 2.4)) by lra. reflexivity. }
  assert (I : interp_sky 2.5 (s_objs (merged 2.5)) (s_comps (merged 2.5)) 1 ["r"%string] pts = Ok [[None]; [Some 0]; [Some 0]]).
  { unfold interp_sky. cbn [s_limit merged new_sky] in G. rewrite G, F. cbn [s_objs s_comps merged new_sky keys map only String.eqb Ascii.eqb Bool.eqb filter add_components dget].
    unfold of_columns. cbn [forallb known_filter existsb String.eqb Ascii.eqb Bool.eqb orb andb bind map concat app single_flux p_airmass at_airmass].
    replace (single_flux [1; 2] (fun _ => [21; 20]) (at_airmass 1.5) "r") with (Some v) by (unfold single_flux; cbn [p_airmass at_airmass]; now rewrite Ev).
    replace (single_flux [1; 2] (fun _ => [21; 20]) (at_airmass 2.4) "r") with (Some 0) by (unfold single_flux; cbn [p_airmass at_airmass]; now rewrite E24).
    unfold pts. cbn [map].
    assert (MP : max_positive [[Some v]; [Some 0]] = true).
    { unfold max_positive. cbn. replace (rltb 0 v) with true by (symmetry; now apply rltb_true). reflexivity. }
    match goal with |- context [max_positive ?l] => replace (max_positive l) with true by (symmetry; exact MP) end. cbn [clear_mask row_zero fold_right nadd andb negb].
    rewrite (proj2 (reqb_false (v + 0) 0)) by lra. rewrite (proj2 (reqb_true (0 + 0) 0)) by lra. cbn [negb].
    cbn [scatter repeat add_rows zip nadd bind]. rewrite (proj2 (rleb_true 2.5 (25/10))) by lra.
    cbn. do 5 f_equal. f_equal. f_equal. lra. }
  destruct (H (merged 2.5) h [("merged_spec"%string, true)] ["r"%string] pts
    (with_spec (with_points (merged 2.5) ["r"%string] (Some []) pts) [[None]; [Some 0]; [Some 0]])) as (spec & Es & T).
  - reflexivity.
  - apply (C296_new true 2.5 h (only "merged_spec")).
  - apply on_merged.
  - discriminate.
  - intros f [<-|[]]. cbn. tauto.
  - left. exists []. unfold set_ra_dec. rewrite (proj1 (some_good (s_limit (merged 2.5)) pts ltac:(exists (at_airmass 1.5); split; [right; now left|cbn; lra]))).
    apply compute_ok. exact I.
  - injection Es as <-. unfold Totals, pts in T. cbn [map] in T. inversion T as [|? ? ? ? _ T1]; subst. inversion T1 as [|? ? ? ? T2 _]; subst.
    inversion T2 as [|? ? ? ? [T3 _] _]; subst. cbn [s_limit merged new_sky at_airmass p_airmass map fst] in T3. specialize (T3 ltac:(lra)).
    unfold h, single_flux in T3. cbn in T3. injection T3 as T3. lra.
Qed.
Print Assumptions C296_limit_refuted.

(** A component that was off when the object was made cannot be switched on: the next call raises. *)
Theorem C296_switch_refuted : ~ (forall limit h on key filters points, (exists p, In p points /\ 1 <= p_airmass p <= limit) ->
  filters <> [] -> (forall f, In f filters -> In f lsst) -> In key keys ->
  snd (set_ra_dec (switch (new_sky true limit (fun k => of_columns (h k)) on) key true) (map (fun _ => 0) points) points filters) = Ok tt).
Proof.
  intro H. specialize (H 3 (fun _ _ _ => Some 1) (fun _ => false) "moon"%string ["r"%string] [at_airmass 1.5]).
  assert (K : Err KeyError = Ok tt); [|discriminate].
  rewrite <- H; [|exists (at_airmass 1.5); split; [now left|cbn; lra]|discriminate|intros f [<-|[]]; cbn; tauto|now left].
  unfold set_ra_dec. cbn [s_limit switch new_sky]. rewrite (proj1 (some_good 3 [at_airmass 1.5] ltac:(exists (at_airmass 1.5); split; [now left|cbn; lra]))).
  reflexivity.
Qed.
Print Assumptions C296_switch_refuted.
