(** Theorems about the moving object magnitude stackers, continued. *)
From Verif Require Import Base Astrom_Model Astrom_Spec Astrom_Proofs Astrom_Proofs2 MoMag_Model MoMag_Spec MoMag_Proofs MoMag_Proofs2 MoMag_Props.
From Coq Require Import Reals Ratan Lra Lia Psatz Ascii.
Open Scope R_scope.

Lemma nth_map_lt {A} (f : A -> R) l d i : (i < length l)%nat -> nth i (map f l) 0 = f (nth i l d).
Proof. intros H. rewrite (nth_indep _ 0 (f d)) by (rewrite map_length; exact H). apply map_nth. Qed.

(** * C167 magnitudes of asteroids *)
(** the magnitude of each row is V + colour + loss when there is no cloning, whatever the reference H, and d magnitudes fainter for
    a clone d magnitudes fainter; an empty frame is left alone *)
Theorem C167_shift : forall hm draws memory s href rows col out s', k_mag s = Asteroid -> col_ok rows col ->
  mo_run hm draws memory s href None rows col = Ok (out, s') ->
  (forall i d, (i < length rows)%nat -> fst (fst (nth i out d)) = w_magv (nth i rows w0) + w_color (nth i rows w0) + w_loss (nth i rows w0)) /\
  (forall dh out' s2, mo_run hm draws memory s href (Some (href + dh)) rows col = Ok (out', s2) -> forall i d, (i < length rows)%nat -> fst (fst (nth i out' d)) = fst (fst (nth i out d)) + dh).
Proof.
  intros hm draws memory s href rows col out s' Hk Hc E. destruct (mo_run_rows _ _ _ _ _ _ _ _ _ _ Hc E) as (ms & M & _ & _ & N & _). rewrite Hk in M. cbn [row_mags h_of] in M. assert (ms = map (app_mag href href) rows) as Em by congruence. split.
  - intros i d Hi. rewrite (N i d Hi). cbn [fst]. rewrite Em, (nth_map_lt _ _ w0 _ Hi). unfold app_mag. lra.
  - intros dh out' s2 E2 i d Hi. destruct (mo_run_rows _ _ _ _ _ _ _ _ _ _ Hc E2) as (ms2 & M2 & _ & _ & N2 & _). rewrite Hk in M2. cbn [row_mags h_of] in M2. assert (ms2 = map (app_mag href (href + dh)) rows) as Em2 by congruence.
    rewrite (N i d Hi), (N2 i d Hi). cbn [fst]. rewrite Em, Em2, !(nth_map_lt _ _ w0 _ Hi). unfold app_mag. lra.
Qed.
Print Assumptions C167_shift.
Theorem C167_empty : forall hm draws memory s href hval col, mo_run hm draws memory s href hval [] col = Ok ([], s).
Proof. reflexivity. Qed.
Print Assumptions C167_empty.
Example C167_case : k_mag (st None) = Asteroid /\ exists out s1, mo_run (fun _ => 1) (fun _ _ => 0) (fun _ => 0) (st None) 10 None [row20 20; row20 21] None = Ok (out, s1) /\ exists out' s2, mo_run (fun _ => 1) (fun _ _ => 0) (fun _ => 0) (st None) 10 (Some (10 + 2)) [row20 20; row20 21] None = Ok (out', s2).
Proof. split; [reflexivity|]. eexists. eexists. split; [reflexivity|]. eexists. eexists. reflexivity. Qed.

(** * C168 magnitudes of comets *)
(** rows with a known band: the fluxes of coma and nucleus add up; brighter than either, by at most 2.5 log10 2 than the brighter;
    the whole shifts with H *)
Theorem C168_comet : forall hm kc href h w m, 0 < snd kc -> comet_row hm w -> comet_mag hm (1/25) kc href h w = Ok m ->
  exists c, coma hm (1/25) kc h w = Ok c /\ brightness m = brightness c + brightness (w_magv w + w_color w + w_loss w + h - href) /\
    m < c /\ m < w_magv w + w_color w + w_loss w + h - href /\ Rmin c (w_magv w + w_color w + w_loss w + h - href) - 5/2 * (ln 2 / ln 10) <= m /\
    forall dh, comet_mag hm (1/25) kc href (h + dh) w = Ok (m + dh).
Proof.
  intros hm kc href h w m Hc Hw E. unfold comet_mag in E. destruct (coma hm (1/25) kc h w) as [c|e] eqn:Ec; [|discriminate]. cbn [bind] in E. assert (m = - (5/2) * lg (Rpower 10 (- (2/5) * c) + Rpower 10 (- (2/5) * app_mag href h w))) as Em by congruence.
  exists c. split; [reflexivity|]. fold (app_mag href h w). destruct (combined_bounds c (app_mag href h w)) as (B1 & B2 & B3). rewrite <- Em in B1, B2, B3. split; [unfold brightness; rewrite Em; apply combined_flux|]. split; [exact B1|]. split; [exact B2|]. split; [exact B3|].
  intros dh. unfold comet_mag. unfold coma in *. destruct (ab_sun (w_band w)) as [sun|]; [|discriminate]. cbn [bind]. f_equal. rewrite coma_dm_shift by (try assumption; lra). assert (c = sun + coma_dm hm (1/25) kc h w) as Ec' by congruence.
  replace (sun + (coma_dm hm (1/25) kc h w + dh)) with (c + dh) by lra. replace (app_mag href (h + dh) w) with (app_mag href h w + dh) by (unfold app_mag; ring). rewrite combined_shift, Em. reflexivity.
Qed.
Print Assumptions C168_comet.
(** a run fails with KeyError exactly when some row has a band that is not one of ugrizy *)
Theorem C168_band : forall hm draws memory s href hval rows col kc, k_mag s = Comet kc -> col_ok rows col ->
  ((exists e, mo_run hm draws memory s href hval rows col = Err e) <-> exists w, In w rows /\ ~ In (w_band w) ["u"; "g"; "r"; "i"; "z"; "y"]%string) /\
  (forall e, mo_run hm draws memory s href hval rows col = Err e -> e = KeyError).
Proof.
  intros hm draws memory s href hval rows col kc Hk Hc. pose proof (col_length memory rows col Hc) as Hl.
  assert (forall b, ab_sun b = None <-> ~ In b ["u"; "g"; "r"; "i"; "z"; "y"]%string) as A.
  { intros b. unfold ab_sun. cbn [In]. repeat match goal with |- context [String.eqb b ?x] => let E := fresh "E" in destruct (String.eqb_spec b x) as [E|E]; cbv iota; [split; [discriminate|intros H; exfalso; apply H; rewrite E; tauto]|] end. split; [|reflexivity]. intros _. intros [H|[H|[H|[H|[H|[H|[]]]]]]]; congruence. }
  assert (forall l e, map_ok (comet_mag hm (1/25) kc href (h_of href hval)) l = Err e -> e = KeyError /\ exists w, In w l /\ ab_sun (w_band w) = None) as M.
  { induction l as [|w l IH]; intros e E; [discriminate|]. cbn [map_ok] in E. unfold comet_mag at 1 in E. unfold coma in E. destruct (ab_sun (w_band w)) as [sun|] eqn:Eb; cbn [bind] in E.
    - destruct (map_ok _ l) as [r|e'] eqn:E'; cbn [bind] in E; [discriminate|]. destruct (IH e' eq_refl) as (I1 & v & I2 & I3). split; [congruence|exists v; split; [right; exact I2|exact I3]].
    - split; [congruence|exists w; split; [left; reflexivity|exact Eb]]. }
  assert (forall l w, In w l -> ab_sun (w_band w) = None -> exists e, map_ok (comet_mag hm (1/25) kc href (h_of href hval)) l = Err e) as M2.
  { induction l as [|v l IH]; intros w Hi Hb; [destruct Hi|]. cbn [map_ok]. destruct Hi as [-> |Hi]; [unfold comet_mag at 1, coma; rewrite Hb; eexists; reflexivity|]. destruct (IH w Hi Hb) as (e & E). destruct (comet_mag hm (1/25) kc href (h_of href hval) v) as [x|e']; [|eexists; reflexivity]. cbn [bind]. rewrite E. eexists. reflexivity. }
  destruct rows as [|w0' rows'] eqn:Er; [split; [split; [intros (e & E); discriminate E|intros (w & [] & _)]|intros e E; discriminate E]|]. rewrite <- Er in *. rewrite mo_run_eq by (rewrite Er; discriminate). unfold mo_run'. rewrite mags_rows by exact Hl. rewrite Hk. cbn [row_mags].
  destruct (map_ok (comet_mag hm (1/25) kc href (h_of href hval)) rows) as [ms|e0] eqn:E0; cbn [bind].
  - split; [split; [intros (e & E); discriminate E|]|intros e E; discriminate E]. intros (w & Hw & Hb). apply A in Hb. destruct (M2 rows w Hw Hb) as (e & E). congruence.
  - destruct (M rows e0 E0) as (-> & w & Hw & Hb). split; [split; [intros _; exists w; split; [exact Hw|apply A, Hb]|intros _; exists KeyError; reflexivity]|intros e E; congruence].
Qed.
Print Assumptions C168_band.
Example C168_case : comet_row (fun _ => 1) (row20 24) /\ 0 < snd (-2, 1000) /\ exists m, comet_mag (fun _ => 1) (1/25) (-2, 1000) 10 12 (row20 24) = Ok m.
Proof. repeat split; cbn; try lra. eexists. reflexivity. Qed.

(** * C169 the brightness of a coma *)
(** the documented formula, with the lengths in cm, does not give the magnitude of the code: line 350 multiplies km by 1000 *)
Theorem C169_formula_partial : forall hm k const h w c sun, 0 < const -> comet_row hm w -> ab_sun (w_band w) = Some sun -> coma hm (1/25) (k, const) h w = Ok c ->
  let radius_km := Rpower 10 (1/5 * (- (2676/100) - h)) / sqrt (1/25) * (1495978707/10) in
  let afrho_cm := const * (radius_km * radius_km) * Rpower (w_rh w) k * hm (w_phase w) in
  let rho_cm := 725 * 100000 * w_delta w * w_seeing w in
  c = coma_textbook sun afrho_cm rho_cm (w_rh w) (w_delta w * cm_per_au) - 10.
Proof.
  intros hm k const h w c sun Hc Hw Hs E radius_km afrho_cm rho_cm. unfold coma in E. rewrite Hs in E. assert (c = sun + coma_dm hm (1/25) (k, const) h w) as -> by congruence.
  unfold coma_textbook. pose proof (coma_arg_pos hm (1/25) (k, const) h w ltac:(lra) Hc Hw) as P.
  assert (afrho hm (1/25) (k, const) h w = afrho_cm) as Ea by (unfold afrho, afrho_cm, comet_radius, radius_km, vmag_sun, km_per_au; cbn [fst snd]; replace (- 2676 / 100) with (- (2676/100)) by lra; reflexivity). unfold coma_dm. rewrite Ea in *.
  assert (rho w = rho_cm) as Er by (unfold rho, rho_cm; lra). rewrite Er in *. destruct Hw as (H1 & H2 & H3 & H4).
  assert (afrho_cm * rho_cm / (2 * w_rh w * delta_len w * (2 * w_rh w * delta_len w)) = Rpower 10 4 * (afrho_cm * rho_cm / (4 * (w_rh w * w_rh w) * (w_delta w * cm_per_au * (w_delta w * cm_per_au))))) as Q.
  { assert (Rpower 10 4 = 10000) as -> by (replace 4 with (INR 4) by (cbn; lra); rewrite Rpower_pow by lra; cbn; lra). unfold delta_len, km_per_au, cm_per_au. field. split; lra. }
  rewrite Q in *. assert (0 < afrho_cm * rho_cm / (4 * (w_rh w * w_rh w) * (w_delta w * cm_per_au * (w_delta w * cm_per_au)))) as P2 by (pose proof (pow10_pos 4); apply (Rmult_lt_reg_l (Rpower 10 4)); [assumption|rewrite Rmult_0_r; exact P]).
  rewrite lg_mult by (try apply pow10_pos; exact P2). rewrite lg_pow. unfold lg. lra.
Qed.
Print Assumptions C169_formula_partial.
Theorem C169_formula_refuted : ~ (forall hm k const h w c sun, 0 < const -> comet_row hm w -> ab_sun (w_band w) = Some sun -> coma hm (1/25) (k, const) h w = Ok c ->
  let radius_km := Rpower 10 (1/5 * (- (2676/100) - h)) / sqrt (1/25) * (1495978707/10) in
  let afrho_cm := const * (radius_km * radius_km) * Rpower (w_rh w) k * hm (w_phase w) in
  let rho_cm := 725 * 100000 * w_delta w * w_seeing w in
  c = coma_textbook sun afrho_cm rho_cm (w_rh w) (w_delta w * cm_per_au)).
Proof.
  intros C. assert (comet_row (fun _ => 1) (row20 24)) as Hw by (repeat split; cbn; lra). specialize (C (fun _ => 1) (-2) 1000 15 (row20 24) _ (- 2693 / 100) ltac:(lra) Hw eq_refl eq_refl).
  pose proof (C169_formula_partial (fun _ => 1) (-2) 1000 15 (row20 24) _ (- 2693 / 100) ltac:(lra) Hw eq_refl eq_refl) as D. assert (forall x t : R, x = t -> x = t - 10 -> False) as F by (intros; lra). exact (F _ _ C D).
Qed.
Print Assumptions C169_formula_refuted.
Example C169_case : comet_row (fun _ => 1) (row20 24) /\ ab_sun (w_band (row20 24)) = Some (- 2693 / 100).
Proof. repeat split; cbn; lra. Qed.

(** * C170 the magtype *)
(** a type that is not documented is not refused: any string that is not "asteroid" and does not begin with "comet" leaves the
    magnitudes as they are *)
Theorem C170_unknown_refuted : ~ (forall t, mag_init t <> Err ValueError -> In t ["asteroid"; "comet_oort"; "comet_short"; "comet_mbc"]%string).
Proof. intros C. assert (In "asteriod"%string ["asteroid"; "comet_oort"; "comet_short"; "comet_mbc"]%string) as H by (apply C; cbn; discriminate). cbn in H. intuition discriminate. Qed.
Print Assumptions C170_unknown_refuted.
(** then, without a column appMag, the results are made from whatever was in the memory *)
Theorem C170_memory_refuted : ~ (forall hm draws memory memory' t gamma sigma seed s href hval rows, mo_init t gamma sigma seed = Ok s -> mo_run hm draws memory s href hval rows None = mo_run hm draws memory' s href hval rows None).
Proof.
  intros C. specialize (C (fun _ => 1) (fun _ _ => 0) (fun _ => 1) (fun _ => 2) "asteriod"%string (38/1000) (12/100) None _ 10 None [row20 20] eq_refl). cbn in C. injection C as C. lra.
Qed.
Print Assumptions C170_memory_refuted.
(** what holds: the documented types give the documented constants; "comet..." with another last part is refused; otherwise the
    given magnitudes are used unchanged; and with a documented type the memory does not matter *)
Theorem C170_types_partial :
  mag_init "asteroid" = Ok Asteroid /\ mag_init "comet_short" = Ok (Comet (-4, 100)) /\ mag_init "comet_oort" = Ok (Comet (-2, 1000)) /\ mag_init "comet_mbc" = Ok (Comet (-6, 4000)) /\
  (forall t, mag_init t = Err ValueError <-> exists u, t = ("comet" ++ u)%string /\ ~ In (last_part t) ["short"; "oort"; "mbc"]%string) /\
  (forall t, mag_init t = Ok NullMag <-> t <> "asteroid"%string /\ forall u, t <> ("comet" ++ u)%string) /\
  (forall hm draws memory s href hval rows c out s', k_mag s = NullMag -> length c = length rows -> mo_run hm draws memory s href hval rows (Some c) = Ok (out, s') -> map (fun o => fst (fst o)) out = c) /\
  (forall hm draws memory memory' s href hval rows, k_mag s <> NullMag -> mo_run hm draws memory s href hval rows None = mo_run hm draws memory' s href hval rows None).
Proof.
  assert (forall t, starts_with "comet" t = true <-> exists u, t = ("comet" ++ u)%string) as SW.
  { assert (forall p t, starts_with p t = true <-> exists u, t = (p ++ u)%string) as G.
    { induction p as [|a p IH]; intros t; cbn [starts_with String.append]; [split; [intros _; exists t; reflexivity|reflexivity]|]. destruct t as [|b t]; [split; [discriminate|intros (u & E); discriminate E]|]. rewrite andb_true_iff, Ascii.eqb_eq, IH. split; [intros (-> & u & ->); exists u; reflexivity|intros (u & E); injection E as -> ->; split; [reflexivity|exists u; reflexivity]]. }
    apply G. }
  assert (forall n, comet_types n = None <-> ~ In n ["short"; "oort"; "mbc"]%string) as CT.
  { intros n. unfold comet_types. cbn [In]. repeat match goal with |- context [String.eqb n ?x] => let E := fresh "E" in destruct (String.eqb_spec n x) as [E|E]; cbv iota; [split; [discriminate|intros H; exfalso; apply H; rewrite E; tauto]|] end. split; [|reflexivity]. intros _ [H|[H|[H|[]]]]; congruence. }
  split; [reflexivity|]. split; [reflexivity|]. split; [reflexivity|]. split; [reflexivity|]. split; [|split; [|split]].
  - intros t. unfold mag_init. destruct (String.eqb_spec t "asteroid") as [E|E]; [split; [discriminate|intros (u & Eu & _); rewrite E in Eu; discriminate Eu]|]. destruct (starts_with "comet" t) eqn:S.
    + cbn [comet_init]. destruct (comet_types (last_part t)) as [kc|] eqn:K; cbn [bind]; split; try discriminate.
      * intros (u & _ & N). apply CT in N. congruence.
      * intros _. apply SW in S. destruct S as (u & Eu). exists u. split; [exact Eu|apply CT, K].
      * reflexivity.
    + split; [discriminate|]. intros (u & Eu & _). assert (starts_with "comet" t = true) by (apply SW; exists u; exact Eu). congruence.
  - intros t. unfold mag_init. destruct (String.eqb_spec t "asteroid") as [E|E]; [split; [discriminate|intros (N & _); congruence]|]. destruct (starts_with "comet" t) eqn:S.
    + cbn [comet_init]. split; [destruct (comet_types (last_part t)); discriminate|]. intros (_ & N). apply SW in S. destruct S as (u & Eu). exfalso. exact (N u Eu).
    + split; [|reflexivity]. intros _. split; [exact E|]. intros u Eu. assert (starts_with "comet" t = true) by (apply SW; exists u; exact Eu). congruence.
  - intros hm draws memory s href hval rows c out s' Hk Hl E. destruct (mo_run_rows _ _ _ _ _ _ _ _ _ _ (Hl : col_ok rows (Some c)) E) as (ms & M & L & Lo & N & _). rewrite Hk in M. cbn [row_mags col_of] in M. assert (ms = c) as -> by congruence.
    apply (nth_ext _ _ (fst (fst (0, 0, false))) 0); [rewrite map_length; transitivity (length rows); [exact Lo|symmetry; exact Hl]|]. intros i Hi. rewrite map_length in Hi. etransitivity; [apply (map_nth (fun o : orow => fst (fst o)) out (0, 0, false))|]. cbv beta. rewrite N by (rewrite <- Lo; exact Hi). reflexivity.
  - intros hm draws memory memory' s href hval rows Hk. destruct rows as [|w rows'] eqn:Er; [reflexivity|]. rewrite <- Er in *. rewrite !mo_run_eq by (rewrite Er; discriminate). unfold mo_run'. rewrite !mags_rows by (apply col_length; exact I). destruct (k_mag s) eqn:Ek; [| |congruence]; cbn [row_mags].
    + cbn [bind]. rewrite <- !(map_map fst w_m5), !fst_combine by (apply col_length; exact I). rewrite !combine_length, !(col_length _ rows None I). reflexivity.
    + destruct (map_ok _ rows); cbn [bind]; [|reflexivity]. rewrite <- !(map_map fst w_m5), !fst_combine by (apply col_length; exact I). rewrite !combine_length, !(col_length _ rows None I). reflexivity.
Qed.
Print Assumptions C170_types_partial.
Example C170_case : mag_init "asteriod" = Ok NullMag /\ mag_init "comet" = Err ValueError /\ mag_init "comet_hyperbolic" = Err ValueError /\ mag_init "comets_of_the_mbc" = Ok (Comet (-6, 4000)) /\ mag_init "cometary_mbc" = Ok (Comet (-6, 4000)).
Proof. repeat split; reflexivity. Qed.

(** * C171 a comet type given by a dictionary *)
(** the documented key afrho1_const is not understood *)
Theorem C171_key_refuted : ~ (forall k c, comet_init (Dict (Some k) None (Some c)) = Ok (k, c)).
Proof. intros C. specialize (C 0 0). discriminate C. Qed.
Print Assumptions C171_key_refuted.
(** what holds: accepted exactly with the keys k and Afrho1_const, and their values are used; the documented dictionary is always refused *)
Theorem C171_dict_partial : forall k c c', (forall kc, comet_init (Dict k c c') = Ok kc <-> k = Some (fst kc) /\ c = Some (snd kc)) /\ (k = None \/ c = None -> comet_init (Dict k c c') = Err ValueError).
Proof.
  intros k c c'. split.
  - intros [k0 c0]. cbn [fst snd]. destruct k as [k|], c as [c|]; cbn; split; try discriminate; try (intros [E1 E2]; congruence); intros E; split; congruence.
  - intros [-> | ->]; [destruct c|destruct k]; reflexivity.
Qed.
Print Assumptions C171_dict_partial.
Example C171_case : comet_init (Dict (Some (-7/2)) (Some 1500) None) = Ok (-7/2, 1500) /\ comet_init (Dict (Some (-7/2)) None (Some 1500)) = Err ValueError.
Proof. split; reflexivity. Qed.

(** * C172 ecliptic coordinates *)
(** a rotation of the sky: the direction of (ecLon, ecLat) is the direction of (ra, dec) turned about the equinox by the obliquity;
    in range; the angle between any two objects is kept *)
Theorem C172_ecliptic : forall ra dec, let '(lat, lon) := ecliptic true ra dec in
  vec (deg lon) (deg lat) = turned (deg (23439291 / 1000000)) (vec (deg ra) (deg dec)) /\ -90 <= lat <= 90 /\ 0 <= lon < 360 /\
  ecliptic false (deg ra) (deg dec) = (lat, lon) /\
  forall ra' dec', let '(lat', lon') := ecliptic true ra' dec' in
    dot (vec (deg lon) (deg lat)) (vec (deg lon') (deg lat')) = dot (vec (deg ra) (deg dec)) (vec (deg ra') (deg dec')).
Proof.
  assert (forall ra dec, let '(lat, lon) := ecliptic true ra dec in vec (deg lon) (deg lat) = turned (deg (23439291 / 1000000)) (vec (deg ra) (deg dec)) /\ -90 <= lat <= 90 /\ 0 <= lon < 360) as K.
  { intros ra dec. unfold ecliptic. cbv zeta. set (a := radians ra). set (b := radians dec). set (yp := cos ecinc * (sin a * cos b) + sin ecinc * sin b). set (zp := - sin ecinc * (sin a * cos b) + cos ecinc * sin b).
    assert ((cos a * cos b, yp, zp) = turned ecinc (vec a b)) as T by (unfold turned, vec, yp, zp; f_equal; [f_equal|]; ring).
    assert (cos a * cos b * (cos a * cos b) + yp * yp + zp * zp = 1) as N.
    { transitivity (dot (cos a * cos b, yp, zp) (cos a * cos b, yp, zp)); [reflexivity|]. rewrite T, turned_dot. apply vec_unit. }
    pose proof (vec_of_components _ _ _ N) as (V & L1 & L2). split; [|split; [exact L1|exact L2]]. change deg with radians. rewrite V. exact T. }
  intros ra dec. pose proof (K ra dec) as K1. destruct (ecliptic true ra dec) as [lat lon] eqn:E. destruct K1 as (V & L1 & L2). split; [exact V|]. split; [exact L1|]. split; [exact L2|]. split; [exact E|].
  intros ra' dec'. pose proof (K ra' dec') as K2. destruct (ecliptic true ra' dec') as [lat' lon']. destruct K2 as (V' & _). rewrite V, V'. apply turned_dot.
Qed.
Print Assumptions C172_ecliptic.
(** the equinox stays; the highest point of the ecliptic has latitude 0 and longitude 90; the pole of the ecliptic has latitude 90 *)
Theorem C172_points : ecliptic true 0 0 = (0, 0) /\ ecliptic true 90 (23439291 / 1000000) = (0, 90) /\ fst (ecliptic true 270 (90 - 23439291 / 1000000)) = 90.
Proof.
  pose proof PI_RGT_0 as HP. assert (forall x, 0 <= x < 360 -> pymod x 360 = x) as PM.
  { intros x Hx. unfold pymod. assert (Int_part (x / 360) = 0%Z) as ->; [|lra]. destruct (base_Int_part (x / 360)) as [B1 B2]. assert (0 <= x / 360 < 1) as Q by lra. assert (IZR (-1) < IZR (Int_part (x / 360)) < IZR 1) as [I1 I2] by lra. apply lt_IZR in I1, I2. lia. }
  assert (asin 0 = 0) as A0 by (rewrite <- sin_0 at 1; apply asin_sin; lra).
  split; [|split].
  - unfold ecliptic. replace (radians 0) with 0 by (unfold radians; field). rewrite sin_0, cos_0. cbv zeta. replace (- sin ecinc * (0 * 1) + cos ecinc * 0) with 0 by ring. replace (cos ecinc * (0 * 1) + sin ecinc * 0) with 0 by ring. replace (1 * 1) with 1 by ring. rewrite A0.
    assert (atan2 0 1 = 0) as -> by (rewrite <- sin_0 at 1; rewrite <- cos_0; apply atan2_angle; lra). unfold degrees. replace (0 * 180 / PI) with 0 by (field; lra). rewrite PM by lra. reflexivity.
  - unfold ecliptic. fold ecinc. replace (radians 90) with (PI / 2) by (unfold radians; field). rewrite sin_PI2, cos_PI2. cbv zeta. replace (- sin ecinc * (1 * cos ecinc) + cos ecinc * sin ecinc) with 0 by ring. replace (cos ecinc * (1 * cos ecinc) + sin ecinc * sin ecinc) with 1 by (pose proof (sin_cos_1 ecinc); lra). replace (0 * cos ecinc) with 0 by ring. rewrite A0.
    assert (atan2 1 0 = PI / 2) as -> by (rewrite <- sin_PI2 at 1; rewrite <- cos_PI2; apply atan2_angle; lra). unfold degrees. replace (0 * 180 / PI) with 0 by (field; lra). replace (PI / 2 * 180 / PI) with 90 by (field; lra). rewrite PM by lra. reflexivity.
  - unfold ecliptic. cbv zeta. cbn [fst]. replace (radians 270) with (3 * (PI / 2)) by (unfold radians; field). replace (radians (90 - 23439291 / 1000000)) with (PI / 2 - ecinc) by (unfold ecinc, radians; field). rewrite sin_shift, cos_shift.
    assert (sin (3 * (PI / 2)) = -1) as -> by (replace (3 * (PI / 2)) with (PI / 2 + PI) by field; rewrite neg_sin, sin_PI2; reflexivity). replace (- sin ecinc * (-1 * sin ecinc) + cos ecinc * cos ecinc) with 1 by (pose proof (sin_cos_1 ecinc); lra).
    assert (asin 1 = PI / 2) as -> by (rewrite <- sin_PI2; apply asin_sin; lra). unfold degrees. field. lra.
Qed.
Print Assumptions C172_points.
Example C172_case : ecliptic true 90 (23439291 / 1000000) = (0, 90).
Proof. apply C172_points. Qed.

(** * C173 phase functions *)
(** the log-linear function is 1 at zero phase, positive, loses [slope] magnitudes per degree, and decreases for a positive slope *)
Theorem C173_log_linear : forall slope, log_linear slope 0 = 1 /\ (forall p, 0 < log_linear slope p) /\ (forall p, - (5/2) * (ln (log_linear slope p) / ln 10) = slope * p) /\ (forall p q, log_linear slope (p + q) = log_linear slope p * log_linear slope q) /\ (0 < slope -> forall p q, p < q -> log_linear slope q < log_linear slope p).
Proof.
  intros s. unfold log_linear. split; [replace (- (2/5) * s * 0) with 0 by ring; apply pow10_0|]. split; [intros p; apply pow10_pos|]. split; [intros p; change (- (5/2) * lg (Rpower 10 (- (2/5) * s * p)) = s * p); rewrite lg_pow; lra|].
  split; [intros p q; rewrite <- pow10_plus; f_equal; ring|]. intros Hs p q H. apply pow10_lt. nra.
Qed.
Print Assumptions C173_log_linear.
(** the H-G function is 1 at zero phase and decreases strictly to the end of the range, staying positive, for every G in [0, 1] *)
Lemma mix_lt G a b c d : 0 <= G <= 1 -> a < b -> c < d -> (1 - G) * a + G * c < (1 - G) * b + G * d.
Proof.
  intros [H1 H2] L1 L2. destruct (Rle_lt_or_eq_dec _ _ H1) as [P|P].
  - assert (G * c < G * d) by (apply Rmult_lt_compat_l; assumption). assert ((1 - G) * a <= (1 - G) * b) by (apply Rmult_le_compat_l; lra). lra.
  - rewrite <- P. lra.
Qed.
Theorem C173_hg : forall G, 0 <= G <= 1 -> phase_hg G 0 = 1 /\ (forall p q, 0 <= p -> p < q -> q < 180 -> phase_hg G q < phase_hg G p) /\ (forall p, 0 <= p < 180 -> 0 < phase_hg G p <= 1).
Proof.
  intros G HG. assert (phase_hg G 0 = 1) as Z.
  { unfold phase_hg, radians. replace (0 * PI / 180 / 2) with 0 by field. rewrite tan_0. unfold npow. destruct (Rle_dec 0 0); [|lra]. rewrite !Rmult_0_r, exp_0. lra. }
  assert (forall p q, 0 <= p -> p < q -> q < 180 -> phase_hg G q < phase_hg G p) as D.
  { intros p q Hp Hq Hb. destruct (tan_half_lt p q Hp Hq Hb) as [T0 T1]. unfold phase_hg. set (x := tan (radians p / 2)) in *. set (y := tan (radians q / 2)) in *.
    assert (exp (- (333/100) * npow y (63/100)) < exp (- (333/100) * npow x (63/100))) as E1 by (apply exp_increasing; pose proof (npow_lt x y (63/100) ltac:(lra) T0 T1); lra).
    assert (exp (- (187/100) * npow y (122/100)) < exp (- (187/100) * npow x (122/100))) as E2 by (apply exp_increasing; pose proof (npow_lt x y (122/100) ltac:(lra) T0 T1); lra). apply mix_lt; assumption. }
  split; [exact Z|]. split; [exact D|]. intros p [Hp Hb]. split.
  - unfold phase_hg. pose proof (exp_pos (- (333/100) * npow (tan (radians p / 2)) (63/100))). pose proof (exp_pos (- (187/100) * npow (tan (radians p / 2)) (122/100))). rewrite <- (Rplus_0_r 0). pose proof (mix_lt G 0 (exp (- (333/100) * npow (tan (radians p / 2)) (63/100))) 0 (exp (- (187/100) * npow (tan (radians p / 2)) (122/100))) HG) as M. lra.
  - destruct (Rle_lt_or_eq_dec _ _ Hp) as [H|H]; [specialize (D 0 p ltac:(lra) H Hb); lra|rewrite <- H, Z; lra].
Qed.
Print Assumptions C173_hg.
Example C173_case : 0 <= 15/100 <= 1 /\ phase_hg (15/100) 90 < phase_hg (15/100) 30.
Proof. split; [lra|]. apply C173_hg; lra. Qed.
