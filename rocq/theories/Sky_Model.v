(** Model of the sky brightness: rubin_sim/skybrightness/{sky_model,interp_components,twilight_func,utils}.py.
    Numbers are reals (rounding is not modelled), NaN and infinity are written out where they occur.  The templates, the
    positions of sun and moon (astropy), the healpix neighbours and the magnitude of a spectrum are arguments.  A template table
    is handled one column (filter or wavelength) at a time. *)
From Coq Require Import String Ascii Reals ZArith List.
From Verif Require Import Base Depth_Model.
From Verif Require Import Template_Model.  (* percentile, rleb, rltb *)
Import ListNotations.
Open Scope R_scope.

Definition num := option R.
Definition reqb (x y : R) : bool := if Req_EM_T x y then true else false.

(** * Angles *)
(** wrap_ra, utils.py:12-17; [%] of floats is the floor remainder *)
Definition wrap_ra (x : R) : R := x - 2 * PI * IZR (Int_part (x / (2 * PI))).
(** calc_az_rel_moon, sky_model.py:54-62, for one azimuth *)
Definition calc_az_rel_moon (az moon_az : R) : R :=
  let r := wrap_ra (az - moon_az) in if rltb PI r then 2 * PI - r else r.
Definition degrees (x : R) : R := x * 180 / PI.
Definition radians (x : R) : R := x * PI / 180.

(** * Interpolation in the template tables, interp_components.py *)
(** [np.searchsorted(grid, p)], and the same for identifiers *)
Fixpoint searchsorted (grid : list R) (p : R) : nat :=
  match grid with [] => O | g :: t => if rltb g p then S (searchsorted t p) else O end.
Fixpoint zsearch (grid : list Z) (p : Z) : nat :=
  match grid with [] => O | g :: t => if (g <? p)%Z then S (zsearch t p) else O end.

Record weights := { ix_r : nat; ix_l : nat; w_r : R; w_l : R }.
(** _indx_and_weights, lines 200-238, for one point.  Simplified: the index -1, which numpy reads from the end, is the last
    index of the grid. *)
Definition indx_and_weights (grid : list R) (p : R) : weights :=
  let r0 := searchsorted grid p in
  let l := match r0 with O => (length grid - 1)%nat | S k => k end in
  let r := if (r0 =? length grid)%nat then (length grid - 1)%nat else r0 in
  let full := nth r grid 0 - nth l grid 0 in
  if reqb full 0 then {| ix_r := r; ix_l := l; w_r := 1; w_l := 0 |}
  else {| ix_r := r; ix_l := l; w_r := (p - nth l grid 0) / full; w_l := (nth r grid 0 - p) / full |}.

(** [np.min] and [np.max] of a grid, which is sorted (np.unique, line 187) *)
Definition g_min (grid : list R) : R := hd 0 grid.
Definition g_max (grid : list R) : R := last grid 0.
Definition in_grid (grid : list R) (p : R) : bool := rleb p (g_max grid) && rleb (g_min grid) p.

(** BaseSingleInterp._weighting, lines 240-266 (nextra = 1: one night time) *)
Definition weight1 (grid : list R) (values : list R) (airmass : R) : R :=
  if in_grid grid airmass then
    let w := indx_and_weights grid airmass in w_r w * nth (ix_r w) values 0 + w_l w * nth (ix_l w) values 0
  else 0.
(** interp_spec, lines 268-273, with the logarithms of lines 173-176 *)
Definition log_spec (f : R) : R := if reqb f 0 then 0 else log10 f.
Definition flux_of_log (x : R) : R := if reqb x 0 then 0 else Rpower 10 x.
(** interp_mag, lines 275-281 *)
Definition flux_of_mag (m : R) : R := if reqb m 0 then 0 else Rpower 10 (- (4/10) * (m - log10 3631)).
Definition single_spec (grid : list R) (spectra : list R) (airmass : R) : R :=
  flux_of_log (weight1 grid (map log_spec spectra) airmass).
Definition single_mag (grid : list R) (mags : list R) (airmass : R) : R := flux_of_mag (weight1 grid mags airmass).

(** Airglow._weighting, lines 321-344 *)
Definition airglow_weight (ams sfs : list R) (values : list R) (airmass solar_flux : R) : R :=
  if in_grid ams airmass && in_grid sfs solar_flux then
    let a := indx_and_weights ams airmass in
    let s := indx_and_weights sfs solar_flux in
    let v i j := nth (i * length sfs + j) values 0 in
    w_r a * w_r s * v (ix_r a) (ix_r s) + w_r a * w_l s * v (ix_r a) (ix_l s)
    + (w_l a * w_r s * v (ix_l a) (ix_r s) + w_l a * w_l s * v (ix_l a) (ix_l s))
  else 0.
Definition airglow_mag (ams sfs values : list R) (airmass solar_flux : R) : R :=
  flux_of_mag (airglow_weight ams sfs values airmass solar_flux).

(** the healpix weights, lines 715-720 and 780-785: neighbours that are not in the table get weight zero, then the
    weights are normalised *)
Definition known (hpids : list Z) (h : Z) : bool := existsb (Z.eqb h) hpids.
Definition hp_weights (hpids : list Z) (nb : list (Z * R)) : list (Z * R) :=
  let nb' := map (fun p => (fst p, if known hpids (fst p) then snd p else 0)) nb in
  let norm := rsum (map snd nb') in
  if reqb norm 0 then nb' else map (fun p => (fst p, snd p / norm)) nb'.

(** * id2intid and intid2id, lines 38-69 *)
Fixpoint zinsert (x : Z) (l : list Z) : list Z :=
  match l with [] => [x] | y :: t => if (x <? y)%Z then x :: l else if (x =? y)%Z then l else y :: zinsert x t end.
(** [np.unique] *)
Definition unique (l : list Z) : list Z := fold_right zinsert [] l.
(** the position in [uids] of each identifier; lines 43-52 sort, search both ends of each run and fill, then undo the order *)
Definition id2intid (ids : list Z) : list nat * list Z * list nat :=
  let uids := unique ids in
  (map (fun x => zsearch uids x) ids, uids, seq 0 (length uids)).
(** intid2id: identifiers that are not in [uintids] give 0 (line 58); later entries of [uintids] overwrite earlier ones *)
Definition intid2id (intids uintids uids : list Z) : list Z :=
  map (fun x => fold_left (fun acc p => if (fst p =? x)%Z then snd p else acc) (combine uintids uids) 0%Z) intids.

(** MoonInterp._weighting, lines 699-745, [nb] the neighbours of the point (healpy); a moon below the grid gives zero.
    Simplified: the test of line 707 is on the point itself (all points have the same moon). *)
Definition moon_weight (seps alts : list R) (hpids : list Z) (values : list R) (nb : list (Z * R)) (moon_alt moon_sun_sep : R) : R :=
  if rltb moon_alt (g_min alts) then 0
  else
    let m := indx_and_weights alts moon_alt in
    let s := indx_and_weights seps moon_sun_sep in
    let nh := length hpids in
    rsum (map (fun p =>
      let h := Z.to_nat (hd 0%Z (intid2id [fst p] hpids (map Z.of_nat (seq 0 nh)))) in
      let v i j := nth (j * nh * length alts + i * nh + h) values 0 in
      snd p * w_r m * w_r s * v (ix_r m) (ix_r s) + snd p * w_r m * w_l s * v (ix_r m) (ix_l s)
      + (snd p * w_l m * w_r s * v (ix_l m) (ix_r s) + snd p * w_l m * w_l s * v (ix_l m) (ix_l s))) (hp_weights hpids nb)).
Definition moon_mag (seps alts : list R) (hpids : list Z) (values : list R) (nb : list (Z * R)) (moon_alt moon_sun_sep : R) : R :=
  flux_of_mag (moon_weight seps alts hpids values nb moon_alt moon_sun_sep).

(** ZodiacalInterp._weighting, lines 761-798; the healpix number is the index *)
Definition zodiacal_weight (ams : list R) (hpids : list Z) (values : list R) (nb : list (Z * R)) (airmass : R) : R :=
  if in_grid ams airmass then
    let a := indx_and_weights ams airmass in
    let v i h := nth (i * length hpids + Z.to_nat h) values 0 in
    rsum (map (fun p => snd p * w_r a * v (ix_r a) (fst p) + snd p * w_l a * v (ix_l a) (fst p)) (hp_weights hpids nb))
  else 0.
Definition zodiacal_mag (ams : list R) (hpids : list Z) (values : list R) (nb : list (Z * R)) (airmass : R) : R :=
  flux_of_mag (zodiacal_weight ams hpids values nb airmass).

(** * Twilight, twilight_func.py *)
Record twi := { t_ratio : R; t_slope : R; t_airmass : R; t_az : R; t_dark : R }.
(** the hemisphere towards the sun, line 53; [am_cut] is amCut *)
Definition towards (am_cut airmass az : R) : bool :=
  rltb am_cut airmass && (rltb az (PI / 2) || rltb (3 * PI / 2) az).
(** twilight_func, lines 26-65, for one point with five arguments, and with a sixth one for its pixel *)
Definition twilight_func (am_cut : R) (a : twi) (airmass az sun_alt : R) : R :=
  let f := t_ratio a * t_dark a * Rpower 10 (t_slope a * (sun_alt + radians 12) + t_airmass a * (airmass - 1)) in
  if towards am_cut airmass az then f * Rpower 10 (t_az a * cos az * (airmass - 1)) else f.
Definition twilight_func6 (am_cut : R) (a : twi) (const airmass az sun_alt : R) : R :=
  twilight_func am_cut a airmass az sun_alt + t_dark a * exp (const * (airmass - 1)).
(** zenith_twilight, lines 68-83 *)
Definition zenith_twilight (a : twi) (alpha : R) : R :=
  t_ratio a * t_dark a * Rpower 10 (t_slope a * (alpha + radians 12)) + t_dark a.
(** simple_twi, lines 6-23; [args] as one list, a data point is (hpid, sunAlt); the empty maximum of line 21 raises *)
Definition simple_twi (args : list R) (data : list (nat * R)) : result (list R) :=
  match data with
  | [] => Err ValueError
  | _ =>
      let hpmax := fold_right Nat.max O (map fst data) in
      if existsb (fun d => (length args <=? fst d + 2 + hpmax)%nat) data then Err IndexError
      else Ok (map (fun d => nth (fst d + 1) args 0 * exp (snd d * nth 0 args 0) + nth (fst d + 2 + hpmax) args 0) data)
  end.
(** TwilightInterp.interp_mag, interp_components.py:569-619, one point and filter: [None] is NaN *)
Definition twilight_mag (a : twi) (airmass az sun_alt : R) : num :=
  if rltb (radians 15) sun_alt then None
  else Some (if rleb (radians (-20)) sun_alt && rleb airmass 3 && rleb 1 airmass then twilight_func 1 a airmass az sun_alt else 0).

(** * SkyModel *)
(** the interpolation points, sky_model.py:200-214 (without nightTimes, which is 0) *)
Record point := { p_airmass : R; p_alt : R; p_az : R; p_az_rel_moon : R; p_moon_sun_sep : R; p_moon_alt : R;
                  p_alt_eclip : R; p_az_eclip : R; p_sun_alt : R; p_az_rel_sun : R; p_solar_flux : R }.
(** the positions of sun and moon, in radians *)
Record bodies := { b_sun_alt : R; b_sun_az : R; b_moon_alt : R; b_moon_az : R; b_moon_sun_sep : R; b_sun_eclip_lon : R }.
(** one target: altitude, azimuth, ecliptic longitude and latitude in radians *)
Record target := { g_alt : R; g_az : R; g_lon : R; g_lat : R }.
(** the airmass, lines 507 and 607 *)
Definition airmass_of (alt : R) : R := 1 / cos (PI / 2 - alt).
(** _setup_point_grid, lines 490-558, for one target; the switches are self.twilight, self.moon and self.zodiacal *)
Definition grid_point (twilight moon zodiacal : bool) (b : bodies) (solar_flux : R) (t : target) : point :=
  {| p_airmass := airmass_of (g_alt t); p_alt := g_alt t; p_az := g_az t;
     p_az_rel_moon := if moon then calc_az_rel_moon (g_az t) (b_moon_az b) else 0;
     p_moon_sun_sep := if moon then degrees (b_moon_sun_sep b) else 0;
     p_moon_alt := if moon then degrees (b_moon_alt b) else 0;
     p_alt_eclip := if zodiacal then g_lat t else 0;
     p_az_eclip := if zodiacal then wrap_ra (g_lon t - b_sun_eclip_lon b) else 0;
     p_sun_alt := if twilight then b_sun_alt b else 0;
     p_az_rel_sun := if twilight then wrap_ra (g_az t - b_sun_az b) else 0;
     p_solar_flux := solar_flux |}.
(** the moon's phase that set_ra_dec_mjd stores, line 533 *)
Definition moon_phase (b : bodies) : R := degrees (b_moon_sun_sep b) * 100 / 180.
(** the arguments of set_params, lines 563-579, for one target *)
Record params := { q_airmass : R; q_az : R; q_alt : option R; q_moon_phase : R; q_moon_alt : R; q_moon_az : R;
                   q_sun_alt : R; q_sun_az : R; q_sun_eclip_lon : R; q_eclip_lon : R; q_eclip_lat : R;
                   q_degrees : bool; q_solar_flux : R }.
Definition convert (deg : bool) (x : R) : R := if deg then radians x else x.
(** set_params, lines 588-637: the point *)
Definition params_alt (q : params) : R :=
  match q_alt q with Some a => convert (q_degrees q) a | None => PI / 2 - acos (1 / q_airmass q) end.
Definition params_point (q : params) : point :=
  let c := convert (q_degrees q) in
  {| p_airmass := match q_alt q with Some a => airmass_of (c a) | None => q_airmass q end;
     p_alt := params_alt q; p_az := c (q_az q);
     p_az_rel_moon := calc_az_rel_moon (c (q_az q)) (c (q_moon_az q));
     p_moon_sun_sep := q_moon_phase q / 100 * 180;
     p_moon_alt := degrees (c (q_moon_alt q));
     p_alt_eclip := c (q_eclip_lat q);
     p_az_eclip := wrap_ra (c (q_eclip_lon q) - c (q_sun_eclip_lon q));
     p_sun_alt := c (q_sun_alt q);
     p_az_rel_sun := wrap_ra (c (q_az q) - c (q_sun_az q));
     p_solar_flux := q_solar_flux q |}.
(** moon_targ_sep, lines 537 and 612; [hav] is rubin_scheduler's haversine(lon1, lat1, lon2, lat2) *)
Definition grid_targ_sep (hav : R -> R -> R -> R -> R) (b : bodies) (t : target) : R :=
  hav (g_az t) (g_alt t) (b_moon_az b) (b_moon_alt b).
Definition params_targ_sep (hav : R -> R -> R -> R -> R) (q : params) : R :=
  hav (convert (q_degrees q) (q_az q)) (params_alt q) (q_moon_az q) (convert (q_degrees q) (q_moon_alt q)).

(** ** Adding up the components *)
Definition row := list num.
Definition nadd (x y : num) : num := match x, y with Some a, Some b => Some (a + b) | _, _ => None end.
Fixpoint zip {A B C} (f : A -> B -> C) (l : list A) (m : list B) : list C :=
  match l, m with x :: l', y :: m' => f x y :: zip f l' m' | _, _ => [] end.
Definition add_rows (a b : row) : row := zip nadd a b.
(** a valid point, lines 561 and 642; the others are masked (lines 560 and 641) *)
Definition good (limit : R) (p : point) : bool := rleb (p_airmass p) limit && rleb 1 (p_airmass p).
(** [self.spec[self.good_pix] += rows] *)
Fixpoint scatter (flags : list bool) (spec rows : list row) : list row :=
  match flags, spec with
  | true :: fs, s :: ss => match rows with r :: rs => add_rows s r :: scatter fs ss rs | [] => s :: scatter fs ss [] end
  | false :: fs, s :: ss => s :: scatter fs ss rows
  | _, _ => spec
  end.
(** [np.max(rows) > 0]: false if there is a NaN *)
Definition positive (x : num) : bool := match x with Some v => rltb 0 v | None => false end.
Definition max_positive (rows : list row) : bool :=
  forallb (fun x => match x with Some _ => true | None => false end) (concat rows) && existsb positive (concat rows).
(** [np.sum(row) == 0] *)
Definition row_zero (r : row) : bool := match fold_right nadd (Some 0) r with Some s => reqb s 0 | None => false end.
(** [mask[np.where(np.sum(rows, axis=1) == 0)] = 0]: the k-th row decides about the k-th point *)
Fixpoint clear_mask (mask : list bool) (rows : list row) : list bool :=
  match mask, rows with
  | m :: ms, r :: rs => (m && negb (row_zero r)) :: clear_mask ms rs
  | _, _ => mask
  end.
(** an interpolation object: the rows of the points for the filters *)
Definition component := list point -> list string -> result (list row).
(** the filters of the tables, interp_components.py:191 *)
Definition known_filter (f : string) : bool := existsb (String.eqb f) ["u"; "g"; "r"; "i"; "z"; "y"]%string.
(** interp_mag of a component from its value at a point in a filter, interp_components.py:275-281, 596-619: a filter that is
    not in the table is a KeyError *)
Definition of_columns (h : point -> string -> num) : component :=
  fun pts filters => if forallb known_filter filters then Ok (map (fun p => map (h p) filters) pts) else Err KeyError.
(** the components that depend on the airmass only (ScatteredStar, LowerAtm, UpperAtm, MergedSpec), lines 284-311 *)
Definition single_component (grid : list R) (mags : string -> list R) : component :=
  of_columns (fun p f => Some (single_mag grid (mags f) (p_airmass p))).
(** the airglow, lines 314-344 *)
Definition airglow_component (ams sfs : list R) (mags : string -> list R) : component :=
  of_columns (fun p f => Some (airglow_mag ams sfs (mags f) (p_airmass p) (p_solar_flux p))).
(** the moon and the zodiacal light, lines 684-798; [hp] gives the neighbours of a direction *)
Definition moon_component (hp : R -> R -> list (Z * R)) (seps alts : list R) (hpids : list Z) (mags : string -> list R) : component :=
  of_columns (fun p f => Some (moon_mag seps alts hpids (mags f) (hp (PI / 2 - p_alt p) (p_az_rel_moon p)) (p_moon_alt p) (p_moon_sun_sep p))).
Definition zodiacal_component (hp : R -> R -> list (Z * R)) (ams : list R) (hpids : list Z) (mags : string -> list R) : component :=
  of_columns (fun p f => Some (zodiacal_mag ams hpids (mags f) (hp (PI / 2 - p_alt_eclip p) (p_az_eclip p)) (p_airmass p))).
(** the twilight, lines 569-619; one sun altitude for all points *)
Definition twilight_component (eqs : string -> twi) : component :=
  of_columns (fun p f => twilight_mag (eqs f) (p_airmass p) (p_az_rel_sun p) (p_sun_alt p)).
Definition nan_rows (flags : list bool) (spec : list row) : list row :=
  zip (fun (f : bool) (r : row) => if f then r else map (fun _ => None) r) flags spec.
Definition zero_rows (mask : list bool) (spec : list row) : list row :=
  zip (fun (m : bool) (r : row) => if m then r else map (fun _ => Some 0) r) mask spec.
(** the loop of _interp_sky, lines 680-695; the early return of lines 684-686 is [inr] *)
Fixpoint add_components (objs : list (string * component)) (pts : list point) (filters : list string) (flags : list bool)
    (comps : list (string * bool)) (spec : list row) (mask : list bool) : result ((list row * list bool) + list row) :=
  match comps with
  | [] => Ok (inl (spec, mask))
  | (key, on) :: rest =>
      if on then
        match dget String.eqb objs key with
        | None => Err KeyError
        | Some f =>
            do rows <- f pts filters;
            match concat rows with
            | [] => Ok (inr spec)
            | _ :: _ =>
                let mask' := if max_positive rows then clear_mask mask rows else mask in
                add_components objs pts filters flags rest (scatter flags spec rows) mask'
            end
        end
      else add_components objs pts filters flags rest spec mask
  end.
(** _interp_sky, lines 649-697 *)
Definition interp_sky (limit : R) (objs : list (string * component)) (comps : list (string * bool)) (npix : nat)
    (filters : list string) (points : list point) : result (list row) :=
  let flags := map (good limit) points in
  let pts := filter (good limit) points in
  do r <- add_components objs pts filters flags comps (map (fun _ => repeat (Some 0) npix) points) (map (fun _ => true) points);
  match r with
  | inr spec => Ok (nan_rows flags spec)
  | inl (spec, mask) => Ok (nan_rows flags (if rleb limit (25/10) then zero_rows mask spec else spec))
  end.

(** ** The object *)
(** magnitudes: [m = -2.5 log10(spec) + log10(3631)], line 746 *)
Inductive mag := MNan | MInf | MFin (m : R).
Definition mag_of (x : num) : mag :=
  match x with
  | None => MNan
  | Some f => if rltb 0 f then MFin (- (25/10) * log10 f + log10 3631) else if reqb f 0 then MInf else MNan
  end.
Record sky := { s_mags : bool; s_limit : R; s_objs : list (string * component); s_comps : list (string * bool);
                s_npix : nat; s_filters : list string; s_ra : option (list R); s_points : option (list point);
                s_spec : option (list row) }.
(** a new object, lines 126-193: the keys in the order of lines 148-157; objects for the components switched on *)
Definition keys : list string := ["moon"; "lower_atm"; "twilight"; "upper_atm"; "airglow"; "zodiacal"; "scattered_star"; "merged_spec"]%string.
Definition new_sky (mags : bool) (limit : R) (interpolators : string -> component) (on : string -> bool) : sky :=
  {| s_mags := mags; s_limit := limit;
     s_objs := map (fun k => (k, interpolators k)) (filter on keys); s_comps := map (fun k => (k, on k)) keys;
     s_npix := if mags then 6 else Z.to_nat 11001; s_filters := []; s_ra := None; s_points := None; s_spec := None |}.
(** switching a component on or off, [sm.moon = False]: read again in lines 667-676 *)
Definition switch (o : sky) (key : string) (v : bool) : sky :=
  {| s_mags := s_mags o; s_limit := s_limit o; s_objs := s_objs o;
     s_comps := map (fun c => if String.eqb (fst c) key then (fst c, v) else c) (s_comps o);
     s_npix := s_npix o; s_filters := s_filters o; s_ra := s_ra o; s_points := s_points o; s_spec := s_spec o |}.
Definition with_points (o : sky) (filters : list string) (ra : option (list R)) (points : list point) : sky :=
  {| s_mags := s_mags o; s_limit := s_limit o; s_objs := s_objs o; s_comps := s_comps o;
     s_npix := if s_mags o then length filters else s_npix o; s_filters := filters; s_ra := ra; s_points := Some points;
     s_spec := s_spec o |}.
Definition with_spec (o : sky) (spec : list row) : sky :=
  {| s_mags := s_mags o; s_limit := s_limit o; s_objs := s_objs o; s_comps := s_comps o; s_npix := s_npix o;
     s_filters := s_filters o; s_ra := s_ra o; s_points := s_points o; s_spec := Some spec |}.
(** Simplified: if a component raises, the code has already replaced the spectra by the sum so far. *)
Definition compute (o : sky) (points : list point) : sky * result unit :=
  match interp_sky (s_limit o) (s_objs o) (s_comps o) (s_npix o) (s_filters o) points with
  | Ok spec => (with_spec o spec, Ok tt)
  | Err e => (o, Err e)
  end.
(** set_ra_dec_mjd and set_ra_dec_alt_az_mjd once the points are computed, lines 251-324 and 344-391.  Simplified: the
    coordinates are radians and the time is a single number; [points] has the length of [ra]. *)
Definition set_ra_dec (o : sky) (ra : list R) (points : list point) (filters : list string) : sky * result unit :=
  let o1 := with_points o filters (Some ra) points in
  if existsb (good (s_limit o)) points then compute o1 points else (o1, Err ValueError).
(** set_params, lines 588-647: right ascensions are not set; without a valid point only a warning *)
Definition set_params (o : sky) (qs : list params) (filters : list string) : sky * result unit :=
  let points := map params_point qs in
  let o1 := with_points o filters (s_ra o) points in
  if existsb (good (s_limit o)) points then compute o1 points else (o1, Ok tt).
(** [mags[self.mask] *= nan]; IndexError if the mask reaches further than the rows *)
Fixpoint mask_mags (flags : list bool) (rows : list (list mag)) : result (list (list mag)) :=
  match flags, rows with
  | [], _ => Ok rows
  | f :: fs, r :: rs => do t <- mask_mags fs rs; Ok ((if f then r else map (fun _ => MNan) r) :: t)
  | true :: fs, [] => mask_mags fs []
  | false :: _, [] => Err IndexError
  end.
(** the column of a filter; IndexError if the rows are too short *)
Definition col (i : nat) (rows : list (list mag)) : result (list mag) :=
  if forallb (fun r => (i <? length r)%nat) rows then Ok (map (fun r => nth i r MNan) rows) else Err IndexError.
Fixpoint by_filter (i : nat) (filters : list string) (rows : list (list mag)) : result (list (string * list mag)) :=
  match filters with
  | [] => Ok []
  | f :: fs => do c <- col i rows; do t <- by_filter (S i) fs rows; Ok ((f, c) :: t)
  end.
(** return_mags, lines 716-753, of an object that computes magnitudes *)
Definition return_mags (o : sky) : result (list (string * list mag)) :=
  match s_points o with
  | None => Err ValueError
  | Some points =>
      match s_spec o with
      | None => Err AttributeError
      | Some spec =>
          do rows <- mask_mags (map (good (s_limit o)) points) (map (map mag_of) spec);
          by_filter 0 (s_filters o) rows
      end
  end.
(** return_mags, lines 754-771, of an object that computes spectra, for one bandpass: [lit] tells whether a spectrum has
    flux in the band, [calc] is Sed.calc_mag; -666 where nothing is computed *)
Fixpoint band_mags (lit : row -> bool) (calc : row -> mag) (npts : nat) (ra : list R) (spec : list row) : result (list mag) :=
  match ra, npts with
  | [], n => Ok (repeat (MFin (-666)) n)
  | _ :: ra', _ =>
      match spec with
      | [] => Err IndexError
      | r :: spec' =>
          match npts with
          | O => if lit r then Err IndexError else band_mags lit calc O ra' spec'
          | S n => do t <- band_mags lit calc n ra' spec'; Ok ((if lit r then calc r else MFin (-666)) :: t)
          end
      end
  end.
Definition return_band (lit : row -> bool) (calc : row -> mag) (o : sky) : result (list mag) :=
  match s_points o with
  | None => Err ValueError
  | Some points =>
      match s_ra o, s_spec o with
      | Some ra, Some spec =>
          do m <- band_mags lit calc (length points) ra spec;
          Ok (zip (fun (f : bool) x => if f then x else MNan) (map (good (s_limit o)) points) m)
      | _, _ => Err AttributeError
      end
  end.

(** * robust_rms, utils.py:20-30 *)
Definition robust_rms (missing : R) (l : list R) : R :=
  if (length l <? 2)%nat then missing else (percentile l 75 - percentile l 25) / 1.349.
