(** Model of the dust-corrected depth and weak-lensing metrics, rubin_sim/maf/metrics/{exgal_m5,
    weak_lensing_systematics_metric, uniformity_metrics, surfb_metric}.py.
    Depths, dust and times are real numbers (rounding and overflow are not modelled); a float that may be NaN is an
    [option R], [None] being NaN. *)
From Coq Require Import String Ascii Reals ZArith List.
From Verif Require Import Base Depth_Model.
Import ListNotations.
Open Scope R_scope.

Definition num := option R.
Definition reqb (x y : R) : bool := if Req_EM_T x y then true else false.
Definition rltb (x y : R) : bool := if Rlt_dec x y then true else false.
(** float comparisons and arithmetic with NaN *)
Definition nltb (x y : num) : bool := match x, y with Some a, Some b => rltb a b | _, _ => false end.
Definition neqb (x y : num) : bool := match x, y with Some a, Some b => reqb a b | _, _ => false end.
Definition nadd (x y : num) : num := match x, y with Some a, Some b => Some (a + b) | _, _ => None end.
Definition nsub (x y : num) : num := match x, y with Some a, Some b => Some (a - b) | _, _ => None end.
Definition nmul (x y : num) : num := match x, y with Some a, Some b => Some (a * b) | _, _ => None end.

Definition dict := list (string * R).
Definition lookup (d : dict) (k : string) : option R := dget String.eqb d k.
Definition key (d : dict) (k : string) : result R := match lookup d k with Some x => Ok x | None => Err KeyError end.

(** one visit: the text columns by name, depth, exposure time, airmass, sky brightness and number of exposures *)
Record visit := { v_str : string -> string; v_m5 : R; v_exp : R; v_airmass : R; v_sky : R; v_nexp : R }.
(** the data slice: the names of its text columns and its rows; [data_slice[col]] is ValueError for a missing column *)
Record table := { t_cols : list string; t_rows : list visit }.
Definition has (col : string) (cols : list string) : bool := existsb (String.eqb col) cols.
Definition column (t : table) (col : string) : result (list string) :=
  if has col (t_cols t) then Ok (map (fun v => v_str v col) (t_rows t)) else Err ValueError.
(** [data_slice[data_slice[col] == value]] *)
Definition select (t : table) (col value : string) : result table :=
  do _ <- column t col;
  Ok {| t_cols := t_cols t; t_rows := filter (fun v => String.eqb (v_str v col) value) (t_rows t) |}.
(** [len(set(column))] *)
Definition distinct (l : list string) : nat := length (nodup string_dec l).

(** ExgalM5.run, exgal_m5.py:47-57, [filter_col] and [badval] being the constructor's; the inner Coaddm5Metric (line 45)
    has the default bad value -666 (base_metric.py:138) and no filter name *)
Definition exgal_m5 (ax1 : dict) (filter_col : string) (badval : num) (ebv : R) (t : table) : result num :=
  match coaddm5_run None (map (fun v => (EmptyString, v_m5 v)) (t_rows t)) with
  | Val m5 =>
      if reqb m5 (-666) then Ok badval
      else
        do bands <- column t filter_col;
        do b0 <- arr_get bands 0;
        do a <- key ax1 b0;
        Ok (Some (m5 - a * ebv))
  | _ => Ok badval
  end.

(** ExgalM5WithCuts.run, weak_lensing_systematics_metric.py:54-75; the inner ExgalM5 is built without [filter_col] (line
    45), so it reads the column "band" and has bad value -666 *)
Definition exgal_with_cuts (ax1 : dict) (filter_col lsst_filter : string) (extinction_cut depth_cut : R) (n_filters : nat)
    (badval : num) (ebv : R) (t : table) : result num :=
  if rltb extinction_cut ebv then Ok badval
  else
    do bands <- column t filter_col;
    if (distinct bands <? n_filters)%nat then Ok badval
    else
      do ds <- select t filter_col lsst_filter;
      do dustdepth <- exgal_m5 ax1 "band" (Some (-666)) ebv ds;
      if nltb dustdepth (Some depth_cut) then Ok badval else Ok dustdepth.

(** WeakLensingNvisits.run, lines 111-121; here [filter_col] is passed on (line 101); the bad value of the metric is -666
    unless given; a count is a number *)
Definition wl_nvisits (ax1 : dict) (filter_col lsst_filter : string) (depth_cut ebvlim min_exp : R)
    (badval : num) (ebv : R) (t : table) : result num :=
  if rltb ebvlim ebv then Ok badval
  else
    do ds <- select t filter_col lsst_filter;
    do depth <- exgal_m5 ax1 filter_col (Some (-666)) ebv ds;
    if nltb depth (Some depth_cut) then Ok badval
    else Ok (Some (INR (length (filter (fun v => rltb min_exp (v_exp v)) (t_rows t))))).

(** RIZDetectionCoaddExposureTime.run, lines 197-210; [det_bands] is ["r","i","z"] when not given or empty (line 187);
    [min_bands] is stored (line 188) and never read *)
Definition det_bands (given : list string) : list string := match given with [] => ["r"; "i"; "z"]%string | _ => given end.
Definition riz_exptime (filter_col : string) (ebvlim min_exp : R) (det min_bands : list string)
    (badval : num) (ebv : R) (t : table) : result num :=
  if rltb ebvlim ebv then Ok badval
  else
    do _ <- column t filter_col;
    Ok (Some (rsum (map v_exp (filter (fun v => rltb min_exp (v_exp v) && existsb (String.eqb (v_str v filter_col)) (det_bands det)) (t_rows t))))).

(** NestedRIZExptimeExgalM5Metric.run, uniformity_metrics.py:351-362, with the metrics of lines 338-347: the exposure time
    metric has its defaults (filter column "band", minimum 15, bad value -666) and is given the "i" visits only *)
Definition nested_riz (ax1 : dict) (filter_col lsst_filter : string) (extinction_cut depth_cut : R) (n_filters : nat)
    (badval : num) (ebv : R) (t : table) : result (num * num) :=
  do d <- exgal_with_cuts ax1 filter_col lsst_filter extinction_cut depth_cut n_filters badval ebv t;
  do ds <- select t filter_col "i";
  do e <- riz_exptime "band" extinction_cut 15 [] [] (Some (-666)) ebv ds;
  Ok (d, e).

Definition ugrizy : list string := ["u"; "g"; "r"; "i"; "z"; "y"]%string.
(** the depths of the bands, [np.vstack([...]).T]: one row; an empty list is ValueError *)
Fixpoint band_depths (ax1 : dict) (filter_col : string) (badval : num) (ebv : R) (t : table) (bands : list string) : result (list num) :=
  match bands with
  | [] => Ok []
  | b :: rest =>
      do ds <- select t filter_col b;
      do d <- exgal_m5 ax1 filter_col badval ebv ds;
      do r <- band_depths ax1 filter_col badval ebv t rest;
      Ok (d :: r)
  end.
Definition depth_row (ax1 : dict) (filter_col : string) (badval : num) (ebv : R) (t : table) (bands : list string) : result (list num) :=
  match bands with [] => Err ValueError | _ => band_depths ax1 filter_col badval ebv t bands end.
(** [for i, f in enumerate(bands): if f in mean_depth: depths[i] -= mean_depth[f]], uniformity_metrics.py:127-129 and
    297-299: [depths] has one row, so [depths[0]] is all bands and [depths[i]] for i > 0 is IndexError *)
Fixpoint subtract_means (mean_depth : dict) (i : nat) (bands : list string) (depths : list num) : result (list num) :=
  match bands with
  | [] => Ok depths
  | b :: rest =>
      match lookup mean_depth b with
      | None => subtract_means mean_depth (S i) rest depths
      | Some m => match i with
                  | O => subtract_means mean_depth 1 rest (map (fun d => nsub d (Some m)) depths)
                  | S _ => Err IndexError
                  end
      end
  end.
(** [np.dot] of a row of depths and the coefficients *)
Definition ndot (l : list num) (cs : list R) : num :=
  fold_right nadd (Some 0) (map (fun p => nmul (fst p) (Some (snd p))) (combine l cs)).

(** the cuts of SingleLinearMultibandModelMetric.run, lines 138-148; true: return the bad value *)
Fixpoint single_cuts (mean_depth min_cut max_cut : dict) (bands : list string) (depths : list num) : result bool :=
  match bands, depths with
  | b :: rest, d :: ds =>
      do low <- match lookup min_cut b with None => Ok false | Some c => do m <- key mean_depth b; Ok (nltb d (Some (c - m))) end;
      if low : bool then Ok true
      else
        do high <- match lookup max_cut b with None => Ok false | Some c => do m <- key mean_depth b; Ok (nltb (Some (c - m)) d) end;
        if high : bool then Ok true else single_cuts mean_depth min_cut max_cut rest ds
  | _, _ => Ok false
  end.

(** the constructor's constants, lines 86-99 *)
Definition default_means : dict := map (fun b => (b, 0)) ugrizy.
Definition model_bands (model : dict) : list string := filter (fun b => existsb (String.eqb b) ugrizy) (map fst model).
Definition coef (model : dict) (b : string) : R := match lookup model b with Some c => c | None => 0 end.
Definition cst (model : dict) : R := coef model "cst".

(** SingleLinearMultibandModelMetric.run, lines 110-151; [mean_depth] after the default of lines 86-89 *)
Definition single_linear (ax1 : dict) (model mean_depth min_cut max_cut : dict) (post : num -> num) (extinction_cut : R)
    (n_filters : nat) (filter_col : string) (badval : num) (ebv : R) (t : table) : result num :=
  if rltb extinction_cut ebv then Ok badval
  else
    do fs <- column t filter_col;
    if (distinct fs <? n_filters)%nat then Ok badval
    else
      let bands := model_bands model in
      do d0 <- depth_row ax1 filter_col badval ebv t bands;
      do d <- subtract_means mean_depth 0 bands d0;
      if existsb (fun x => neqb x badval) d then Ok badval
      else
        do cut <- single_cuts mean_depth min_cut max_cut bands d;
        if cut : bool then Ok badval
        else Ok (post (nadd (Some (cst model)) (ndot d (map (coef model) bands)))).

(** the depth cuts of NestedLinearMultibandModelMetric.run, lines 290-294 *)
Definition nested_cut (min_cut max_cut : dict) (badval : num) (b : string) (d : num) : num :=
  let d1 := match lookup min_cut b with Some c => if nltb d (Some c) then badval else d | None => d end in
  match lookup max_cut b with Some c => if nltb (Some c) d1 then badval else d1 | None => d1 end.
(** NestedLinearMultibandModelMetric.run, lines 264-310; [mean_depth] is empty when not given (lines 237-239) *)
Fixpoint nested_bins (ax1 : dict) (models : list dict) (mean_depth min_cut max_cut : dict) (post : num -> num)
    (filter_col : string) (badval : num) (ebv : R) (t : table) : result (list num) :=
  match models with
  | [] => Ok []
  | model :: rest =>
      do d0 <- depth_row ax1 filter_col badval ebv t ugrizy;
      let d1 := map (fun p => nested_cut min_cut max_cut badval (fst p) (snd p)) (combine ugrizy d0) in
      do d <- subtract_means mean_depth 0 ugrizy d1;
      do r <- nested_bins ax1 rest mean_depth min_cut max_cut post filter_col badval ebv t;
      Ok (post (nadd (Some (cst model)) (ndot d (map (coef model) ugrizy))) :: r)
  end.
Definition nested_linear (ax1 : dict) (models : list dict) (mean_depth min_cut max_cut : dict) (post : num -> num)
    (extinction_cut : R) (n_filters : nat) (filter_col : string) (badval : num) (ebv : R) (t : table) : result (list num) :=
  if rltb extinction_cut ebv then Ok (repeat badval (length models))
  else
    do fs <- column t filter_col;
    if (distinct fs <? n_filters)%nat then Ok (repeat badval (length models))
    else nested_bins ax1 models mean_depth min_cut max_cut post filter_col badval ebv t.

(** MultibandExgalM5.run, lines 402-418 *)
Definition multiband_exgal (ax1 : dict) (extinction_cut : R) (n_filters : nat) (filter_col : string) (badval : num)
    (ebv : R) (t : table) : result (list num) :=
  if rltb extinction_cut ebv then Ok (repeat badval 6)
  else
    do fs <- column t filter_col;
    if (distinct fs <? n_filters)%nat then Ok (repeat badval 6)
    else depth_row ax1 filter_col badval ebv t ugrizy.

(** * surfb_metric.py *)
(** surface_brightness_limit_approx, lines 60-72, for one visit: the three limits *)
Record limits := { sky_lim : R; source_lim : R; rn_lim : R }.
Definition sb_limits (zp k airmass mu_sky rn pixscale nsigma t_exp tot_area : R) : limits :=
  let a_pix := pixscale ^ 2 in
  let n_pix := tot_area / a_pix in
  {| sky_lim := - (5/4) * log10 (nsigma ^ 2 / (a_pix * t_exp * n_pix)) + 5/10 * mu_sky + 5/10 * zp - k * airmass;
     source_lim := -5 * log10 nsigma + 25/10 * log10 (n_pix * a_pix * t_exp) + zp - k * airmass;
     rn_lim := - (25/10) * log10 (nsigma * rn / (t_exp * a_pix * sqrt n_pix)) + zp - k * airmass |}.
(** lines 82-85 *)
Definition sb_limit (l : limits) : R := Rmin (Rmin (sky_lim l) (source_lim l)) (rn_lim l).
(** lines 74-80, for one visit: whether the warning is given *)
Definition sb_warn (mag_diff_warn : R) (l : limits) : bool :=
  rltb (Rmin (Rmin (Rabs (sky_lim l - source_lim l)) (Rabs (sky_lim l - rn_lim l))) (Rabs (rn_lim l - source_lim l))) mag_diff_warn.

(** the zero points and extinction coefficients kept by the constructor, lines 141-148; [inst] is
    [load_inst_zeropoints()]; [None] is Python's None *)
Definition sb_zeropoints (inst : dict * dict) (zpt k_atm : option dict) : dict * option dict :=
  match zpt with
  | None => (fst inst, Some (snd inst))
  | Some z => (z, k_atm)
  end.
(** SurfaceBrightLimitMetric.run, lines 150-172; [first] is [np.unique(..)[0]] (IndexError for no visits) and the
    ValueError of line 153 is built but not raised *)
Fixpoint first_name (leb : string -> string -> bool) (b : string) (l : list string) : string :=
  match l with [] => b | c :: r => first_name leb (if leb b c then b else c) r end.
Definition surfb_run (leb : string -> string -> bool) (inst : dict * dict) (zpt k_atm : option dict)
    (pixscale nsigma tot_area readnoise : R) (filter_col : string) (t : table) : result R :=
  do bands <- column t filter_col;
  match bands with
  | [] => Err IndexError
  | b :: rest =>
      let name := first_name leb b rest in
      let '(z, k) := sb_zeropoints inst zpt k_atm in
      do zp <- key z name;
      do ka <- match k with None => Err TypeError | Some d => key d name end;
      Ok (5/4 * log10 (rsum (map (fun v => Rpower 10 (4/5 * sb_limit
        (sb_limits zp ka (v_airmass v) (v_sky v) (readnoise * sqrt (v_nexp v)) pixscale nsigma (v_exp v) tot_area))) (t_rows t))))
  end.
