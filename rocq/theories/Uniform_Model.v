(** Model of the uniformity of the photometric self-calibration, rubin_sim/maf/maf_contrib/selfcal_uniformity_metric.py, and
    of the number of galaxies in the extragalactic footprint, rubin_sim/maf/maf_contrib/depth_limited_num_gal_metric.py.
    Magnitudes are real numbers (exact).  The catalogue of observed stars, the solver, the pixel of a star and the Galactic
    latitude of a pixel are arguments. *)
From Coq Require Import String.
From Verif Require Import Base.
From Verif Require Template_Model Lens_Model.
From Coq Require Import Reals.
Open Scope R_scope.

(** * _match, selfcal_uniformity_metric.py:19-30 *)
(** [np.searchsorted(arr1, x, sorter=st1)]: the number of values below [x], [s] being the sorted values *)
Fixpoint searchsorted (s : list Z) (x : Z) : nat :=
  match s with [] => O | y :: t => if (y <? x)%Z then S (searchsorted t x) else O end.
Definition zmax (l : list Z) : result Z := match l with [] => Err ValueError | x :: t => Ok (fold_left Z.max t x) end.
(** [arr1[st1[k]] == x], the index being in range ([clamp] is the condition of line 22, by which places after the last value
    are moved to it) *)
Definition place (arr1 : list Z) (st : list nat) (clamp : bool) (x : Z) : result (option nat) :=
  let k := searchsorted (map (fun i => nth i arr1 0%Z) st) x in
  let k := if clamp && (k =? length arr1)%nat then (length arr1 - 1)%nat else k in
  do i <- arr_get st k;
  do y <- arr_get arr1 i;
  Ok (if (y =? x)%Z then Some i else None).
Fixpoint matches (arr1 : list Z) (st : list nat) (clamp : bool) (from : nat) (arr2 : list Z) : result (list (nat * nat)) :=
  match arr2 with
  | [] => Ok []
  | x :: t =>
      do p <- place arr1 st clamp x;
      do r <- matches arr1 st clamp (S from) t;
      Ok (match p with Some i => (i, from) :: r | None => r end)
  end.
(** [st] is [np.argsort(arr1)]; the two arrays of places are given as a list of pairs *)
Definition match_ (arr1 arr2 : list Z) (st : list nat) : result (list (nat * nat)) :=
  do m2 <- zmax arr2;
  do m1 <- zmax arr1;
  matches arr1 st (m1 <? m2)%Z 0 arr2.

(** * The statistics of run, selfcal_uniformity_metric.py:110-160 *)
(** [np.median]; [None] is NaN *)
Definition median (l : list R) : option R := match l with [] => None | _ => Some (Template_Model.percentile l 50) end.
Definition med (l : list R) : R := Template_Model.percentile l 50.
(** lines 114-116: residuals with the median removed; a star is its pixel, its magnitude and the fitted magnitude *)
Record star := { s_pix : nat; s_mag : R; s_fit : R }.
Definition resid (stars : list star) : list (nat * R) :=
  let r := map (fun s => s_mag s - s_fit s) stars in
  map (fun s => (s_pix s, s_mag s - s_fit s - med r)) stars.
(** lines 118-126: [healbin] with the median, and the pixels with stars; [npix] is the number of pixels *)
Definition in_pix (p : nat) (rs : list (nat * R)) : list R := map snd (filter (fun x => (fst x =? p)%nat) rs).
Definition resid_map (npix : nat) (rs : list (nat * R)) : list (nat * R) :=
  map (fun p => (p, med (in_pix p rs))) (filter (fun p => existsb (fun x => (fst x =? p)%nat) rs) (seq 0 npix)).
(** [median_abs_deviation(x, scale="normal")], line 128: [q] is the quantile 0.6745 of the normal distribution *)
Definition mad (q : R) (l : list R) : option R :=
  match l with [] => None | _ => Some (med (map (fun x => Rabs (x - med l)) l) / q) end.
(** lines 131-132, 143-144: the comparison with NaN is false *)
Definition outliers (nsig : R) (scatter : option R) (l : list R) : nat :=
  match scatter with Some s => length (filter (fun x => if Rlt_dec (nsig * s) (Rabs x) then true else false) l) | None => 0%nat end.
Definition fraction (n d : nat) : option R := match d with O => None | _ => Some (INR n / INR d) end.
Definition mmag (x : option R) : option R := match x with Some s => Some (s * 1000) | None => None end.
(** lines 146-156: in the order scatter_full, scatter_highglat, outlier_frac_full, outlier_frac_highglat *)
Record summary := { scatter_full : option R; scatter_high : option R; frac_full : option R; frac_high : option R }.
(** [lat] is the Galactic latitude of a pixel, [cut] and [nsig] are those of the metric *)
Definition high (lat : nat -> R) (cut : R) (m : list (nat * R)) : list R :=
  map snd (filter (fun x => if Rlt_dec cut (Rabs (lat (fst x))) then true else false) m).
Definition summarize (q : R) (lat : nat -> R) (cut nsig : R) (npix : nat) (stars : list star) : summary :=
  let m := resid_map npix (resid stars) in
  let full := map snd m in
  let hi := high lat cut m in
  let sf := mad q full in
  let sh := mad q hi in
  {| scatter_full := mmag sf; scatter_high := mmag sh;
     frac_full := fraction (outliers nsig sf full) (length full);
     frac_high := fraction (outliers nsig sh hi) (length full) |}.

(** * The columns, selfcal_uniformity_metric.py:42-49 and 71-86 *)
Definition declared : list string := ["observationid"; "fieldra"; "fielddec"; "fiveSigmaDepth"; "rotSkyPos"; "filter"]%string.
Definition read_columns : list string := ["observationId"; "fieldRA"; "fieldDec"; "fiveSigmaDepth"; "rotSkyPos"]%string.
(** reading the columns: a missing one raises ValueError *)
Definition read_all (cols : list string) : result unit :=
  if forallb (fun c => existsb (String.eqb c) cols) read_columns then Ok tt else Err ValueError.

(** * DepthLimitedNumGalMetric.run, depth_limited_num_gal_metric.py:100-111.  The footprint metric is built without a bad
    value, so that its bad value is -666 (base_metric.py:138), and so is the metric of counts, whose run is [gal] *)
Definition num_gal (gal : Lens_Model.table -> R -> result (option R)) (ax1 : Lens_Model.dict) (filter_col band : string)
  (n_filters : nat) (lim_mag lim_ebv : R) (badval : option R) (ebv : R) (t : Lens_Model.table) : result (option R) :=
  do eg <- Lens_Model.exgal_with_cuts ax1 filter_col band lim_ebv lim_mag n_filters (Some (-666)) ebv t;
  if Lens_Model.neqb eg badval then Ok badval
  else do ds <- Lens_Model.select t filter_col band; gal ds ebv.
