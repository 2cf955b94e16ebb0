(** Model of the Galactic plane metrics, of the structure function uncertainty and of the two supernova metrics without light curves:
    rubin_sim/maf/metrics/{galactic_plane_metrics,galplane_time_sampling_metrics,agnstructure,sn_sl_metric,sn_cadence_metric}.py.
    Numbers are reals: rounding (the float16 of agnstructure.py:119 included) and NaN inputs are not modelled. *)
From Coq Require Import String Reals ZArith List Bool.
From Verif Require Import Base Depth_Model Template_Model.
From Verif Require Small_Model Astrom_Model Maps_Model Crowd_Model.
Import ListNotations.
Open Scope R_scope.

Record pvisit := { p_band : string; p_m5 : R; p_time : R; p_exp : R }.

(** [slice_point[key]] and [mag_cuts[f]] *)
Definition at_key {V} (d : list (string * V)) (k : string) : result V := match dget String.eqb d k with Some v => Ok v | None => Err KeyError end.

(** * galactic_plane_metrics.py *)
(** galplane_nvisits_thresholds, lines 27-55; a timescale is an array or a list ([float / list] is a TypeError) *)
Inductive taus := Array (l : list R) | PyList (l : list R).
Definition nvisits_of (nyears tau : R) : R := 365.25 * nyears * (6.5 / 12) * 2 / tau.
Definition nvisits_thresholds (nyears : R) (t : taus) : result (list R) :=
  match t with Array l => Ok (map (nvisits_of nyears) l) | PyList _ => Err TypeError end.
(** galplane_priority_map_thresholds, lines 58-78 *)
Definition priority_threshold (science_map : string) : R :=
  if String.eqb science_map "galactic_plane" then 0.4 else if String.eqb science_map "combined_map" then 0.001 else 0.

(** the visits of lines 202-203 *)
Definition deep (cut : R) (f : string) (vs : list pvisit) : list pvisit := filter (fun v => String.eqb (p_band v) f && rleb cut (p_m5 v)) vs.
(** the loop of lines 201-206 *)
Fixpoint footprint_loop (science_map : string) (cuts point : list (string * R)) (filters : list string) (vs : list pvisit) : result (nat * R) :=
  match filters with
  | [] => Ok (0%nat, 0)
  | f :: t =>
      do cut <- at_key cuts f;
      do w <- at_key point (Maps_Model.gp_key f science_map);
      do r <- footprint_loop science_map cuts point t vs;
      let n := length (deep cut f vs) in
      Ok ((n + fst r)%nat, INR n * w + snd r)
  end.
(** GalPlaneFootprintMetric.run, lines 185-212: (n_observations, n_obs_priority, map_priority); [None] is badval *)
Definition footprint_run (science_map : string) (cuts : list (string * R)) (filters : list string) (point : list (string * R)) (vs : list pvisit)
  : result (option (nat * R * R)) :=
  do priority <- at_key point (Maps_Model.gp_key "sum" science_map);
  if rleb priority (priority_threshold science_map) then Ok None
  else do r <- footprint_loop science_map cuts point filters vs; Ok (Some (fst r, snd r, priority)).
(** the reduce function of a timescale, lines 83-90 *)
Definition reduce_tau (threshold : R) (v : nat * R * R) : R := if rleb threshold (INR (fst (fst v))) then snd v else 0.

(** GalPlaneTimePerFilterMetric.run, lines 300-357: the value of each band, [None] badval *)
Fixpoint weights_loop (science_map : string) (point : list (string * R)) (all : R) (filters : list string) : result (list (string * R)) :=
  match filters with
  | [] => Ok []
  | f :: t => do w <- at_key point (Maps_Model.gp_key f science_map); do r <- weights_loop science_map point all t; Ok ((f, w / all) :: r)
  end.
Fixpoint exptime_loop (cuts : list (string * R)) (filters : list string) (vs : list pvisit) : result (list (string * R)) :=
  match filters with
  | [] => Ok []
  | f :: t => do cut <- at_key cuts f; do r <- exptime_loop cuts t vs; Ok ((f, rsum (map p_exp (deep cut f vs))) :: r)
  end.
Definition time_run (science_map : string) (cuts : list (string * R)) (filters : list string) (point : list (string * R)) (vs : list pvisit)
  : result (option (list (string * option R))) :=
  do all <- at_key point (Maps_Model.gp_key "sum" science_map);
  if rleb all (priority_threshold science_map) then Ok None
  else
    do ws <- weights_loop science_map point all filters;
    do es <- exptime_loop cuts filters vs;
    let total := rsum (map snd es) in
    Ok (Some (map (fun we => (fst (fst we),
                              if Req_EM_T total 0 then Some 0
                              else if rltb 0 (snd (fst we)) then Some (snd (snd we) / total / snd (fst we)) else None)) (combine ws es))).
(** reduce_u ... reduce_y, lines 359-375 *)
Definition reduce_band (f : string) (v : list (string * option R)) : result (option R) := at_key v f.

(** * galplane_time_sampling_metrics.py *)
(** calc_interval_decay, lines 26-32, for one gap *)
Definition decay (tau gap : R) : R := if rleb gap tau then 1 else exp (- (1 / tau) * (gap - tau)).
(** [np.diff] *)
Fixpoint diffs (l : list R) : list R := match l with a :: ((b :: _) as t) => (b - a) :: diffs t | _ => [] end.
Definition mean (l : list R) : R := rsum l / INR (length l).
(** GalPlaneVisitIntervalsTimescaleMetric.run, lines 110-135 *)
Definition intervals_run (science_map : string) (mag_limit : R) (tau_obs : list R) (point : list (string * R)) (vs : list pvisit)
  : result (option (list (R * R))) :=
  do priority <- at_key point (Maps_Model.gp_key "sum" science_map);
  if rleb priority (priority_threshold science_map) then Ok None
  else
    let times := map p_time (filter (fun v => rleb mag_limit (p_m5 v)) vs) in
    if (length times <? 2)%nat then Ok None
    else let gaps := diffs (Small_Model.rsort times) in Ok (Some (map (fun tau => (tau, mean (map (decay tau) gaps))) tau_obs)).
(** the gaps between seasons, line 225: between the last visit of a season and the first of the next.  The seasons of sorted times
    do not fall, so these are the neighbours with different seasons (simplified from the two searches of find_season_edges). *)
Fixpoint season_gaps (l : list (R * Z)) : list R :=
  match l with
  | (a, s) :: (((b, s') :: _) as t) => if (s =? s')%Z then season_gaps t else (b - a) :: season_gaps t
  | _ => []
  end.
(** the column of times after [times.sort()], line 217: sorted where it stands, next to the other columns as they were *)
Definition with_times (vs : list pvisit) (ts : list R) : list pvisit :=
  map (fun vt => {| p_band := p_band (fst vt); p_m5 := p_m5 (fst vt); p_time := snd vt; p_exp := p_exp (fst vt) |}) (combine vs ts).
(** GalPlaneSeasonGapsTimescaleMetric.run, lines 207-237, with the visits as it leaves them; [season] is the floor of calc_season.
    [mag_limit] is an argument of the constructor that is never used. *)
Definition gaps_run (season : R -> Z) (science_map : string) (mag_limit expected : R) (tau_var : list R) (point : list (string * R)) (vs : list pvisit)
  : result (option (list (R * R))) * list pvisit :=
  match at_key point (Maps_Model.gp_key "sum" science_map) with
  | Err e => (Err e, vs)
  | Ok priority =>
      if rleb priority (priority_threshold science_map) then (Ok None, vs)
      else
        let times := Small_Model.rsort (map p_time vs) in
        let gaps := season_gaps (map (fun t => (t, season t)) times) in
        (match gaps with
         | [] => Ok None
         | _ => Ok (Some (map (fun tau => (tau, mean (map (fun g => if rleb g expected then 1 else decay tau g) gaps))) tau_var))
         end, with_times vs times)
  end.
(** the maps that the three kinds of metric ask for: lines 91 and 101-106; the season gaps ask for none (line 203).  A map puts its
    keys into the slice points. *)
Definition asks_for_map (season_gaps_metric : bool) : bool := negb season_gaps_metric.

(** * SFUncertMetric, agnstructure.py *)
(** lines 115-121: gaps of all pairs, or of neighbours *)
Definition all_pairs (ts : list R) : list R := filter (fun d => rltb 0 d) (flat_map (fun a => map (fun b => b - a) ts) ts).
(** [np.histogram], line 126 *)
Fixpoint histogram (edges : list R) (data : list R) : list nat :=
  match edges with
  | a :: ((b :: rest) as t) =>
      length (filter (fun d => rleb a d && (if match rest with [] => true | _ => false end then rleb d b else rltb d b)) data) :: histogram t data
  | _ => []
  end.
(** [astropy.stats.mad_std] *)
Definition mad_std (l : list R) : R :=
  1.482602218505602 * percentile (map (fun x => Rabs (x - percentile l 50)) l) 50.
(** lines 127-139 *)
Definition sf_value (counts : list nat) (weights : list R) (err_var : list R) : R :=
  let mu := percentile err_var 50 in
  let sd := mad_std err_var in
  rsum (map (fun nw => 2 * (mu + sd / sqrt (match fst nw with O => 0.01 | S _ => INR (fst nw) end)) * snd nw) (combine counts weights)).
Definition mag_err (snr : R) : R := 25/10 * log10 (1 + 1 / snr).
(** lines 68-71 and 88-141; [ax1] the extinction per E(B-V); [None] is badval; a given weight is never stored, so that line 139
    finds no attribute of that name *)
Definition sf_run (weight : option (list R)) (bins : list R) (all_gaps : bool) (snr_cut mag : R) (dust : option ((string -> option R) * R)) (vs : list pvisit)
  : result (option R) :=
  do m <- match dust with
          | None => Ok mag
          | Some (ax1, ebv) => match vs with [] => Err IndexError | v :: _ => match ax1 (p_band v) with Some a => Ok (mag + a * ebv) | None => Err KeyError end end
          end;
  let snr v := Astrom_Model.m52snr (Some (1/25)) m (p_m5 v) in
  let good := filter (fun v => rltb snr_cut (snr v)) vs in
  if (length good <? 2)%nat then Ok None
  else
    let times := Small_Model.rsort (map p_time good) in
    let dts := if all_gaps then all_pairs times else diffs times in
    match weight with
    | Some _ => Err AttributeError
    | None =>
        let n := (length bins - 1)%nat in
        Ok (Some (sf_value (histogram bins dts) (repeat (1 / INR n) n) (map (fun v => mag_err (snr v) * mag_err (snr v)) good)))
    end.

(** * SNSLMetric, sn_sl_metric.py.  The entries are those of collapse_night (one per night and band). *)
Record nentry := { n_filter : string; n_depth : R; n_mjd : R }.
Inductive snsl_value := Masked | Number (x : option R).   (* [Number None] is NaN *)
(** lines 117-136 *)
Definition n_lensed (area cadence len : R) : R := 45.7 * area / 20000 * len / 2.5 / (2.15 * exp (0.37 * cadence)).
(** lines 165-181: entries corrected for dust and deep enough *)
Fixpoint snsl_cut (ax1 : string -> option R) (ebv : R) (m5mins : string -> option R) (es : list nentry) : result (list nentry) :=
  match es with
  | [] => Ok []
  | e :: t =>
      match ax1 (n_filter e), m5mins (n_filter e) with
      | Some a, Some m =>
          do r <- snsl_cut ax1 ebv m5mins t;
          let d := n_depth e - a * ebv in
          Ok (if rltb m d then {| n_filter := n_filter e; n_depth := d; n_mjd := n_mjd e |} :: r else r)
      | _, _ => Err KeyError
      end
  end.
(** line 185, [np.sort] by time *)
Fixpoint e_insert (e : nentry) (l : list nentry) : list nentry :=
  match l with [] => [e] | x :: t => if rleb (n_mjd e) (n_mjd x) then e :: l else x :: e_insert e t end.
Definition e_sort (l : list nentry) : list nentry := fold_right e_insert [] l.
(** lines 202-215 for a season; [season] is calc_season at the point *)
Definition season_number (area : R) (min_obs nfilters_min : nat) (season : R -> R) (es : list nentry) : option R :=
  if ((length es <? min_obs)%nat || (length (nodup string_dec (map n_filter es)) <? nfilters_min)%nat)%bool then Some 0
  else
    match filter (fun d => rltb 0.4 d) (diffs (map n_mjd es)) with
    | [] => None
    | gaps => match es with
              | [] => None
              | e :: _ => Some (n_lensed area (percentile gaps 50) (season (n_mjd (last es e)) - season (n_mjd e)))
              end
    end.
Fixpoint sum_opt (l : list (option R)) : option R :=
  match l with [] => Some 0 | None :: _ => None | Some x :: t => match sum_opt t with Some s => Some (x + s) | None => None end end.
(** the numbers of the seasons that occur, lines 193-196 *)
Definition season_ints (season : R -> R) (es : list nentry) : list Z := nodup Z.eq_dec (map (fun e => Int_part (season (n_mjd e))) es).
(** run, lines 138-217 *)
Definition snsl_run (ax1 m5mins : string -> option R) (ebv area : R) (min_obs nfilters_min : nat) (season : R -> R) (seasons : option (list Z))
    (es : list nentry) : result snsl_value :=
  match es with
  | [] => Ok (Number (Some 0))
  | _ =>
      do cut <- snsl_cut ax1 ebv m5mins es;
      match cut with
      | [] => Ok Masked
      | _ =>
          let sorted := e_sort cut in
          let loop := match seasons with Some l => l | None => season_ints season sorted end in
          Ok (Number (sum_opt (map (fun s => season_number area min_obs nfilters_min season
                                      (filter (fun e => (Int_part (season (n_mjd e)) =? s)%Z) sorted)) loop)))
      end
  end.

(** * SNCadenceMetric, sn_cadence_metric.py:73-105 *)
(** lines 76-80: the visits in the six bands; the column is always called "filter" *)
Definition has_six (b : string) : bool := existsb (String.eqb b) ["u"; "g"; "r"; "i"; "z"; "y"]%string.
Definition floorR (x : R) : Z := Int_part x.
Definition ceilR (x : R) : Z := (- Int_part (- x))%Z.
Definition min_r (l : list R) : R := match l with [] => 0 | x :: t => fold_left Rmin t x end.
Definition max_r (l : list R) : R := match l with [] => 0 | x :: t => fold_left Rmax t x end.
(** the edges of line 88 and the counts of line 89, then lines 90-93 *)
Definition day_edges (ts : list R) : list R :=
  map (fun k => IZR (floorR (min_r ts)) + INR k) (seq 0 (Z.to_nat (ceilR (max_r ts) - floorR (min_r ts)))).
Definition cadence (ts : list R) : R :=
  let c := map INR (histogram (day_edges ts) ts) in
  match c with [] => 0 | _ => if rltb (mean c) (/ 100000000) then 0 else 1 / mean c end.
(** run: [columns] are those of the visits, [filter_of] the value in the column "filter"; the answer goes through the table [lim_sn]
    (lines 94-105), of which only the cadence is returned here; [None] is the Python None *)
Definition sncad_run (columns : list string) (vs : list (string * R)) : result (option R) :=
  if existsb (String.eqb "filter") columns
  then match filter (fun v => has_six (fst v)) vs with
       | [] => Ok None
       | good => Ok (Some (cadence (Small_Model.rsort (map snd good))))
       end
  else Err ValueError.
(** the columns asked for, lines 53-66, with their default names *)
Definition sncad_cols (coadd : bool) : list string :=
  (["night"; "fiveSigmaDepth"; "band"; "observationStartMJD"; "observationId"; "numExposures"; "visitTime"; "visitExposureTime"; "season"]%string
   ++ if coadd then ["coadd"%string] else []).
