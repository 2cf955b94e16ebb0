(** Model of the population metrics of kilonovae, tidal disruption events and X-ray binaries and of two metrics of pairs of visits:
    rubin_sim/maf/maf_contrib/{kne_metrics,tdes_pop_metric,xrb_metrics,filter_pair_t_gaps_metric,presto_color_kne_pop_metric}.py.
    Numbers are reals: rounding, infinities and NaN inputs are not modelled, except that [None] is NaN where said.  The visits of a slice are
    worked on one by one and not one band after the other: the values are the same, only which of two different exceptions comes first is not. *)
From Coq Require Import String Ascii Reals ZArith List Bool.
From Verif Require Import Base Depth_Model Template_Model.
From Verif Require Astrom_Model Maps_Model Small_Model.
Import ListNotations.
Open Scope R_scope.

Record event_visit := { e_mjd : R; e_m5 : R; e_band : string }.
(** a light curve: the columns "ph" and "mag" of each band *)
Definition curve := list (string * (list R * list R)).
Definition lookup {V} (d : list (string * V)) (k : string) : result V := match dget String.eqb d k with Some v => Ok v | None => Err KeyError end.
Fixpoint each {A B} (g : A -> result B) (l : list A) : result (list B) :=
  match l with [] => Ok [] | x :: t => do y <- g x; do r <- each g t; Ok (y :: r) end.

(** * Light curves *)
(** np.interp with left=99 and right=99 for increasing times, from a point not after [t] *)
Fixpoint interp_from (t x0 y0 : R) (pts : list (R * R)) : R :=
  match pts with
  | [] => if rltb x0 t then 99 else y0
  | (x1, y1) :: r => if rleb x1 t then interp_from t x1 y1 r else y0 + (y1 - y0) / (x1 - x0) * (t - x0)
  end.
(** KnLc.interp, kne_metrics.py:108-133, and TdeLc.interp, tdes_pop_metric.py:45-62 *)
Definition interp99 (ph mag : list R) (t : R) : result R :=
  if negb (Nat.eqb (length ph) (length mag)) then Err ValueError
  else match combine ph mag with
       | [] => Err ValueError
       | (x0, y0) :: r => Ok (if rltb t x0 then 99 else interp_from t x0 y0 r)
       end.
(** the brightness of a kilonova, kne_metrics.py:344-352: [at_distance] is the distance in Mpc; and of a tidal disruption event,
    tdes_pop_metric.py:158-162 and 317-321, where no distance is used.  Simplified: a distance is positive. *)
Definition apparent (curves : list curve) (ax1 : list (string * R)) (indx : nat) (ebv : R) (at_distance : option R) (t : R) (band : string) : result R :=
  do lc <- arr_get curves indx;
  do c <- lookup lc band;
  do m <- interp99 (fst c) (snd c) t;
  do a <- lookup ax1 band;
  Ok (m + a * ebv + match at_distance with Some d => 5 * log10 (d * 1000000) - 5 | None => 0 end).

(** a visit with the time since the peak, the magnitude and its uncertainty *)
Record point := { o_t : R; o_mag : R; o_unc : R; o_m5 : R; o_band : string }.
(** lines 359-360 *)
Definition unc_of (m m5 : R) : R := 2.5 * log10 (1 + 1 / Astrom_Model.m52snr (Some (1/25)) m m5).
(** kne_metrics.py:341-360 and tdes_pop_metric.py:155-162 *)
Definition observed (mag_of : R -> string -> result R) (start : R) (v : event_visit) : result point :=
  let t := e_mjd v - start in
  do m <- mag_of t (e_band v);
  Ok {| o_t := t; o_mag := m; o_unc := unc_of m (e_m5 v); o_m5 := e_m5 v; o_band := e_band v |}.

(** the distinct bands, np.unique and set *)
Definition bands (l : list point) : list string := nodup string_dec (map o_band l).
Definition flag (b : bool) : nat := if b then 1%nat else 0%nat.
Definition bright (p : point) : bool := rltb (o_mag p) (o_m5 p).

(** * Kilonovae, kne_metrics.py *)
(** line 355 *)
Definition kn_seen (p : point) : bool := rltb 0 (o_t p) && rltb (o_t p) 30 && bright p.
(** _multi_detect, lines 177-186 *)
Definition multi_detect (pts : nat) (l : list point) : nat := flag (negb (Nat.ltb (length l) pts)).
(** _multi_color_detect, lines 282-291 *)
Definition multi_color (l : list point) : nat := flag (negb (Nat.ltb (length (bands l)) 2)).
(** _red_color_detect and _blue_color_detect, lines 293-337 *)
Definition n_band (b : string) (l : list point) : nat := length (filter (fun p => String.eqb (o_band p) b) l).
Definition red_detect (l : list point) : nat := flag (negb (Nat.ltb (n_band "i" l + n_band "z" l + n_band "y" l) 4)).
Definition blue_detect (l : list point) : nat := flag (negb (Nat.ltb (n_band "u" l + n_band "g" l + n_band "r" l) 4)).
(** np.argmax and np.argmin: the first of the extremes *)
Fixpoint faintest (p : point) (l : list point) : point :=
  match l with [] => p | q :: t => faintest (if rltb (o_mag p) (o_mag q) then q else p) t end.
Fixpoint brightest (p : point) (l : list point) : point :=
  match l with [] => p | q :: t => brightest (if rltb (o_mag q) (o_mag p) then q else p) t end.
Definition min_dt : R := 0.125.
Definition min_fade : R := 0.3.
Definition max_rise : R := -1.
(** the rate of one band, lines 251-272 *)
Definition rate_of (l : list point) : R :=
  match l with
  | [] => 0
  | p :: t => let f := faintest p t in let b := brightest p t in
              if rltb min_dt (Rabs (o_t f - o_t b)) && rltb (o_mag b + o_unc b) (o_mag f - o_unc f)
              then (o_mag f - o_mag b) / (o_t f - o_t b) else 0
  end.
Fixpoint list_max (x : R) (l : list R) : R := match l with [] => x | y :: t => list_max (Rmax x y) t end.
Fixpoint list_min (x : R) (l : list R) : R := match l with [] => x | y :: t => list_min (Rmin x y) t end.
(** [f in "izy"] and [f in "ugr"] of lines 247 and 249: substrings *)
Definition in_izy (f : string) : bool := existsb (String.eqb f) [""; "i"; "z"; "y"; "iz"; "zy"; "izy"]%string.
Definition in_ugr (f : string) : bool := existsb (String.eqb f) [""; "u"; "g"; "r"; "ug"; "gr"; "ugr"]%string.
Inductive selection := AllBands | RedBands | BlueBands.
Definition selected (s : selection) (f : string) : bool := match s with AllBands => true | RedBands => in_izy f | BlueBands => in_ugr f end.
(** _ztfrest_simple, lines 188-280, with its default thresholds; the order of set(filters) does not matter *)
Definition ztfrest (s : selection) (pts : nat) (l : list point) : result nat :=
  if Nat.ltb (length l) pts then Ok 0%nat
  else match map o_t l with
       | [] => Err ValueError
       | t0 :: ts =>
           if rltb (list_max t0 ts - list_min t0 ts) min_dt then Ok 0%nat
           else match map (fun f => rate_of (filter (fun p => String.eqb (o_band p) f) l)) (filter (selected s) (bands l)) with
                | [] => Ok 0%nat
                | r :: rs => Ok (flag (negb (rltb (list_max r rs) min_fade && rltb max_rise (list_min r rs))))
                end
       end.
Record kn_result := { k_multi : nat; k_ztf : nat; k_ztf_red : nat; k_ztf_blue : nat; k_color : nat; k_red : nat; k_blue : nat }.
(** KNePopMetric.run, lines 339-388.  Not modelled: the exported light curve. *)
Definition kn_run (curves : list curve) (ax1 : list (string * R)) (pts : nat) (mjd0 : R) (peak : R) (indx : nat) (ebv dist : R) (vs : list event_visit)
  : result kn_result :=
  do obs <- each (observed (apparent curves ax1 indx ebv (Some dist)) (mjd0 + peak)) vs;
  let l := filter kn_seen obs in
  do a <- ztfrest AllBands pts l;
  do r <- ztfrest RedBands pts l;
  do b <- ztfrest BlueBands pts l;
  Ok {| k_multi := multi_detect pts l; k_ztf := a; k_ztf_red := r; k_ztf_blue := b; k_color := multi_color l; k_red := red_detect l; k_blue := blue_detect l |}.

(** get_kne_filename, lines 16-76; [to_float] is float(text), None a ValueError *)
Section Files.
  Variable to_float : string -> option R.
  Definition field (parts : list string) (k : nat) (word : string) : result R :=
    do s <- arr_get parts k;
    match to_float (Maps_Model.replace_from word O s) with Some x => Ok x | None => Err ValueError end.
  (** the key of a file, line 43 *)
  Definition file_key (name : string) : string := last (Maps_Model.split "/" (Maps_Model.replace_from ".dat" O name)) EmptyString.
  (** the parameters of a file, lines 46-66.  float(text) without a word to drop is [replace_from] of a word that is not there. *)
  Definition file_params (key : string) : result (list (string * R)) :=
    let parts := Maps_Model.split "_" key in
    match parts with
    | kind :: _ =>
        if String.eqb kind "nsns" || String.eqb kind "nsbh" then
          do d <- field parts 2 "mejdyn"; do w <- field parts 3 "mejwind"; do p <- field parts 4 "phi";
          do s <- arr_get parts 5;
          do t <- match to_float s with Some x => Ok x | None => Err ValueError end;
          Ok [("mej_dyn", d); ("mej_wind", w); ("phi", p); ("theta", t)]%string
        else Ok []
    | [] => Ok []
    end.
  Fixpoint read_params (files : list string) (d : list (string * (string * list (string * R)))) : result (list (string * (string * list (string * R)))) :=
    match files with
    | [] => Ok d
    | f :: t => do p <- file_params (file_key f); read_params t (dset String.eqb d (file_key f) (f, p))
    end.
  (** np.isclose(a, b) *)
  Definition isclose (a b : R) : bool := rleb (Rabs (a - b)) (1 / 100000000 + 1 / 100000 * Rabs b).
  (** the list inside all(...), line 69: every variable is looked at; comparing the name of the file with a number is a TypeError *)
  Fixpoint matches (params : list (string * R)) (inj : list (string * R)) : result bool :=
    match inj with
    | [] => Ok true
    | (var, x) :: t =>
        if String.eqb var "filename" then Err TypeError
        else do a <- lookup params var; do r <- matches params t; Ok (isclose a x && r)
    end.
  Fixpoint match_sets (file : string) (params : list (string * R)) (sets : list (list (string * R))) : result (list string) :=
    match sets with
    | [] => Ok []
    | s :: t => do m <- matches params s; do r <- match_sets file params t; Ok (if m then file :: r else r)
    end.
  Fixpoint match_files (d : list (string * (string * list (string * R)))) (sets : list (list (string * R))) : result (list string) :=
    match d with
    | [] => Ok []
    | (_, (file, params)) :: t => do a <- match_sets file params sets; do r <- match_files t sets; Ok (a ++ r)
    end.
  Definition get_kne_filename (files : list string) (sets : option (list (list (string * R)))) : result (list string) :=
    match sets with
    | None | Some [] => Ok files
    | Some l => do d <- read_params files []; match_files d l
    end.
End Files.

(** generate_kn_pop_slicer, lines 449-462: the distance and the file of an event from random numbers [r] and [q] in [0, 1);
    np.random.uniform(low, high) is low + (high - low) * q *)
Definition rndm (a b r : R) : R := Rpower (a ^ 4 + (b ^ 4 - a ^ 4) * r) (1 / 4).
Definition file_index (n_files q : R) : Z := Int_part (0 + (n_files - 0) * q).
Definition peak_time (t_start t_end q : R) : R := t_start + (t_end - t_start) * q.

(** * Tidal disruption events, tdes_pop_metric.py *)
(** _pre_peak_detect, lines 96-108 *)
Definition pre_peak (pts : nat) (l : list point) : nat := flag (Nat.ltb pts (length (filter (fun p => rltb (o_t p) 0 && bright p) l))).
Definition early (l : list point) : list point := filter (fun p => rltb (o_t p) (-10) && bright p) l.
Definition near (l : list point) : list point := filter (fun p => rltb (Rabs (o_t p)) 5 && bright p) l.
Definition late (l : list point) : list point := filter (fun p => rltb 10 (o_t p) && rltb (o_t p) 30 && bright p) l.
(** _some_color_detect, lines 110-127 *)
Definition some_color (l : list point) : bool :=
  if Nat.ltb (length (early l)) 1 then false
  else if Nat.ltb (length (bands (near l))) 3 then false
  else negb (Nat.ltb (length (bands (late l))) 2).
Definition has_u (l : list string) : bool := existsb (String.eqb "u") l.
(** _some_color_pu_detect, lines 129-151 *)
Definition some_color_pu (l : list point) : bool :=
  if Nat.ltb (length (early l)) 1 then false
  else if Nat.ltb (length (bands (near l))) 2 then false
  else if negb (has_u (bands (near l))) then false
  else if Nat.ltb (length (bands (late l))) 2 then false
  else has_u (bands (late l)).
(** TdePopMetric.run, lines 153-168: pre_peak, some_color, some_color_pu *)
Definition tde_run (curves : list curve) (ax1 : list (string * R)) (pts : nat) (mjd0 peak : R) (indx : nat) (ebv : R) (vs : list event_visit)
  : result (nat * nat * nat) :=
  do l <- each (observed (apparent curves ax1 indx ebv None) (mjd0 + peak)) vs;
  Ok (pre_peak pts l, flag (some_color l), flag (some_color_pu l)).
(** the score of lines 258-272 and 296-310; tmin and tmax are Python numbers: dividing by zero raises *)
Definition score (tmin tmax : R) (l : list point) : result R :=
  if Req_EM_T (tmax - tmin) 0 then Err ZeroDivisionError
  else Ok (INR (length (filter (fun p => rltb tmin (o_t p) && rltb (o_t p) tmax && bright p) l)) / (tmax - tmin)).
(** TdePopMetricQuality.run, lines 242-326 *)
Definition quality (criterion : list point -> bool) (tmin tmax : R) (l : list point) : result R := if criterion l then score tmin tmax l else Ok 0.
Definition tde_quality_run (curves : list curve) (ax1 : list (string * R)) (tmin tmax mjd0 peak : R) (indx : nat) (ebv : R) (vs : list event_visit)
  : result (R * R) :=
  do l <- each (observed (apparent curves ax1 indx ebv None) (mjd0 + peak)) vs;
  do a <- quality some_color tmin tmax l;
  do b <- quality some_color_pu tmin tmax l;
  Ok (a, b).

(** * X-ray binaries, xrb_metrics.py *)
Record outburst := { b_rise : R; b_decay : R; b_amplitude : R; b_duration : R; b_abs : list (string * R) }.
(** fred, lines 137-155, after the start; at the start itself the exponential is 0 *)
Definition fred (t amplitude rise decay : R) : R :=
  if Req_EM_T t 0 then 0 else amplitude * exp (2 * sqrt (rise / decay)) * exp (- rise / t - t / decay).
(** lightcurve, lines 157-198: [None] is +infinity, the magnitude of no flux at the start *)
Definition xrb_mag (b : outburst) (t : R) (band : string) : result (option R) :=
  if rleb 0 t && rleb t (b_duration b) then
    do m <- lookup (b_abs b) band;
    Ok (if Req_EM_T t 0 then None else Some (m + -2.5 * log10 (fred t (b_amplitude b) (b_rise b) (b_decay b))))
  else Ok (Some 99).
(** dust and distance (kpc), lines 244-247 and 402-406 *)
Definition dimmed (ax1 : list (string * R)) (band : string) (ebv dist : R) (m : option R) : result (option R) :=
  do a <- lookup ax1 band;
  Ok match m with Some x => Some (x + a * ebv + (5 * log10 (dist * 1000) - 5)) | None => None end.
Definition xrb_apparent (ax1 : list (string * R)) (b : outburst) (ebv dist t : R) (band : string) : result (option R) :=
  do m <- xrb_mag b t band; dimmed ax1 band ebv dist m.
Definition depths : list (string * R) := [("u", 23.9); ("g", 25); ("r", 24.7); ("i", 24); ("z", 23.3); ("y", 22.1)]%string.
(** detectable_duration, lines 200-262, on the [times] of np.linspace, which increase; [None] is (nan, nan) *)
Definition visible_in (ax1 : list (string * R)) (b : outburst) (ebv dist : R) (times : list R) (band : string) (depth : R) : result (list R) :=
  do mags <- each (fun t => xrb_apparent ax1 b ebv dist t band) times;
  Ok (map fst (filter (fun p => match snd p with Some m => rleb m depth | None => false end) (combine times mags))).
Definition widen (range : option (R * R)) (seen : list R) : option (R * R) :=
  match seen with
  | [] => range
  | x :: t => let y := last t x in
              match range with
              | None => Some (x, y)
              | Some (a, z) => Some (if rltb x a then x else a, if rleb z y then y else z)
              end
  end.
Fixpoint duration_loop (ax1 : list (string * R)) (b : outburst) (ebv dist : R) (times : list R) (bs : list (string * R)) (range : option (R * R))
  : result (option (R * R)) :=
  match bs with
  | [] => Ok range
  | (f, d) :: t => do seen <- visible_in ax1 b ebv dist times f d; duration_loop ax1 b ebv dist times t (widen range seen)
  end.
Definition detectable_duration (ax1 : list (string * R)) (b : outburst) (ebv dist : R) (times : list R) : result (option (R * R)) :=
  duration_loop ax1 b ebv dist times depths None.

(** XRBPopMetric, lines 327-443 *)
Record xrb_result := { x_possible : bool; x_ever : bool; x_early : bool; x_number : nat; x_mean : option R }.
(** np.diff; the sort of line 373 does not change the mean but for rounding *)
Fixpoint steps (l : list R) : list R := match l with a :: ((b :: _) as t) => (b - a) :: steps t | _ => [] end.
(** the times of the detections, lines 395-409 *)
Definition xrb_seen (ax1 : list (string * R)) (b : outburst) (ebv dist start : R) (vs : list event_visit) : result (list R) :=
  do ms <- each (fun v => xrb_apparent ax1 b ebv dist (e_mjd v - start) (e_band v)) vs;
  Ok (map (fun p => e_mjd (fst p) - start) (filter (fun p => match snd p with Some m => rltb m (e_m5 (fst p)) | None => false end) (combine vs ms))).
(** [range] is what detectable_duration gave; a mean of [None] is nan *)
Definition xrb_run (ax1 : list (string * R)) (pts pts_early : nat) (t_early mjd0 : R) (b : outburst) (ebv dist start : R) (range : option (R * R))
    (vs : list event_visit) : result xrb_result :=
  do ts <- xrb_seen ax1 b ebv dist (mjd0 + start) vs;
  let n := length ts in
  Ok {| x_possible := match range with Some _ => true | None => false end;
        x_ever := Nat.leb pts n;
        x_early := Nat.leb pts_early (length (filter (fun t => rleb t t_early) ts));
        x_number := n;
        x_mean := if Nat.ltb 1 n
                  then match range with
                       | Some (a, z) => let d := steps (a :: ts ++ [z]) in Some (rsum d / INR (length d))
                       | None => None
                       end
                  else Some (-999) |}.
(** reduce_mean_time_between_detections, lines 457-462 *)
Definition reduce_mean (badval : R) (m : option R) : option R :=
  match m with Some x => if rltb x 0 then Some badval else Some x | None => None end.

(** * Pairs of visits *)
(** PrestoColorKNePopMetric._presto_color_detect, presto_color_kne_pop_metric.py:202-228 *)
Definition counts_of (l : list string) : list nat := map (fun f => count_occ string_dec l f) (nodup string_dec l).
Definition presto_detect (n : nat) (filters : list string) : nat :=
  flag (negb (Nat.ltb n 3) && negb (Nat.ltb (length (nodup string_dec filters)) 2) && existsb (Nat.leb 2) (counts_of filters)).

(** FilterPairTGapsMetric, filter_pair_t_gaps_metric.py *)
(** the times of the visits used, lines 110-114, of a slice in the order of time, line 181 *)
Definition used (lim : list (string * R)) (f : string) (vs : list event_visit) : result (list R) :=
  do m <- lookup lim f; Ok (Small_Model.rsort (map e_mjd (filter (fun v => String.eqb (e_band v) f && rltb m (e_m5 v)) vs))).
(** the lower triangle of the differences without zeros, lines 125-132: each visit with those before it *)
Fixpoint before_gaps (earlier : list R) (l : list R) : list R :=
  match l with [] => [] | x :: t => filter (fun d => negb (if Req_EM_T d 0 then true else false)) (map (fun y => Rabs (x - y)) earlier) ++ before_gaps (earlier ++ [x]) t end.
(** lines 135-145 *)
Definition near_gaps (dtmax : R) (l0 l1 : list R) : list R :=
  flat_map (fun x => map (fun y => Rabs (y - x)) (filter (fun y => rleb (x - dtmax) y && rleb y (x + dtmax)) l1)) l0.
Definition all_gaps (lim : list (string * R)) (dtmax : R) (f0 f1 : string) (vs : list event_visit) : result (list R) :=
  do l0 <- used lim f0 vs; do l1 <- used lim f1 vs;
  Ok (if String.eqb f0 f1 then before_gaps [] l0 else near_gaps dtmax l0 l1).
(** lines 146-175: the gaps to the nearest visits; [above] and [below] are the masked maximum and minimum of the differences, which
    numpy refuses along an axis of length 0 when the other is not *)
Definition above (x : R) (l : list R) : list R := match filter (rltb x) l with [] => [] | y :: t => [list_min y t - x] end.
Definition below (x : R) (l : list R) : list R := match filter (fun y => rltb y x) l with [] => [] | y :: t => [x - list_max y t] end.
Definition nearest_gaps (lim : list (string * R)) (f0 f1 : string) (vs : list event_visit) : result (list R) :=
  do l0 <- used lim f0 vs; do l1 <- used lim f1 vs;
  if String.eqb f0 f1 then Ok (steps l0)
  else match l0, l1 with
       | _ :: _, [] => Err ValueError
       | _, _ => Ok (flat_map (fun x => above x l1) l0 ++ flat_map (fun x => below x l1) l0)
       end.
(** np.histogram: half open bins but for the last *)
Fixpoint histogram (edges l : list R) : list nat :=
  match edges with
  | a :: ((b :: r) as t) => length (filter (fun x => rleb a x && match r with [] => rleb x b | _ => rltb x b end) l) :: histogram t l
  | _ => []
  end.
(** line 202: [None] is a division by a standard deviation of 0 *)
Definition variance (l : list R) : R := let m := rsum l / INR (length l) in rsum (map (fun x => (x - m) * (x - m)) l) / INR (length l).
Definition pair_fom (clip : nat) (h : list nat) : option R :=
  let s := sqrt (variance (map (fun n => INR (Nat.min n clip)) h)) in
  if Req_EM_T s 0 then None else Some (INR (fold_right Nat.add 0%nat h) / s).
(** the two bands of a pair of letters, line 186 *)
Definition letter (c : ascii) : string := String c EmptyString.
Definition split_pair (pair : string) : result (string * string) :=
  match pair with String a (String b _) => Ok (letter a, letter b) | _ => Err IndexError end.
(** run, lines 179-208.  The sum of the numbers: [Some] of a sum, [None] when one of them is infinite.  [dtmax] is the largest of bins_diff. *)
Definition gaps_of (allgaps : bool) (lim : list (string * R)) (dtmax : R) (f0 f1 : string) (vs : list event_visit) : result (list R) :=
  if allgaps then all_gaps lim dtmax f0 f1 vs else nearest_gaps lim f0 f1 vs.
Fixpoint fom_run (allgaps : bool) (lim : list (string * R)) (bins_same bins_diff : list R) (dtmax : R) (clips : list (string * nat)) (pairs : list string)
    (vs : list event_visit) : result (option R) :=
  match pairs with
  | [] => Ok (Some 0)
  | two :: t =>
      do p <- split_pair two;
      do gaps <- gaps_of allgaps lim dtmax (fst p) (snd p) vs;
      let h := histogram (if String.eqb (fst p) (snd p) then bins_same else bins_diff) gaps in
      do v <- (if existsb (fun n => negb (Nat.eqb n 0)) h then do c <- lookup clips two; Ok (pair_fom c h) else Ok (Some 0));
      do r <- fom_run allgaps lim bins_same bins_diff dtmax clips t vs;
      Ok match v, r with Some x, Some y => Some (x + y) | _, _ => None end
  end.
