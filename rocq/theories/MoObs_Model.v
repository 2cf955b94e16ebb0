(** Model of maf/metrics/mo_metrics.py: the moving object metrics.  Times, nights, signal to noise ratios, magnitudes and
    angles are integers (ticks).  The argument of a metric is the list of observations of one object, after the stackers;
    the H value and, except for the orbit position, the orbit are not used by the code.  The value None is badval where
    badval is not a number. *)
From Verif Require Import Base Technical_Model.
From Coq Require Import QArith.
Open Scope Z_scope.

(** the columns of an observation that the metrics read *)
Record obs := { m_snr : Z; m_vis : Z; m_night : Z; m_mjd : Z; m_band : string; m_vel : Z; m_seeing : Z; m_exp : Z }.
Definition no_obs : obs := {| m_snr := 0; m_vis := 0; m_night := 0; m_mjd := 0; m_band := ""; m_vel := 0; m_seeing := 0; m_exp := 1 |}.

(** _set_vis, lines 33-38 (and 241-246): which observations count as detections *)
Definition visible (snr_limit : option Z) (o : obs) : bool :=
  match snr_limit with Some s => s <=? m_snr o | None => 0 <? m_vis o end.
(** the observations selected with the indices of np.where *)
Definition vis_obs (lim : option Z) (l : list obs) : list obs := filter (visible lim) l.

(** * Counts *)
(** NObsMetric.run, lines 240-246 *)
Definition n_obs (lim : option Z) (l : list obs) : Z := Z.of_nat (length (vis_obs lim l)).
(** NObsNoSinglesMetric.run, lines 265-273.  np.bincount needs non-negative nights; the bins are 0 to the largest night *)
Definition n_obs_no_singles (lim : option Z) (l : list obs) : result Z :=
  let nights := map m_night (vis_obs lim l) in
  match zmax_list nights with
  | None => Ok 0
  | Some top =>
      if existsb (fun n => n <? 0) nights then Err ValueError
      else
        let ncounts := map (fun b => Z.of_nat (length (filter (Z.eqb b) nights))) (zrange 0 top) in
        Ok (zsum (filter (fun c => 1 <? c) ncounts))
  end.
(** NNightsMetric.run, lines 292-297 *)
Definition n_nights (lim : option Z) (l : list obs) : Z := Z.of_nat (length (unique_z (map m_night (vis_obs lim l)))).
(** ObsArcMetric.run, lines 317-322 *)
Definition obs_arc (lim : option Z) (l : list obs) : Z :=
  let t := map m_mjd (vis_obs lim l) in
  match zmax_list t, zmin_list t with Some b, Some a => b - a | _, _ => 0 end.

(** * numpy helpers *)
(** np.searchsorted in a non-decreasing array: the number of smaller (side left) or not greater (side right) elements.
    For arrays that are not sorted numpy's bisection gives other numbers, which are not modelled. *)
Definition ss_left (l : list Z) (x : Z) : nat := length (filter (fun y => y <? x) l).
Definition ss_right (l : list Z) (x : Z) : nat := length (filter (fun y => y <=? x) l).
(** np.roll(l, s): element i of the result is element i - s modulo the length *)
Definition roll (s : Z) (l : list Z) : list Z :=
  map (fun i => nth (Z.to_nat ((Z.of_nat i - s) mod Z.of_nat (length l))) l 0) (seq 0 (length l)).
Definition zsub (a b : list Z) : list Z := map (fun p => fst p - snd p) (combine a b).
(** np.argsort: positions in increasing order of key.  Equal keys keep their order here; numpy does not promise it *)
Fixpoint insert_key (keys : list Z) (i : nat) (l : list nat) : list nat :=
  match l with [] => [i] | j :: t => if nth i keys 0 <=? nth j keys 0 then i :: l else j :: insert_key keys i t end.
Definition argsort (keys : list Z) : list nat := fold_right (insert_key keys) [] (seq 0 (length keys)).
(** l[ix] for an array of indices *)
Definition take_z (l : list Z) (ix : list nat) : list Z := map (fun i => nth i l 0) ix.
Definition take_n (l : list nat) (ix : list nat) : list nat := map (fun i => nth i l 0%nat) ix.
(** np.where(p)[0] *)
Definition where_z (p : Z -> bool) (l : list Z) : list nat := filter (fun i => p (nth i l 0)) (seq 0 (length l)).
(** l[i:j] *)
Definition slice_z (l : list Z) (i j : nat) : list Z := firstn (j - i) (skipn i l).

(** * DiscoveryMetric, lines 325-475 *)
Record dparams := { n_obs_night : Z; t_min : Z; t_max : Z; n_nights_window : Z; t_window : Z; d_lim : option Z }.
(** n[np.where(obs_per_night >= self.n_obs_per_night)], lines 409-420 *)
Definition obs_per_night (nights : list Z) : list Z :=
  let n_idx := map (fun g => Z.of_nat (ss_left nights g)) (unique_z nights) in
  tl (zsub n_idx (roll 1 n_idx)) ++ [Z.of_nat (length nights) - last n_idx 0].
Definition nights_with (k : Z) (nights : list Z) : list Z :=
  map fst (filter (fun p => k <=? snd p) (combine (unique_z nights) (obs_per_night nights))).
Section Discovery.
  Variable p : dparams.
  Definition in_span (d : Z) : bool := (t_min p <=? d) && (d <=? t_max p).
  (** lines 440-445: the second look at a night; [i] and [j] come from vis_sort, line 440 *)
  Definition look_again (times : list Z) (i j : nat) : bool :=
    let t := slice_z times i (j + 1) in
    let dtimes := removelast (zsub (roll (1 - n_obs_night p) t) t) in
    existsb in_span dtimes.
  (** lines 421-445: whether tracklets can be made on night [g] *)
  Definition night_good (vis_sort : list nat) (times nights : list Z) (g : Z) : bool :=
    let i := ss_left nights g in
    let j := (ss_right nights g - 1)%nat in
    let dt := nth j times 0 - nth i times 0 in
    let good := in_span dt in
    let check := negb good && (n_obs_night p <? Z.of_nat j + 1 - Z.of_nat i) && (t_max p <? dt) in
    good || (check && look_again times (nth i vis_sort 0%nat) (nth j vis_sort 0%nat)).
  (** the result of run: the first opportunity's start and end indices, if any, and the number of opportunities *)
  Record disc := { d_start : option nat; d_end : option nat; d_chances : Z }.
  (** run, lines 399-475; None is badval *)
  Definition discovery (l : list obs) : option disc :=
    let v := vis_obs (d_lim p) l in
    if Nat.eqb (length v) 0 then None
    else
      let vis_sort := argsort (map m_mjd v) in
      let nights := take_z (map m_night v) vis_sort in
      let times := take_z (map m_mjd v) vis_sort in
      let good := filter (night_good vis_sort times nights) (nights_with (n_obs_night p) nights) in
      let good_idx := take_n vis_sort (map (ss_left nights) good) in
      let good_idx_ends := take_n vis_sort (map (fun g => (ss_right nights g - 1)%nat) good) in
      if Z.of_nat (length good_idx) <? n_nights_window p then None
      else
        let gn := take_z (map m_night v) good_idx in
        let delta := zsub (roll (1 - n_nights_window p) gn) gn in
        let starts := where_z (fun d => (0 <=? d) && (d <=? t_window p)) delta in
        let ends := map (fun s => last (where_z (fun n => n - nth s gn 0 <=? t_window p) gn) 0%nat) starts in
        Some {| d_start := match starts with [] => None | s :: _ => Some (nth s good_idx 0%nat) end;
                d_end := match ends with [] => None | e :: _ => Some (nth e good_idx_ends 0%nat) end;
                d_chances := Z.of_nat (length starts) |}.
  (** DiscoveryNObsMetric.run, lines 534-540 *)
  Definition disc_n_obs (r : disc) : Z :=
    match d_start r, d_end r with Some s, Some e => Z.of_nat e - Z.of_nat s | _, _ => 0 end.
  (** DiscoveryTimeMetric.run with t_start None, lines 561-573; None is badval.  DiscoveryDistanceMetric, RadecMetric and
      EclonlatMetric (lines 594-674) read other columns at the same position. *)
  Definition disc_time (l : list obs) (r : disc) : option Z :=
    match d_start r with
    | None => None
    | Some s => let v := vis_obs (d_lim p) l in
                if Nat.eqb (length v) 0 then None else nth_error (take_z (map m_mjd v) (argsort (map m_mjd v))) s
    end.
End Discovery.
(** the attributes that DiscoveryMetric sets before it builds its child metrics (lines 378-388), and what
    DiscoveryVelocityMetric.__init__ (lines 692-695) asks for; DiscoveryTimeMetric.__init__ is at lines 555-559 *)
Definition discovery_attrs : list string := ["snr_limit"]%string.
Definition getattr (attrs : list string) (a : string) : result unit :=
  if existsb (String.eqb a) attrs then Ok tt else Err AttributeError.
Definition velocity_init (attrs : list string) : result unit := getattr attrs "snrLimit".
Definition time_init (attrs : list string) : result unit := getattr attrs "snr_limit".

(** * MagicDiscoveryMetric.run, lines 869-879 *)
Definition magic (k w : Z) (lim : option Z) (l : list obs) : Z :=
  let vis := filter (fun i => visible lim (nth i l no_obs)) (seq 0 (length l)) in
  if Z.of_nat (length vis) <? k then 0
  else
    let t_nights := take_z (sort_z (map m_night l)) vis in
    let n_disc := filter (fun u => k <=? Z.of_nat (ss_left (map (fun t => t - w) t_nights) u) - Z.of_nat (ss_left t_nights u)) (unique_z t_nights) in
    Z.of_nat (length n_disc).

(** * High velocities, lines 904-975 *)
(** velocity >= 24.0 * psf_factor * seeing / exposure time *)
Definition fast (psf : Q) (o : obs) : bool :=
  Qle_bool (24 * psf * inject_Z (m_seeing o) / inject_Z (m_exp o)) (inject_Z (m_vel o)).
(** HighVelocityMetric.run *)
Definition high_velocity (psf : Q) (lim : option Z) (l : list obs) : Z := Z.of_nat (length (filter (fast psf) (vis_obs lim l))).
(** HighVelocityNightsMetric.run, lines 951-975; [badval] is the badval of the metric, 0 unless set *)
Definition high_velocity_nights (psf : Q) (k badval : Z) (lim : option Z) (l : list obs) : Z :=
  let v := vis_obs lim l in
  if Nat.eqb (length v) 0 then badval
  else
    let h := filter (fast psf) v in
    if Nat.eqb (length h) 0 then 0
    else match nights_with k (map m_night h) with
         | [] => badval
         | g :: _ => match filter (fun o => m_night o =? g) l with [] => badval | o :: _ => m_mjd o end
         end.

(** * ActivityOverTimeMetric, lines 730-750 *)
(** np.arange(0, survey_years * 365 + window / 2, window): multiples of the window below the end, in half days so that
    the half window is a whole number *)
Definition arange_n (stop step : Z) : nat := Z.to_nat ((stop + step - 1) / step).
Definition n_edges (survey_days window : Z) : nat := arange_n (2 * survey_days + window) (2 * window).
(** np.histogram: bin b is [b w, (b+1) w), the last one closed *)
Definition in_bin (w : Z) (nb b : nat) (x : Z) : bool :=
  (Z.of_nat b * w <=? x) && ((x <? Z.of_nat (S b) * w) || (Nat.eqb (S b) nb && (x =? Z.of_nat (S b) * w))).
Definition n_active (w : Z) (nb : nat) (xs : list Z) : nat :=
  length (filter (fun b => existsb (in_bin w nb b) xs) (seq 0 nb)).
(** run: the number of windows with observations and the number that it is divided by; None is badval *)
Definition activity_over_time (survey_days window : Z) (lim : option Z) (l : list obs) : option (Z * Z) :=
  let v := vis_obs lim l in
  if Nat.eqb (length v) 0 then None
  else Some (Z.of_nat (n_active window (n_edges survey_days window - 1) (map m_night v)), Z.of_nat (n_edges survey_days window)).

(** * Colours and light curves *)
(** the clipped signal to noise, lines 1041-1045 and 1139-1143 *)
Definition clip_snr (lim : option Z) (snr_max : Z) (o : obs) : Z :=
  let c := Z.min (m_snr o) snr_max in
  match lim with
  | Some s => if m_snr o <=? s then 0 else c
  | None => if m_vis o =? 0 then 0 else c
  end.
(** np.sum(clip_snr[match]) for a band *)
Definition snr_sum (lim : option Z) (snr_max : Z) (f : string) (l : list obs) : Z :=
  zsum (map (clip_snr lim snr_max) (filter (fun o => String.eqb (m_band o) f) l)).
Definition six : list string := ["u"; "g"; "r"; "i"; "z"; "y"]%string.
Definition five : list string := ["g"; "r"; "i"; "z"; "y"]%string.
Definition mem (f : string) (s : list string) : bool := existsb (String.eqb f) s.
(** ColorAsteroidMetric.run, lines 1138-1192; the sum is divided by snr_max and compared with weight_det *)
Definition color_flag (have : list string) : Z :=
  if Nat.eqb (length have) 0 then 0
  else if forallb (fun f => mem f have) six then 4
  else if forallb (fun f => mem f have) five then 3
  else if Nat.eqb (length (filter (fun f => mem f have) five)) 4 then 2
  else if mem "g" have then (if (mem "r" have || mem "i" have) && (mem "z" have || mem "y" have) then 1 else 0)
  else 0.
Definition color_asteroid (weight snr_max : Z) (lim : option Z) (l : list obs) : Z :=
  if negb (existsb (fun o => 0 <? clip_snr lim snr_max o) l) then 0
  else color_flag (filter (fun f => negb (Qle_bool (inject_Z (snr_sum lim snr_max f l) / inject_Z snr_max) (inject_Z weight))) six).
(** LightcurveColorOuterMetric.run, lines 1254-1281; sets of bands are lists without repetition *)
Definition n_band (lim : option Z) (f : string) (l : list obs) : Z :=
  Z.of_nat (length (filter (fun o => String.eqb (m_band o) f) (vis_obs lim l))).
Definition color_outer (num_req num_sec : Z) (filterlist : list string) (lim : option Z) (l : list obs) : Z :=
  if Nat.eqb (length (vis_obs lim l)) 0 then 0
  else
    let fs := nodup string_dec filterlist in
    let lightcurves := filter (fun f => num_req <=? n_band lim f l) fs in
    let colors := filter (fun f => num_sec <=? n_band lim f l) fs in
    let flag := Z.of_nat (length lightcurves) in
    if Nat.eqb (length (filter (fun f => negb (mem f lightcurves)) colors)) 0 then flag
    else if Nat.eqb (length lightcurves) 0 then 0 else flag + 1.
(** InstantaneousColorMetric.run, lines 1318-1341; [d_time] is n_hours in ticks *)
Definition instant_color (n_pairs snr_lim d_time : Z) (b1 b2 : string) (l : list obs) : Z :=
  let v := filter (fun o => snr_lim <=? m_snr o) l in
  if Z.of_nat (length v) <? n_pairs * 2 then 0
  else
    let t1 := map m_mjd (filter (fun o => String.eqb (m_band o) b1) v) in
    let t2 := map m_mjd (filter (fun o => String.eqb (m_band o) b2) v) in
    if Nat.eqb (length t1) 0 || Nat.eqb (length t2) 0 then 0
    else
      let dt_pairs := map (fun t => t - nth (ss_right t1 t - 1)%nat t1 0) t2 in
      if n_pairs <=? Z.of_nat (length (filter (fun d => d <? d_time) dt_pairs)) then 1 else 0.

(** * LightcurveInversionAsteroidMetric.run, lines 1040-1083 *)
(** an observation with its ecliptic longitude and phase angle in degrees *)
Record lobs := { l_obs : obs; l_lon : Z; l_phase : Z }.
(** twice np.median: the middle element or the sum of the two middle ones *)
Definition median2 (l : list Z) : Z :=
  let s := sort_z l in
  let n := length l in
  if Nat.even n then nth (n / 2 - 1) s 0 + nth (n / 2) s 0 else 2 * nth (n / 2) s 0.
(** twice the centred longitudes: (ec_l - median) % 360 *)
Definition centred2 (l : list Z) : list Z := map (fun x => (2 * x - median2 l) mod 720) l.
(** a_dev is this divided by 2 n^2: the sum over the elements of |n x - sum|, from the doubled longitudes *)
Definition dev_num (l : list Z) : Z :=
  let c := centred2 l in
  let n := Z.of_nat (length l) in
  zsum (map (fun x => Z.abs (n * x - zsum c)) c).
Definition range_z (l : list Z) : Z := match zmax_list l, zmin_list l with Some b, Some a => b - a | _, _ => 0 end.
(** d_l >= 90 and a_dev >= d_l / 8 and dp >= 5, line 1079 *)
Definition inversion_ok (lons phases : list Z) : bool :=
  let n := Z.of_nat (length lons) in
  (90 <=? range_z lons) && (range_z lons * (n * n) <=? 4 * dev_num lons) && (5 <=? range_z phases).
Definition inversion (weight snr_max : Z) (lim : option Z) (filterlist : list string) (l : list lobs) : Z :=
  if negb (existsb (fun o => 0 <? clip_snr lim snr_max (l_obs o)) l) then 0
  else if existsb (fun f =>
            let m := filter (fun o => String.eqb (m_band (l_obs o)) f) l in
            let vis := filter (fun o => 0 <? clip_snr lim snr_max (l_obs o)) m in
            Qle_bool (inject_Z weight) (inject_Z (zsum (map (fun o => clip_snr lim snr_max (l_obs o)) m)) / inject_Z snr_max)
            && inversion_ok (map l_lon vis) (map l_phase vis)) filterlist then 1 else 0.

(** * KnownObjectsMetric, lines 1435-1495 *)
Record kobs := { k_mjd : Z; k_elong : Z; k_mag : Z }.
Record kperiod := { k_thresh : Z; k_eff : Z }.
(** _pick_obs: one random number for each potential observation, kept when it is at most eff; [draw] is the stream of
    random numbers, of which this call reads as many as there are times *)
Definition pick_obs (draw : list Z) (times : list Z) (eff : Z) : option Z :=
  zmin_list (map fst (filter (fun q => snd q <=? eff) (combine times draw))).
(** one of the four periods: observations in it that are far enough from the Sun and bright enough *)
Definition over_peak (elong : Z) (lo hi : option Z) (thresh : Z) (l : list kobs) : list Z :=
  map k_mjd (filter (fun o => (k_mag o <=? thresh))
    (filter (fun o => match lo with Some a => a <=? k_mjd o | None => true end
                      && match hi with Some b => k_mjd o <? b | None => true end && (elong <=? k_elong o)) l)).
Fixpoint known_periods (elong : Z) (ps : list (option Z * option Z * kperiod)) (draw : list Z) (l : list kobs) : option Z :=
  match ps with
  | [] => None
  | (lo, hi, k) :: rest =>
      let ts := over_peak elong lo hi (k_thresh k) l in
      match pick_obs (firstn (length ts) draw) ts (k_eff k) with
      | Some t => Some t
      | None => known_periods elong rest (skipn (length ts) draw) l
      end
  end.
(** run; the switch times are in order, the badval is int(t_switch3) + 365 * 1000 *)
Definition known_objects (elong s1 s2 s3 : Z) (k1 k2 k3 k4 : kperiod) (badval : Z) (draw : list Z) (l : list kobs) : Z :=
  match known_periods elong [(None, Some s1, k1); (Some s1, Some s2, k2); (Some s2, Some s3, k3); (Some s3, None, k4)] draw l with
  | Some t => t
  | None => badval
  end.
