(** Notions used to state the properties of the moving object metrics, independent of the model's helpers. *)
From Verif Require Import Base Technical_Spec MoObs_Model.
From Coq Require Import Sorted Permutation QArith Qabs.
Open Scope Z_scope.

(** the object is detected in an observation: its signal to noise reaches the limit, or without a limit it is flagged *)
Definition detected (lim : option Z) (o : obs) : Prop := match lim with Some s => s <= m_snr o | None => 0 < m_vis o end.
(** observations come in order of time, at most one at a time, and nights are numbered in order of time *)
Definition in_time_order (l : list obs) : Prop :=
  StronglySorted (fun a b => m_mjd a < m_mjd b) l /\ StronglySorted (fun a b => m_night a <= m_night b) l.
(** times of the detections of a night *)
Definition night_times (lim : option Z) (l : list obs) (g : Z) : list Z :=
  map m_mjd (filter (fun o => m_night o =? g) (filter (visible lim) l)).
(** the time from the first to the last element of a list of times *)
Definition span (ts : list Z) (d : Z) : Prop :=
  exists a b, nth_error ts 0 = Some a /\ nth_error ts (length ts - 1) = Some b /\ d = b - a.
(** a night's detections make a tracklet: there are enough of them and all of them, or enough successive ones, are spread
    over a time between the limits *)
Definition tracklet (p : dparams) (ts : list Z) : Prop :=
  n_obs_night p <= Z.of_nat (length ts) /\
  exists pre seg post d, ts = pre ++ seg ++ post /\ (seg = ts \/ Z.of_nat (length seg) = n_obs_night p) /\ span seg d /\ t_min p <= d <= t_max p.
(** [gs] lists the nights with a tracklet *)
Definition tracklet_nights (p : dparams) (l : list obs) (gs : list Z) : Prop :=
  StronglySorted Z.lt gs /\ forall g, In g gs <-> tracklet p (night_times (d_lim p) l g).
(** nights of a list between two nights, both included *)
Definition between (a b : Z) (gs : list Z) : list Z := filter (fun g => (a <=? g) && (g <=? b)) gs.
(** nights that start a discovery opportunity: enough nights with tracklets no later than the window *)
Definition opportunities (p : dparams) (gs : list Z) : list Z :=
  filter (fun g => n_nights_window p <=? Z.of_nat (length (between g (g + t_window p) gs))) gs.

(** * Colours and light curves *)
(** an observation counts for the weight of a band: above the limit, or without a limit flagged *)
Definition weighed (lim : option Z) (o : obs) : bool := match lim with Some s => s <? m_snr o | None => negb (m_vis o =? 0) end.
(** the signal to noise of the observations of a band, each capped *)
Definition band_weight (lim : option Z) (cap : Z) (f : string) (l : list obs) : Z :=
  fold_right (fun o a => (if String.eqb (m_band o) f && weighed lim o then Z.min (m_snr o) cap else 0) + a) 0 l.
(** number of detections in a band *)
Definition band_detections (lim : option Z) (f : string) (l : list obs) : Z :=
  Z.of_nat (count (fun o => visible lim o && String.eqb (m_band o) f) l).
(** the angle between two longitudes in degrees *)
Definition lon_apart (a b : Z) : Z := let d := (a - b) mod 360 in Z.min d (360 - d).
(** the mean and the mean absolute deviation of a list of numbers *)
Definition qtotal (l : list Q) : Q := fold_right Qplus 0%Q l.
Definition qavg (l : list Q) : Q := (qtotal l / inject_Z (Z.of_nat (length l)))%Q.
Definition mean_abs_dev (l : list Q) : Q := qavg (map (fun x => Qabs (x - qavg l)) l).

(** * Known objects *)
(** the period of a time has a limit on the magnitude *)
Definition period_limit (s1 s2 s3 : Z) (k1 k2 k3 k4 : kperiod) (t : Z) : Z :=
  if t <? s1 then k_thresh k1 else if t <? s2 then k_thresh k2 else if t <? s3 then k_thresh k3 else k_thresh k4.
(** an observation in which the object could have been found *)
Definition findable (elong s1 s2 s3 : Z) (k1 k2 k3 k4 : kperiod) (o : kobs) : Prop :=
  elong <= k_elong o /\ k_mag o <= period_limit s1 s2 s3 k1 k2 k3 k4 (k_mjd o).

(** twice the median: the two middle elements, which are the same one for an odd number *)
Definition median_twice (l : list Z) (m : Z) : Prop :=
  exists s, Permutation s l /\ StronglySorted Z.le s /\ m = nth ((length l - 1) / 2) s 0 + nth (length l / 2) s 0.
(** the difference of the extremes *)
Definition spread (l : list Z) (d : Z) : Prop := exists a b, In a l /\ In b l /\ d = b - a /\ forall x, In x l -> a <= x <= b.
(** the conditions on the longitudes and phases of the detections in one band *)
Definition invertible (lons phases : list Z) : Prop :=
  (exists m d, median_twice lons m /\ spread lons d /\ 90 <= d /\
     (inject_Z d / 8 <= mean_abs_dev (map (fun x => inject_Z ((2 * x - m) mod 720) / 2) lons))%Q) /\
  exists a b, In a phases /\ In b phases /\ 5 <= b - a.
(** the detections in a band that count *)
Definition counted (lim : option Z) (f : string) (l : list lobs) : list lobs :=
  filter (fun o => String.eqb (m_band (l_obs o)) f && weighed lim (l_obs o) && (0 <? m_snr (l_obs o))) l.
