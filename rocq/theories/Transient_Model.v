(** Model of maf/metrics/transient_metrics.py (TransientMetric).  Times, magnitudes and slopes are integers in small units;
    the transient duration is n_phase_check times [unit], so that all phase shifts are integers too; the survey duration is
    given in the same unit of time (the code has it in years).  The light curves of the visits are grouped by number
    directly, where the code sorts by time and uses searchsorted, which gives the same groups. *)
From Verif Require Import Base Technical_Model.
Open Scope Z_scope.

Record visit := { vt : Z; vm5 : Z; vband : string }.
(** the parameters of the constructor, lines 82-136 *)
Record params := {
  unit : Z; n_phase : nat; peak_time : Z; rise_slope : Z; decline_slope : Z; peaks : list (string * Z);
  survey : Z; survey_start : option Z; m5_plus : Z; n_pre_peak : Z; n_per_lc : Z; n_filters : Z; partial_lc : bool }.
Definition duration (p : params) : Z := Z.of_nat (n_phase p) * unit p.
(** light_curve, lines 138-162, at one time and band *)
Definition light_curve (p : params) (time : Z) (band : string) : Z :=
  (if time <=? peak_time p then rise_slope p * time - rise_slope p * peak_time p else decline_slope p * (time - peak_time p)) +
  match dget String.eqb (peaks p) band with Some m => m | None => 0 end.
(** lines 199 and 202 *)
Definition phase_time (p : params) (start : Z) (i : nat) (v : visit) : Z := (vt v - start + Z.of_nat i * unit p) mod duration p.
Definition lc_number (p : params) (start : Z) (v : visit) : Z := (vt v - start) / duration p.
(** lines 210-211 *)
Definition bright (p : params) (start : Z) (i : nat) (v : visit) : bool :=
  light_curve p (phase_time p start i v) (vband v) <? vm5 v + m5_plus p.
(** lines 215-234 for one light curve [grp]: is one added to all of its points *)
Definition pre_ok (p : params) (start : Z) (i : nat) (grp : list visit) : bool :=
  (0 <? n_pre_peak p) &&
  (n_pre_peak p <=? Z.of_nat (length (filter (fun v => (phase_time p start i v <? peak_time p) && bright p start i v) grp))).
Definition det1 (p : params) (start : Z) (i : nat) (grp : list visit) (v : visit) : Z :=
  (if bright p start i v then 1 else 0) + (if pre_ok p start i grp then 1 else 0).
Definition multi (p : params) : bool := (1 <? n_per_lc p) || (1 <? n_filters p).
(** lines 251-257: the number of bands that add one to all the points of the light curve *)
Definition section (p : params) (start : Z) (i : nat) (v : visit) : Z := phase_time p start i v * n_per_lc p / duration p.
Definition bands_ok (p : params) (start : Z) (i : nat) (grp : list visit) : Z :=
  let points := filter (fun v => 0 <? det1 p start i grp v) grp in
  Z.of_nat (length (filter (fun f =>
    n_per_lc p <=? Z.of_nat (length (unique_z (map (section p start i) (filter (fun v => String.eqb (vband v) f) points)))))
    (nodup string_dec (map vband points)))).
Definition det2 (p : params) (start : Z) (i : nat) (grp : list visit) (v : visit) : Z :=
  det1 p start i grp v + (if multi p then bands_ok p start i grp else 0).
Definition thresh (p : params) : Z := 1 + (if 0 <? n_pre_peak p then 1 else 0) + (if multi p then n_filters p else 0).
Definition group (p : params) (start : Z) (visits : list visit) (g : Z) : list visit := filter (fun v => lc_number p start v =? g) visits.
Definition counted (p : params) (start : Z) (visits : list visit) (i : nat) (g : Z) : bool :=
  existsb (fun v => thresh p <=? det2 p start i (group p start visits g) v) (group p start visits g).
(** line 261 *)
Definition detected_lcs (p : params) (start : Z) (visits : list visit) (i : nat) : list Z :=
  filter (counted p start visits i) (unique_z (map (lc_number p start) visits)).
(** lines 184-187 *)
Definition max_lcs (p : params) : Z := if partial_lc p then (survey p + duration p - 1) / duration p else survey p / duration p.
(** run, lines 183-268: the number of light curves detected and the number possible, of which the ratio is returned;
    with a survey_start the local variable of that name is never assigned (lines 197-199) *)
Definition run (p : params) (visits : list visit) : result (Z * Z) :=
  match survey_start p, n_phase p with
  | Some _, S _ => Err UnboundLocalError
  | _, _ =>
    match zmin_list (map vt visits) with
    | None => Err ValueError
    | Some start =>
        Ok (zsum (map (fun i => Z.of_nat (length (detected_lcs p start visits i))) (seq 0 (n_phase p))),
            zsum (map (fun i => max_lcs p - (match i with O => 0 | S _ => 1 end)) (seq 0 (n_phase p))))
    end
  end.
