(** Model of maf_contrib/transient_ascii_sed_metric.py (TransientAsciiSEDMetric).  Times are integers in small units; the
    duration of the transient is num_phases_to_run times [unit], so that the shifts of the phases are integers too; the
    duration of the survey is in the same unit (the code has it in years).  The magnitudes that sncosmo gives for the
    redshifted spectrum are a function of the time since the start of the transient and of the band.  np.searchsorted, where it
    may be called with a first argument which is not in order, is an argument. *)
From Coq Require Import Reals.
From Verif Require Import Base Technical_Model Template_Model Astrom_Model.
Open Scope Z_scope.

Record avisit := { at_ : Z; am5 : R; aband : string }.
(** the parameters of the constructor, lines 93-146 and 176 *)
Record conf := {
  unit : Z; phases : nat; mags : Z -> string -> R; detect_snr : string -> option R; num_pre : Z; pre_time : Z;
  num_filters_arg : Z; filter_time : option Z; num_per : Z }.
Definition duration (c : conf) : Z := Z.of_nat (phases c) * unit c.
(** lines 144-145 *)
Definition num_filters (c : conf) : Z := if num_per c =? 0 then 0 else num_filters_arg c.
(** the attributes of the metric that stay from one slice to the next *)
Record state := { survey_duration : Z; survey_start : option Z }.

(** data_slice.sort(order=mjd_col), line 501: visits at the same time stay as they were *)
Fixpoint insert_time (v : avisit) (l : list avisit) : list avisit :=
  match l with [] => [v] | x :: t => if at_ v <=? at_ x then v :: l else x :: insert_time v t end.
Definition sort_time (l : list avisit) : list avisit := fold_right insert_time [] l.

(** lines 461-463 *)
Definition epoch (c : conf) (start : Z) (i : nat) (v : avisit) : Z := (at_ v - start + Z.of_nat i * unit c) mod duration c.
(** line 466, before transient_id_start is added *)
Definition number (c : conf) (start : Z) (v : avisit) : Z := (at_ v - start) / duration c.
(** a[i:j] *)
Definition slice {A} (i j : nat) (l : list A) : list A := firstn (j - i) (skipn i l).
(** np.searchsorted of a sequence in order, lines 474-476 *)
Definition left_of (l : list Z) (x : Z) : nat := length (filter (fun y => y <? x) l).
Definition right_of (l : list Z) (x : Z) : nat := length (filter (fun y => y <=? x) l).

(** make_lightcurve and evaluate_snr_thresholds, lines 221-258, 561-593, 629-630, for one visit; the loop over the bands of the
    slice raises when one of them has no threshold *)
Definition above (c : conf) (start : Z) (i : nat) (v : avisit) : bool :=
  match detect_snr c (aband v) with
  | Some s => rleb s (m52snr (Some (1/25)%R) (mags c (epoch c start i v) (aband v)) (am5 v))
  | None => false
  end.
Definition thresholds (c : conf) (vs : list avisit) : result Datatypes.unit :=
  if forallb (fun v => match detect_snr c (aband v) with Some _ => true | None => false end) vs then Ok tt else Err KeyError.

Section Search.
  (** np.searchsorted(a, keys, "right") *)
  Variable search : list Z -> list Z -> list nat.
  (** lines 330-345 *)
  Definition pre_ok (c : conf) (epochs : list Z) : bool := num_pre c <=? Z.of_nat (length (filter (fun e => e <? pre_time c) epochs)).
  (** lines 347-363 *)
  Definition sections_ok (c : conf) (epochs : list Z) : bool :=
    num_per c <=? Z.of_nat (length (unique_z (map (fun e => e * num_per c / duration c) epochs))).
  (** lines 365-390 *)
  Definition distinct (bands : list string) : Z := Z.of_nat (length (nodup string_dec bands)).
  Definition filters_ok (c : conf) (bands : list string) : bool := num_filters c <=? distinct bands.
  (** lines 392-422 *)
  Definition in_time_ok (c : conf) (epochs : list Z) (bands : list string) : bool :=
    match filter_time c with
    | Some ft =>
        if 1 <? num_filters c then
          let ends := map (fun e => if Z.of_nat e <? Z.of_nat (length epochs) - 1 then e else (length epochs - 1)%nat)
                          (search epochs (map (fun e => e + ft) epochs)) in
          existsb (fun p => num_filters c <=? distinct (slice (fst p) (snd p) bands)) (combine (seq 0 (length ends)) ends)
        else true
    | None => true
    end.
  (** one transient, lines 287-322: [l] are its visits *)
  Definition detected (c : conf) (start : Z) (i : nat) (l : list avisit) : bool :=
    let seen := filter (above c start i) l in
    let epochs := map (epoch c start i) seen in
    let bands := map aband seen in
    match l with
    | [] => false
    | _ => pre_ok c epochs && sections_ok c epochs && filters_ok c bands && in_time_ok c epochs bands
    end.

  (** the numbers that change in the loop over the phases *)
  Record loop := { num : Z; possible : Z; id_start : Z; ids : list Z; flags : list bool }.
  (** setup_phase_shift_dependent_variables, lines 424-476, and evaluate_all_detection_criteria, lines 260-328 *)
  Definition step (c : conf) (dur start : Z) (vs : list avisit) (acc : loop) (i : nat) : loop :=
    let tids := map (fun v => number c start v + id_start acc) vs in
    let fl := map (fun u => detected c start i (slice (left_of tids u) (right_of tids u) vs)) (unique_z tids) in
    {| num := num acc + Z.of_nat (length (filter (fun b => b) fl));
       possible := possible acc + (dur + duration c - 1) / duration c;
       id_start := match zmax_list tids with Some m => m | None => id_start acc end; ids := tids; flags := fl |}.
  (** initialize_phase_loop_variables, lines 516-559 *)
  Definition initial (c : conf) (start first : Z) : loop :=
    {| num := 0; possible := 0; id_start := - ((first - start) / duration c); ids := []; flags := [] |}.
  (** run, lines 478-514 and 595-653: the attributes afterwards and the loop variables; the value of the metric is [num], or with
      output_data the [ids] and the [flags] of the last phase beside the sorted visits *)
  Definition run (c : conf) (s : state) (visits : list avisit) : state * result (list avisit * loop) :=
    let vs := sort_time visits in
    match zmin_list (map at_ vs), zmax_list (map at_ vs) with
    | Some lo, Some hi =>
        let start := match survey_start s with Some t => t | None => lo end in
        let s' := {| survey_duration := Z.max (hi - lo) (survey_duration s); survey_start := Some start |} in
        (s', do _ <- (match phases c with O => Ok tt | S _ => thresholds c vs end);
             Ok (vs, fold_left (step c (survey_duration s') start vs) (seq 0 (phases c)) (initial c start lo)))
    | _, _ => (s, Err ValueError)
    end.
  (** the metric run over the slices one after the other, as the slicer does it *)
  Fixpoint run_all (c : conf) (s : state) (slices : list (list avisit)) : list (result (list avisit * loop)) :=
    match slices with [] => [] | vs :: t => let (s', r) := run c s vs in r :: run_all c s' t end.
End Search.
