(** Model of the two metrics of periodic stars:
    rubin_sim/maf/maf_contrib/periodic_star_metric.py and periodic_star_modulation_metric.py.
    Numbers are real numbers (exact; the rounding of floats is not modelled).  The fit ([curve_fit] of scipy), the normal
    random numbers ([np.random.randn]) and the uniform ones ([random.uniform]) are arguments. *)
From Coq Require Import Ascii String.
From Verif Require Import Base.
From Verif Require Depth_Model Astrom_Model.
From Coq Require Import Reals.
Open Scope R_scope.

(** a visit, the three columns that are read *)
Record visit := { v_mjd : R; v_m5 : R; v_band : string }.

(** the arguments of PeriodicStarMetric, periodic_star_metric.py:69-118; [badval] is that of BaseMetric *)
Record conf := { c_period : R; c_amplitude : R; c_phase : R; c_monte : nat; c_period_tol : R; c_amp_tol : R;
                 c_means : list R; c_mag_tol : R; c_bands : nat; c_badval : R }.

(** [filter2index], periodic_star_metric.py:30, 118, as the place among the six mean magnitudes (3 less) *)
Definition band_index (b : string) : option nat :=
  if String.eqb b "u" then Some 0%nat else if String.eqb b "g" then Some 1%nat else if String.eqb b "r" then Some 2%nat
  else if String.eqb b "i" then Some 3%nat else if String.eqb b "z" then Some 4%nat else if String.eqb b "y" then Some 5%nat
  else None.
Definition band_keys : list string := ["u"; "g"; "r"; "i"; "z"; "y"]%string.

(** a string put in an array of type "|U1", periodic_star_metric.py:129-131: only the first character is kept *)
Definition u1 (s : string) : string := match s with EmptyString => EmptyString | String c _ => String c EmptyString end.

(** PeriodicStar.__call__ for one visit, periodic_star_metric.py:17-36: [t] is the time since the first visit.  A band
    without a place raises KeyError; the period is not 0. *)
Definition wave (period phase amplitude t : R) : R := amplitude * sin ((t + phase) / period * 2 * PI).
Definition star_mag (period phase amplitude : R) (mags : list R) (t : R) (b : string) : result R :=
  match band_index b with
  | None => Err KeyError
  | Some i => do m <- arr_get mags i; Ok (wave period phase amplitude t + m)
  end.
Fixpoint star_lc (period phase amplitude : R) (mags : list R) (ts : list (R * string)) : result (list R) :=
  match ts with
  | [] => Ok []
  | (t, b) :: r => do m <- star_mag period phase amplitude mags t b; do l <- star_lc period phase amplitude mags r; Ok (m :: l)
  end.
(** calling it with nine parameters, periodic_star_metric.py:17, 141: another number of mean magnitudes than six raises TypeError *)
Definition light_curve (period phase amplitude : R) (mags : list R) (ts : list (R * string)) : result (list R) :=
  if (length mags =? 6)%nat then star_lc period phase amplitude mags ts else Err TypeError.

(** times since the first visit and bands, periodic_star_metric.py:129-131 *)
Definition times (vs : list visit) : list (R * string) :=
  map (fun v => (v_mjd v - Astrom_Model.rmin_list (map v_mjd vs), u1 (v_band v))) vs.

(** the error of a magnitude, periodic_star_metric.py:146-147 *)
Definition dmag (m m5 : R) : R := 5/2 * Depth_Model.log10 (1 + 1 / Astrom_Model.m52snr (Some (1/25)) m m5).
(** what is given to the fit, periodic_star_metric.py:148-156: times and bands, magnitudes with noise, errors *)
Definition noisy (noise : nat -> R) (lc errs : list R) : list R :=
  map (fun p => fst (snd p) + noise (fst p) * snd (snd p)) (combine (seq 0 (length lc)) (combine lc errs)).

(** the parameters of a fit, a number or (when infinite) [None]: period, amplitude (the phase is not used) and the six
    mean magnitudes *)
Record fitted := { f_period : option R; f_amplitude : option R; f_mags : list (option R) }.
(** the fit: from the data, the errors and the starting parameters *)
Definition fitter := list (R * string) -> list R -> list R -> R -> R -> R -> list R -> result fitted.

(** [true_params * 0 + np.inf], periodic_star_metric.py:159 *)
Definition failed (mags : list R) : fitted := {| f_period := None; f_amplitude := None; f_mags := map (fun _ => None) mags |}.
(** one trial, periodic_star_metric.py:145-160: a fit that raises RuntimeError is kept as infinities *)
Definition trial (fit : fitter) (noise : nat -> R) (period phase amplitude : R) (mags : list R) (ts : list (R * string))
  (lc errs : list R) : result fitted :=
  match fit ts (noisy noise lc errs) errs period phase amplitude mags with
  | Err RuntimeError => Ok (failed mags)
  | r => r
  end.
Fixpoint trials (one : nat -> result fitted) (from n : nat) : result (list fitted) :=
  match n with
  | O => Ok []
  | S n' => do f <- one from; do r <- trials one (S from) n'; Ok (f :: r)
  end.

(** lines 164-168: bands that are not among those of the slice are set to minus infinity, if the slice has fewer than 9 bands *)
Definition has (bs : list string) (b : string) : bool := existsb (String.eqb b) bs.
Definition drop_band (bs : list string) (mags : list (option R)) (b : string) : list (option R) :=
  match band_index b with Some i => if has bs b then mags else set_nth mags i None | None => mags end.
Definition drop_bands (bs : list string) (f : fitted) : fitted :=
  if (length (nodup string_dec bs) <? 9)%nat
  then {| f_period := f_period f; f_amplitude := f_amplitude f; f_mags := fold_left (drop_band bs) band_keys (f_mags f) |}
  else f.

(** lines 171-185: [x <= tol] is false for infinities and NaN; dividing by 0 gives one of these *)
Definition le_tol (x : option R) (tol : R) : bool := match x with Some e => if Rle_dec e tol then true else false | None => false end.
Definition frac_err (fit : option R) (truth : R) : option R :=
  match fit with
  | Some f => if Req_EM_T truth 0 then None else Some (Rabs ((f - truth) / truth))
  | None => None
  end.
Definition mag_err (fit : option R) (truth : R) : option R := match fit with Some f => Some (Rabs (f - truth)) | None => None end.
Definition n_good (mag_tol : R) (fits : list (option R)) (mags : list R) : nat :=
  length (filter (fun p => le_tol (mag_err (fst p) (snd p)) mag_tol) (combine fits mags)).
Definition recovered (c : conf) (period amplitude : R) (mags : list R) (f : fitted) : bool :=
  le_tol (frac_err (f_period f) period) (c_period_tol c) && le_tol (frac_err (f_amplitude f) amplitude) (c_amp_tol c)
  && (c_bands c <=? n_good (c_mag_tol c) (f_mags f) mags)%nat.
(** [float(n_recovered) / self.n_monte] *)
Definition frac_recovered (c : conf) (period amplitude : R) (mags : list R) (fits : list fitted) : result R :=
  match c_monte c with
  | O => Err ZeroDivisionError
  | n => Ok (INR (length (filter (recovered c period amplitude mags) fits)) / INR n)
  end.

(** [mags], periodic_star_metric.py:134-138: [slice_point] is None, or a dictionary of numbers *)
Definition distances (c : conf) (sp : option (list (string * R))) : result (list R) :=
  match sp with
  | None => Err AttributeError
  | Some d => match dget String.eqb d "distMod"%string with Some x => Ok (map (fun m => m + x) (c_means c)) | None => Ok (c_means c) end
  end.

(** PeriodicStarMetric.run, periodic_star_metric.py:120-187 *)
Definition run (fit : fitter) (noise : nat -> nat -> R) (c : conf) (vs : list visit) (sp : option (list (string * R))) : result R :=
  if (length vs <? length (c_means c) + 3)%nat then Ok (c_badval c)
  else
    let ts := times vs in
    do mags <- distances c sp;
    do lc <- light_curve (c_period c) (c_phase c) (c_amplitude c) mags ts;
    let errs := map (fun p => dmag (fst p) (snd p)) (combine lc (map v_m5 vs)) in
    do fits <- trials (fun i => trial fit (noise i) (c_period c) (c_phase c) (c_amplitude c) mags ts lc errs) 0 (c_monte c);
    frac_recovered c (c_period c) (c_amplitude c) mags (map (drop_bands (map v_band vs)) fits).

(** the uniform random numbers of a subrun: of the period, the amplitude and the phase *)
Definition draws := nat -> R * R * R.
(** the further arguments of PeriodicStarModulationMetric, periodic_star_modulation_metric.py:84-133 ([random_phase] makes
    the phase NaN) *)
Record mconf := { mc_conf : conf; mc_random_phase : bool; mc_interval : R }.

(** [np.size] of an object that is not an array or sequence *)
Definition np_size_object : nat := 1.
(** one trial, periodic_star_modulation_metric.py:186-212 *)
Definition mod_trial (fit : fitter) (noise : nat -> R) (period phase amplitude : R) (mags : list R) (ts : list (R * string))
  (lc errs : list R) : result fitted :=
  if (np_size_object <=? 3 + length mags)%nat then Ok (failed mags)
  else trial fit noise period phase amplitude mags ts lc errs.

(** the visits of a subrun, periodic_star_modulation_metric.py:155-160: both ends belong to it *)
Definition in_subrun (interval : R) (k : nat) (t : R) : bool :=
  (if Rle_dec (interval * INR k) t then true else false) && (if Rle_dec t (interval * INR (S k)) then true else false).
Definition subrun (interval : R) (k : nat) (tm : list ((R * string) * R)) : list ((R * string) * R) :=
  filter (fun p => in_subrun interval k (fst (fst p))) tm.

(** a subrun, periodic_star_modulation_metric.py:161-238; [None] if it has no visits.  [bs] are the bands of all visits. *)
Definition mod_one (fit : fitter) (noise : nat -> nat -> R) (u : R * R * R) (mc : mconf) (bs : list string)
  (tm : list ((R * string) * R)) (sp : option (list (string * R))) : result (option R) :=
  match tm with
  | [] => Ok None
  | _ =>
      let c := mc_conf mc in
      do mags <- distances c sp;
      let period := (9/10 + (11/10 - 9/10) * fst (fst u)) * c_period c in
      let amplitude := (9/10 + (11/10 - 9/10) * snd (fst u)) * c_amplitude c in
      let phase := if mc_random_phase mc then snd u * c_period c else c_phase c in
      do lc <- light_curve period phase amplitude mags (map fst tm);
      let errs := map (fun p => dmag (fst p) (snd p)) (combine lc (map snd tm)) in
      do fits <- trials (fun i => mod_trial fit (noise i) period phase amplitude mags (map fst tm) lc errs) 0 (c_monte c);
      do r <- frac_recovered c period amplitude mags (map (drop_bands bs) fits);
      Ok (Some r)
  end.
Fixpoint mod_all (one : nat -> result (option R)) (from n : nat) : result (list R) :=
  match n with
  | O => Ok []
  | S n' => do x <- one from; do r <- mod_all one (S from) n'; Ok (match x with Some v => v :: r | None => r end)
  end.

(** [int(x)] of a number that is not negative; a negative one gives no round of [range] either way *)
Definition int_of (x : R) : nat := Z.to_nat (Int_part x).
(** PeriodicStarModulationMetric.run, periodic_star_modulation_metric.py:135-241; [None] is NaN (0.0 / 0).  The interval is not 0. *)
Definition mod_run (fit : fitter) (noise : nat -> nat -> nat -> R) (us : draws) (mc : mconf) (vs : list visit)
  (sp : option (list (string * R))) : result (option R) :=
  let c := mc_conf mc in
  if (length vs <? length (c_means c) + 3)%nat then Ok (Some (c_badval c))
  else
    let ts := times vs in
    let tm := combine ts (map v_m5 vs) in
    let subruns := int_of (Astrom_Model.rmax_list (map fst ts) / mc_interval mc) in
    do l <- mod_all (fun k => mod_one fit (noise k) (us k) mc (map v_band vs) (subrun (mc_interval mc) k tm) sp) 0 subruns;
    match l with
    | [] => Ok None
    | _ => Ok (Some (Astrom_Model.rsum l / INR (length l)))
    end.
