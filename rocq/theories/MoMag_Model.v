(** Model of the moving object stackers: rubin_sim/maf/stackers/mo_stackers.py and mo_phase.py.
    Numbers are real numbers [R] (exact; rounding, NaN and infinities of floats are not modelled).  Decimal constants are
    written as fractions.  The columns have their default names. *)
From Verif Require Import Base Astrom_Model.
From Coq Require Import Reals Ratan Ascii.
Open Scope R_scope.

(** a row of the observations of an object: the columns read by the stackers *)
Record mrow := { w_magv : R; w_color : R; w_loss : R; w_m5 : R; w_seeing : R; w_band : string; w_rh : R; w_delta : R; w_phase : R }.

(** constants, lines 18-21 *)
Definition vmag_sun : R := - 2676 / 100.
Definition ab_sun (band : string) : option R :=
  if String.eqb band "u" then Some (- 2530 / 100) else if String.eqb band "g" then Some (- 2652 / 100)
  else if String.eqb band "r" then Some (- 2693 / 100) else if String.eqb band "i" then Some (- 2705 / 100)
  else if String.eqb band "z" then Some (- 2707 / 100) else if String.eqb band "y" then Some (- 2707 / 100) else None.
Definition km_per_au : R := 1495978707 / 10.
(** [np.log10] of a positive number *)
Definition lg (x : R) : R := ln x / ln 10.

(** AppMagStacker._run, lines 231-238 *)
Definition app_mag (href hval : R) (w : mrow) : R := w_magv w + w_color w + w_loss w + hval - href.

(** CometAppMagStacker.__init__, lines 288-310: the exponent and the constant of a type given by name or by a dictionary,
    which is here the values of its keys "k", "Afrho1_const" and "afrho1_const" (the last is not looked at) *)
Inductive comet_arg := Named (name : string) | Dict (k : option R) (Afrho1_const : option R) (afrho1_const : option R).
Definition comet_types (name : string) : option (R * R) :=
  if String.eqb name "short" then Some (-4, 100) else if String.eqb name "oort" then Some (-2, 1000)
  else if String.eqb name "mbc" then Some (-6, 4000) else None.
Definition comet_init (a : comet_arg) : result (R * R) :=
  match a with
  | Named n => match comet_types n with Some kc => Ok kc | None => Err ValueError end
  | Dict (Some k) (Some c) _ => Ok (k, c)
  | Dict _ _ _ => Err ValueError
  end.
(** CometAppMagStacker._run, lines 335-366, the coma of one row; [hm] is [phase__halley_marcus] (a spline of scipy),
    [ap_scale] is 1.  The comment of line 350 says that delta is in cm *)
Definition comet_radius (ap hval : R) : R := Rpower 10 (1/5 * (vmag_sun - hval)) / sqrt ap * km_per_au.
Definition afrho (hm : R -> R) (ap : R) (kc : R * R) (hval : R) (w : mrow) : R :=
  snd kc * (comet_radius ap hval * comet_radius ap hval) * Rpower (w_rh w) (fst kc) * hm (w_phase w).
Definition rho (w : mrow) : R := 72500000 * w_delta w * w_seeing w.
Definition delta_len (w : mrow) : R := w_delta w * km_per_au * 1000.
Definition coma_dm (hm : R -> R) (ap : R) (kc : R * R) (hval : R) (w : mrow) : R :=
  - (5/2) * lg (afrho hm ap kc hval w * rho w / ((2 * w_rh w * delta_len w) * (2 * w_rh w * delta_len w))).
(** lines 352-358; an unknown band raises KeyError *)
Definition coma (hm : R -> R) (ap : R) (kc : R * R) (hval : R) (w : mrow) : result R :=
  match ab_sun (w_band w) with Some s => Ok (s + coma_dm hm ap kc hval w) | None => Err KeyError end.
(** lines 359-366 *)
Definition comet_mag (hm : R -> R) (ap : R) (kc : R * R) (href hval : R) (w : mrow) : result R :=
  do c <- coma hm ap kc hval w;
  Ok (- (5/2) * lg (Rpower 10 (- (2/5) * c) + Rpower 10 (- (2/5) * app_mag href hval w))).

(** SNRStacker._run, lines 428-442, one row; [u] is the random number of the row.  Line 432 has 0.5 *)
Definition snr_x (app m5 : R) : R := Rpower 10 (1/2 * (app - m5)).
Definition mo_snr (gamma app m5 : R) : R := 1 / sqrt ((1/25 - gamma) * snr_x app m5 + gamma * snr_x app m5 * snr_x app m5).
Definition detect_prob (sigma app m5 : R) : R := 1 / (1 + exp ((app - m5) / sigma)).
Definition vis (sigma app m5 u : R) : bool := if Rle_dec u (detect_prob sigma app m5) then true else false.

(** [str.startswith] and the last part of [str.split("_")] *)
Fixpoint starts_with (p s : string) : bool :=
  match p, s with EmptyString, _ => true | String a p', String b s' => Ascii.eqb a b && starts_with p' s' | _, _ => false end.
Fixpoint last_part_from (acc s : string) : string :=
  match s with EmptyString => acc | String c s' => if Ascii.eqb c "_" then last_part_from s' s' else last_part_from acc s' end.
Definition last_part (s : string) : string := last_part_from s s.

(** MoMagStacker.__init__, lines 92-145: the magnitude stacker chosen by [magtype] *)
Inductive mag_kind := Asteroid | Comet (kc : R * R) | NullMag.
Definition mag_init (magtype : string) : result mag_kind :=
  if String.eqb magtype "asteroid" then Ok Asteroid
  else if starts_with "comet" magtype then do kc <- comet_init (Named (last_part magtype)); Ok (Comet kc)
  else Ok NullMag.

(** the stacker: the magnitudes, gamma, sigma, the seed and how many random numbers its generator has handed out ([None]:
    no generator yet, lines 435-439) *)
Record mo_stacker := { k_mag : mag_kind; k_gamma : R; k_sigma : R; k_seed : option Z; k_pos : option nat }.
(** MoMagStacker(magtype=..., gamma=..., sigma=..., random_seed=...) *)
Definition mo_init (magtype : string) (gamma sigma : R) (seed : option Z) : result mo_stacker :=
  do k <- mag_init magtype; Ok {| k_mag := k; k_gamma := gamma; k_sigma := sigma; k_seed := seed; k_pos := None |}.
(** an output row: appMag, SNR, vis *)
Definition orow : Type := R * R * bool.
(** MoMagStacker._run, lines 147-155, given the column appMag of the input ([app_in], for AppMagNullStacker, lines
    181-183) and the generators [draws] of numpy by seed *)
Definition seed_of (s : mo_stacker) : Z := match k_seed s with Some z => z | None => 734421%Z end.
Definition mags (hm : R -> R) (k : mag_kind) (href hval : R) (rows : list (mrow * R)) : result (list R) :=
  match k with
  | Asteroid => Ok (map (fun p => app_mag href hval (fst p)) rows)
  | Comet kc => map_ok (fun p => comet_mag hm (1/25) kc href hval (fst p)) rows
  | NullMag => Ok (map snd rows)
  end.
Fixpoint snr_rows (s : mo_stacker) (g : nat -> R) (pos : nat) (l : list (R * R)) : list orow :=
  match l with
  | [] => []
  | (app, m5) :: t => (app, mo_snr (k_gamma s) app m5, vis (k_sigma s) app m5 (g pos)) :: snr_rows s g (S pos) t
  end.
Definition mo_run' (hm : R -> R) (draws : Z -> nat -> R) (s : mo_stacker) (href hval : R) (rows : list (mrow * R)) : result (list orow * mo_stacker) :=
  do ms <- mags hm (k_mag s) href hval rows;
  let pos := match k_pos s with Some p => p | None => O end in
  Ok (snr_rows s (draws (seed_of s)) pos (combine ms (map (fun p => w_m5 (fst p)) rows)),
      {| k_mag := k_mag s; k_gamma := k_gamma s; k_sigma := k_sigma s; k_seed := k_seed s; k_pos := Some (pos + length rows)%nat |}).
(** BaseMoStacker.run, lines 32-45 and base_stacker.py:122-155: without rows nothing is done; [app_col] is the column
    appMag of the input if it has one, else it is added with whatever is in the memory ([np.empty]) *)
Definition mo_run (hm : R -> R) (draws : Z -> nat -> R) (memory : nat -> R) (s : mo_stacker) (href : R) (hval : option R)
    (rows : list mrow) (app_col : option (list R)) : result (list orow * mo_stacker) :=
  match rows with
  | [] => Ok ([], s)
  | _ => mo_run' hm draws s href (match hval with Some h => h | None => href end)
           (combine rows (match app_col with Some c => c | None => map memory (seq 0 (length rows)) end))
  end.
(** one stacker over several frames in turn, as when cloning an object over H or going over the objects *)
Fixpoint mo_runs (hm : R -> R) (draws : Z -> nat -> R) (memory : nat -> R) (s : mo_stacker)
    (frames : list (R * option R * list mrow * option (list R))) : result (list (list orow) * mo_stacker) :=
  match frames with
  | [] => Ok ([], s)
  | (href, hval, rows, col) :: t =>
      do r <- mo_run hm draws memory s href hval rows col;
      do q <- mo_runs hm draws memory (snd r) t;
      Ok (fst r :: fst q, snd q)
  end.

(** EclStacker, lines 462-486, one row: latitude and longitude in degrees *)
Definition ecinc : R := radians (23439291 / 1000000).
Definition ecliptic (in_deg : bool) (ra dec : R) : R * R :=
  let ra := if in_deg then radians ra else ra in
  let dec := if in_deg then radians dec else dec in
  let x := cos ra * cos dec in
  let y := sin ra * cos dec in
  let z := sin dec in
  let yp := cos ecinc * y + sin ecinc * z in
  let zp := - sin ecinc * y + cos ecinc * z in
  (degrees (asin zp), pymod (degrees (atan2 yp x)) 360).

(** phase__log_linear, mo_phase.py:222-238 *)
Definition log_linear (slope phase : R) : R := Rpower 10 (- (2/5) * slope * phase).
(** [np.power] of a number at least 0 to a positive power *)
Definition npow (x p : R) : R := if Rle_dec x 0 then 0 else Rpower x p.
(** phase_hg, mo_phase.py:241-261 *)
Definition phase_hg (G phase : R) : R :=
  (1 - G) * exp (- (333/100) * npow (tan (radians phase / 2)) (63/100)) +
  G * exp (- (187/100) * npow (tan (radians phase / 2)) (122/100)).
