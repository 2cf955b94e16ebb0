(** Model of the fit of the positions of one object over one segment and of its evaluation
    (rubin_sim/moving_objects/cheby_fits.py, cheby_values.py), in exact real arithmetic. *)
From Verif Require Import Base Astrom_Model Cheby_Model.
From Coq Require Import Reals.
Open Scope R_scope.

(** the columns of an ephemeris that are used (degrees, days; dradt includes the factor cos(dec)) *)
Record eph := { p_time : R; p_ra : R; p_dradt : R; p_dec : R; p_ddecdt : R }.
(** np.radians *)
Definition radians (x : R) : R := x * PI / 180.
(** cheby_fits.py lines 13-17, three_sixty_to_neg: ra.min() < 100 and ra.max() > 270 *)
Definition some_below (b : R) (l : list R) : bool := existsb (fun x => if Rlt_dec x b then true else false) l.
Definition some_above (b : R) (l : list R) : bool := existsb (fun x => if Rlt_dec b x then true else false) l.
Definition three_sixty_to_neg (l : list R) : list R :=
  if (some_below 100 l && some_above 270 l)%bool then map (fun x => if Rlt_dec 270 x then x - 360 else x) l else l.
(** np.max of a list of numbers that are not negative *)
Definition max_of (l : list R) : R := fold_right Rmax 0 l.
(** _get_coeffs_position, lines 394-433 *)
Definition get_coeffs_position (inv : inverter) (xm dxm : option multiplier) (m : nat) (e : list eph) : result (list R * list R * R) :=
  let t := map p_time e in
  do fr <- chebfit inv t (three_sixty_to_neg (map p_ra e)) (Some (map (fun p => p_dradt p / cos (radians (p_dec p))) e)) xm dxm m;
  do fd <- chebfit inv t (map p_dec e) (Some (map p_ddecdt e)) xm dxm m;
  let '(cra, rra, _, _) := fr in
  let '(cdec, rdec, _, _) := fd in
  let both := combine (combine rdec rra) (map p_dec e) in
  Ok (cra, cdec, max_of (map (fun q => sqrt (fst (fst q) ^ 2 + (snd (fst q) * cos (radians (snd q))) ^ 2)) both) * (3600 * 1000)).
(** cheby_values.py, _eval_segment, lines 96-153, for the position: ra, dradt, dec, ddecdt; a NaN is [None] *)
Definition eval_position (t0 t1 : R) (cra cdec : list R) (t : R) (mask : bool) : result (option R * option R * option R * option R) :=
  let x := t - t0 in
  let iv := [t0 - t0; t1 - t0] in
  do r <- chebeval x cra iv true mask;
  do d <- chebeval x cdec iv true mask;
  let vel (v : option (option R)) := match v with Some v => v | None => None end in
  let dradt := match vel (snd r), fst d with Some v, Some y => Some (v * cos (radians y)) | _, _ => None end in
  Ok (fst r, dradt, fst d, vel (snd d)).
