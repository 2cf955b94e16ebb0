(** Model of the resampling of spectra: rubin_sim/phot_utils/spectral_resampling.py, and the grids of
    rubin_sim/phot_utils/sed.py and rubin_sim/phot_utils/bandpass.py.
    Numbers are real numbers [R] (exact; rounding of floats is not modelled); a value that may be NaN is an [option R], with
    [None] for NaN.  Spectra are one-dimensional and carry no uncertainties ([spec_errs] is None). *)
From Verif Require Import Base Astrom_Model.
From Coq Require Import Reals.
Open Scope R_scope.

Definition rleb (a b : R) : bool := if Rle_dec a b then true else false.
Definition rltb (a b : R) : bool := if Rlt_dec a b then true else false.
Definition reqb (a b : R) : bool := if Req_EM_T a b then true else false.

(** [(a[1:] + a[:-1]) / 2] and [a[1:] - a[:-1]] *)
Fixpoint mids (l : list R) : list R := match l with a :: ((b :: _) as t) => (b + a) / 2 :: mids t | _ => [] end.
Fixpoint diffs (l : list R) : list R := match l with a :: ((b :: _) as t) => (b - a) :: diffs t | _ => [] end.
(** make_bins, spectral_resampling.py:11-22: the edges and the widths of the bins; [wavs[1]] raises IndexError when there
    are fewer than two wavelengths *)
Definition make_bins (w : list R) : result (list R * list R) :=
  match w with
  | a :: b :: _ =>
      let z := nth (length w - 1) w 0 in
      let y := nth (length w - 2) w 0 in
      let edges := (a - (b - a) / 2) :: mids w ++ [z + (z - y) / 2] in
      Ok (edges, diffs (removelast edges) ++ [z - y])
  | _ => Err IndexError
  end.

(** a loop [while old_edges[i + 1] ...: i += 1], lines 117-123; [tail] is [old_edges[i+1:]], and running off the end raises
    IndexError *)
Fixpoint advance (p : R -> bool) (tail : list R) (i : nat) : result nat :=
  match tail with [] => Err IndexError | e :: t => if p e then advance p t (S i) else Ok i end.
(** [a[i:j]] *)
Definition slice (l : list R) (i j : nat) : list R := firstn (j - i) (skipn i l).
(** the variables of the loop: start, stop and the array old_widths, which is modified and put back *)
Record rstate := { r_start : nat; r_stop : nat; r_widths : list R }.
(** the body of the loop over the new bins, lines 98-152; a new bin is given by its two edges, [fs] is old_fluxes, [oe] is
    old_edges.  A mean over an empty slice is 0/0 *)
Definition one_bin (oe fs : list R) (fill : option R) (lo hi : R) (s : rstate) : result (option R * rstate) :=
  if (rltb lo (hd 0 oe) || rltb (last oe 0) hi)%bool then Ok (fill, s)
  else
    do st <- advance (fun e => rleb e lo) (skipn (S (r_start s)) oe) (r_start s);
    do sp <- advance (fun e => rltb e hi) (skipn (S (r_stop s)) oe) (r_stop s);
    if Nat.eqb sp st then
      do f <- arr_get fs st;
      Ok (Some f, {| r_start := st; r_stop := sp; r_widths := r_widths s |})
    else
      let sf := (nth (S st) oe 0 - lo) / (nth (S st) oe 0 - nth st oe 0) in
      let ef := (hi - nth sp oe 0) / (nth (S sp) oe 0 - nth sp oe 0) in
      let w1 := set_nth (r_widths s) st (nth st (r_widths s) 0 * sf) in
      let w2 := set_nth w1 sp (nth sp w1 0 * ef) in
      let ws := slice w2 st (S sp) in
      let v := match ws with
               | [] => None
               | _ => Some (rsum (map (fun p => fst p * snd p) (combine ws (slice fs st (S sp)))) / rsum ws)
               end in
      let w3 := set_nth w2 st (nth st w2 0 / sf) in
      let w4 := set_nth w3 sp (nth sp w3 0 / ef) in
      Ok (v, {| r_start := st; r_stop := sp; r_widths := w4 |}).
(** the loop, [ne] being the new edges not yet passed *)
Fixpoint spectres_loop (oe fs : list R) (fill : option R) (ne : list R) (s : rstate) : result (list (option R)) :=
  match ne with
  | lo :: ((hi :: _) as t) =>
      do vs <- one_bin oe fs fill lo hi s;
      do rest <- spectres_loop oe fs fill t (snd vs);
      Ok (fst vs :: rest)
  | _ => Ok []
  end.
(** spectres, lines 25-161 *)
Definition spectres (new_wavs spec_wavs spec_fluxes : list R) (fill : option R) : result (list (option R)) :=
  do ob <- make_bins spec_wavs;
  do nb <- make_bins new_wavs;
  spectres_loop (fst ob) spec_fluxes fill (fst nb) {| r_start := 0; r_stop := 0; r_widths := snd ob |}.

(** [numpy.arange(a, b, s)] for a positive step: a, a + s, ... below b *)
Definition rceil (x : R) : Z := (1 - up (- x))%Z.
Definition arange (a b s : R) : list R := map (fun i => a + INR i * s) (seq 0 (Z.to_nat (rceil ((b - a) / s)))).
(** the grid of Sed.resample_sed and Sed.set_flat_sed, sed.py:494, 791-793, and the grid of Bandpass.resample_bandpass and
    read_throughput_list, bandpass.py:223-228, 306 *)
Definition sed_grid (mn mx step : R) : list R := arange mn (mx + step) step.
Definition bandpass_grid (mn mx step : R) : list R := arange mn (mx + step / 2) step.

(** Sed._need_resample, sed.py:703-745: with an array to match ... *)
Definition need_match (wm w : list R) : bool :=
  if Nat.eqb (length wm) (length w) then existsb (fun p => rltb (1 / 10000000000) (Rabs (fst p - snd p))) (combine wm w)
  else true.
(** ... and with the ends and the step of a grid: no regridding when the ends are those of the grid and [unique(diff)] is
    the step alone *)
Definition need_grid (mn mx step : R) (w : list R) : bool :=
  negb (reqb (hd 0 w) mn && reqb (last w 0) mx && negb (Nat.eqb (length (diffs w)) 0) && forallb (fun d => reqb d step) (diffs w)).
(** Sed.resample_sed, sed.py:747-818, given arrays (they must have the same length, _check_use_self, 695-700); the new
    arrays *)
Definition some_all (l : list R) : list (option R) := map Some l.
Definition resample_match (wm w f : list R) (force : bool) (fill : option R) : result (list R * list (option R)) :=
  if Nat.eqb (length w) (length f) then
    if (force || need_match wm w)%bool then do g <- spectres wm w f fill; Ok (wm, g) else Ok (w, some_all f)
  else Err ValueError.
Definition resample_grid (mn mx step : R) (w f : list R) (force : bool) (fill : option R) : result (list R * list (option R)) :=
  if Nat.eqb (length w) (length f) then
    if (force || need_grid mn mx step w)%bool then
      do g <- spectres (sed_grid mn mx step) w f fill; Ok (sed_grid mn mx step, g)
    else Ok (w, some_all f)
  else Err ValueError.
