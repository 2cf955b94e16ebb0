(** Model of rubin_sim/maf/maf_contrib/microlensing_metric.py: the light curves of microlensing events, their derivatives and information, and the
    metric.  Numbers are reals: rounding, overflow and infinities are not modelled; [ln] of a number that is not positive stands for NaN, and the
    theorems keep away from it, as from a distance 0 between lens and source.  Visits are worked on one by one and not one band after the other:
    the values are the same. *)
From Coq Require Import String Reals ZArith List Bool.
From Verif Require Import Base Depth_Model Template_Model.
From Verif Require Astrom_Model Web_Model.
Import ListNotations.
Open Scope R_scope.

(** * Light curves *)
(** lightcurve_u, microlensing_metric.py, lines 44 and 67 *)
Definition separation (u0 te t0 t : R) : R := sqrt (u0 ^ 2 + (t - t0) ^ 2 / te ^ 2).
(** lines 45-46 and 69 *)
Definition magnification (u : R) : R := (u ^ 2 + 2) / (u * sqrt (u ^ 2 + 4)).
(** microlensing_amplification, lines 27-49 *)
Definition amplification (u0 te t0 b t : R) : R := magnification (separation u0 te t0 t) * b + (1 - b).
(** microlensing_amplification_fsfb, lines 52-72: a magnitude *)
Definition amplified_fsfb (u0 te t0 fs fb t : R) : R := - (5 / 2) * log10 (magnification (separation u0 te t0 t) * fs + fb).
(** info_peak_before_t0, lines 75-99 *)
Definition info_peak (u0 te : R) : R := te * sqrt (- u0 ^ 2 + sqrt (9 * u0 ^ 4 + 36 * u0 ^ 2 + 4) - 2) / 2.

(** * Derivatives *)
(** coefficients_pspl, lines 102-144; the derivatives in the order in which they are returned *)
Definition coefficients_pspl (t t0 te u0 fs : R) : list R :=
  let x0 := / te ^ 2 in
  let x1 := (t - t0) ^ 2 in
  let x2 := u0 ^ 2 + x0 * x1 in
  let x3 := 1 / sqrt x2 in
  let x4 := 2 * x3 in
  let x5 := x2 + 4 in
  let x6 := fs / sqrt x5 in
  let x7 := x1 / te ^ 3 in
  let x8 := x6 * x7 in
  let x9 := x2 + 2 in
  let x10 := x9 / Rpower x2 (3 / 2) in
  let x11 := fs * x3 * x9 / Rpower x5 (3 / 2) in
  let x12 := u0 * x6 in
  let x13 := x0 * (-2 * t + 2 * t0) in
  let x14 := x13 * x6 in
  let c0 := x10 * x8 + x11 * x7 - x4 * x8 in
  let c1 := - u0 * x11 - x10 * x12 + x12 * x4 in
  let c2 := - (1 / 2) * x10 * x14 - 1 / 2 * x11 * x13 + x14 * x3 in
  [c2; c1; c0].
(** coefficients_fsfb, lines 147-174 *)
Definition coefficients_fsfb (t t0 te u0 : R) : R * R :=
  let x0 := u0 ^ 2 + (t - t0) ^ 2 / te ^ 2 in (1, (x0 + 2) / (sqrt x0 * sqrt (x0 + 4))).
(** the derivatives of a visit, lines 220-225.  The derivatives by the fluxes are assigned to elements of an array that np.array has just made out
    of the list and that is then dropped, so the list keeps its zeros. *)
Definition derivatives (n_filters : nat) (t t0 te u0 fs : R) : list R := coefficients_pspl t t0 te u0 fs ++ repeat 0 (2 * n_filters).
(** lines 226-230: the upper half, made symmetric *)
Definition upper (d : list R) (i j : nat) : R := if Nat.leb i j then nth i d 0 * nth j d 0 else 0.
Definition both_halves (d : list R) (i j : nat) : R := upper d i j + upper d j i - (if Nat.eqb i j then upper d i i else 0).
(** lines 233-236; (usqr * (usqr + 4)) ** 0.5 *)
Definition flux_error (t t0 te u0 fs fb snr : R) : R :=
  let usqr := (t - t0) ^ 2 / te ^ 2 + u0 ^ 2 in (fs * ((usqr + 2) / sqrt (usqr * (usqr + 4))) + fb) / snr.
(** fisher_matrix, lines 177-240: [l] has the times and signal to noise ratios *)
Definition fisher_matrix (n_filters : nat) (t0 te u0 fs fb : R) (l : list (R * R)) (i j : nat) : R :=
  fold_right (fun p s => both_halves (derivatives n_filters (fst p) t0 te u0 fs) i j / flux_error (fst p) t0 te u0 fs fb (snd p) ^ 2 + s) 0 l.

(** * The metric *)
Record lens_visit := { v_mjd : R; v_night : R; v_m5 : R; v_band : string }.
Definition lookup {V} (d : list (string * V)) (k : string) : result V := match dget String.eqb d k with Some v => Ok v | None => Err KeyError end.
Fixpoint each {A B} (g : A -> result B) (l : list A) : result (list B) :=
  match l with [] => Ok [] | x :: t => do y <- g x; do r <- each g t; Ok (y :: r) end.
Definition least (x : R) (l : list R) : R := fold_right Rmin x l.
(** lines 333-334 *)
Definition times (l : list lens_visit) : result (list R) :=
  match l with
  | [] => Err ValueError
  | v :: r =>
      let t := map (fun w => v_mjd w - least (v_night v) (map v_night r)) l in
      Ok (map (fun x => x - least (hd 0 t) (tl t)) t)
  end.
(** a slice point is a dictionary; lines 338-358 and 371-381 read it.  The blending factor is optional, and so are magnitudes of each band, which
    are looked for if there is one of the u band without its blend. *)
Record event := { ev_peak : R; ev_te : R; ev_u0 : R; ev_blend : option R; ev_own : option (list (string * R)) }.
Definition no_blend_key (band : string) : string := ("apparent_m_no_blend_" ++ band)%string.
Definition total_key (band : string) : string := ("apparent_m_" ++ band)%string.
Definition read (sp : list (string * R)) : result event :=
  do u <- lookup sp "impact_parameter"%string;
  do c <- lookup sp "crossing_time"%string;
  do p <- lookup sp "peak_time"%string;
  Ok {| ev_peak := p; ev_te := c; ev_u0 := u; ev_blend := dget String.eqb sp "blending_factor"%string;
        ev_own := match dget String.eqb sp (no_blend_key "u"%string) with Some _ => Some sp | None => None end |}.
Definition own (tab : list (string * R)) (band : string) : result (R * R) :=
  do m <- lookup tab (no_blend_key band); do n <- lookup tab (total_key band); Ok (m, n).
(** the magnitude of an event in a visit, lines 361-385 *)
Definition amplified (mags : list (string * R)) (e : event) (t : R) (band : string) : result R :=
  match ev_own e with
  | Some tab =>
      do p <- own tab band;
      let fs := Rpower 10 (- (4 / 10) * fst p) in
      let fb := Rpower 10 (- (4 / 10) * snd p) - fs in
      Ok (snd p - 5 / 2 * log10 (amplified_fsfb (ev_u0 e) (ev_te e) (ev_peak e) fs fb t))
  | None =>
      do m <- lookup mags band;
      Ok (m - 5 / 2 * log10 (amplification (ev_u0 e) (ev_te e) (ev_peak e) (match ev_blend e with Some b => b | None => 1 end) t))
  end.
(** the magnitudes that the metric, and the caller's dictionary, keep after a slice point whose bands are [bands], line 381 *)
Definition mags_after (mags : list (string * R)) (e : event) (bands : list string) : result (list (string * R)) :=
  match ev_own e with
  | None => Ok mags
  | Some tab => fold_left (fun r b => do d <- r; do p <- own tab b; Ok (dset String.eqb d b (snd p))) bands (Ok mags)
  end.
Record point := { o_t : R; o_mag : R; o_unc : R; o_snr : R; o_band : string }.
(** lines 388-390 *)
Definition observed (mags : list (string * R)) (e : event) (p : lens_visit * R) : result point :=
  do m <- amplified mags e (snd p) (v_band (fst p));
  let snr := Astrom_Model.m52snr (Some (1/25)) m (v_m5 (fst p)) in
  Ok {| o_t := snd p; o_mag := m; o_unc := 5 / 2 * log10 (1 + 1 / snr); o_snr := snr; o_band := v_band (fst p) |}.
Definition points (mags : list (string * R)) (sp : list (string * R)) (l : list lens_visit) : result (event * list point) :=
  do ts <- times l; do e <- read sp; do ps <- each (observed mags e) (combine l ts); Ok (e, ps).
(** line 360 *)
Definition bands (l : list point) : list string := Web_Model.unique (map o_band l).
(** lines 418-434: pairs in both orders *)
Definition above (sigma : R) (p q : point) : bool := rltb sigma (Rabs (o_mag q - o_mag p) / sqrt (o_unc q ^ 2 + o_unc p ^ 2)).
Definition n_above (sigma : R) (l : list point) : R := INR (length (filter (fun pq => above sigma (fst pq) (snd pq)) (list_prod l l))) / 2.
(** time_before_peak, lines 396-411; another text would fail *)
Inductive before := Days (d : R) | Optimal.
Definition lead (e : event) (b : before) : R := match b with Days d => d | Optimal => info_peak (ev_u0 e) (ev_te e) end.
(** lines 402 and 415 *)
Definition of_band (f : string) (l : list point) : list point := filter (fun p => String.eqb (o_band p) f) l.
Definition rsum (l : list R) : R := fold_right Rplus 0 l.
(** lines 328-329: a text is not comparable with a number; any other exception is a RuntimeError here *)
Definition allowed (detect : bool) (b : before) : result unit :=
  if detect then match b with Optimal => Err TypeError | Days d => if rltb 0 d then Err RuntimeError else Ok tt end else Ok tt.
(** metric_calc "detect", lines 395-435 and 497-509 *)
Definition run_detect (mags : list (string * R)) (pts : R) (sigma : R) (b : before) (detect : bool) (sp : list (string * R)) (l : list lens_visit) : result nat :=
  do _ <- allowed detect b;
  do r <- points mags sp l;
  let (e, ps) := r : event * list point in
  let pre f := filter (fun p => rltb (o_t p) (ev_peak e - lead e b)) (of_band f ps) in
  let post f := filter (fun p => rltb (ev_peak e) (o_t p)) (of_band f ps) in
  let npts := rsum (map (fun f => n_above sigma (pre f)) (bands ps)) in
  let npts_post := rsum (map (fun f => n_above sigma (post f)) (bands ps)) in
  Ok (if rleb pts npts && (negb detect || rleb pts npts_post) then 1%nat else 0%nat).
(** metric_calc "Npts", lines 437-453 and 510-511 *)
Definition run_npts (mags : list (string * R)) (sigma : R) (b : before) (detect : bool) (sp : list (string * R)) (l : list lens_visit) : result nat :=
  do _ <- allowed detect b;
  do r <- points mags sp l;
  let (e, ps) := r : event * list point in
  let pre p := rltb (o_t p) (ev_peak e) && rltb (ev_peak e - ev_te e) (o_t p) && rltb sigma (o_snr p) in
  let post p := rltb (ev_peak e) (o_t p) && rltb (o_t p) (ev_peak e + ev_te e) && rltb sigma (o_snr p) in
  let count g := fold_right Nat.add 0%nat (map (fun f => length (filter g (of_band f ps))) (bands ps)) in
  Ok (count pre + count post)%nat.
(** metric_calc "Fisher", lines 455-495 and 512-516: [infilt] is left over from the loop of lines 367-385, so it is that of the last band; fs and
    fb are magnitudes.  [inv] is np.linalg.inv, [None] a LinAlgError; the result [None] is infinite.  The code inverts the
    matrix after every band and keeps the last result: only the last inversion is modelled, not a failure of an earlier one. *)
Definition used (ps : list point) : list (R * R) := map (fun p => (o_t p, o_snr p)) (of_band (last (bands ps) EmptyString) ps).
Definition fs_fb (mags : list (string * R)) (e : event) (f : string) : result (R * R) :=
  match ev_own e with
  | Some tab => do p <- own tab f; Ok (fst p, snd p - fst p)
  | None => do m <- lookup mags f; Ok (m, m)
  end.
Fixpoint add_bands (mags : list (string * R)) (e : event) (n : nat) (l : list (R * R)) (fs : list string) (acc : nat -> nat -> R) : result (nat -> nat -> R) :=
  match fs with
  | [] => Ok acc
  | f :: t => do p <- fs_fb mags e f;
              add_bands mags e n l t (fun i j => acc i j + fisher_matrix n (ev_peak e) (ev_te e) (ev_u0 e) (fst p) (snd p) l i j)
  end.
Definition kept (n : nat) (m : nat -> nat -> R) : list nat := filter (fun i => if Req_EM_T (m i i) 0 then false else true) (seq 0 n).
Definition submatrix (n : nat) (m : nat -> nat -> R) : list (list R) := map (fun i => map (fun j => m i j) (kept n m)) (kept n m).
Definition run_fisher (inv : list (list R) -> option (list (list R))) (mags : list (string * R)) (b : before) (detect : bool) (sp : list (string * R)) (l : list lens_visit)
  : result (option R) :=
  do _ <- allowed detect b;
  do r <- points mags sp l;
  let (e, ps) := r : event * list point in
  let n := length (bands ps) in
  do m <- add_bands mags e n (used ps) (bands ps) (fun _ _ => 0);
  match inv (submatrix (2 * n + 3) m) with
  | None => Ok None
  | Some cov => do row <- arr_get cov 0; do c <- arr_get row 0; Ok (Some (sqrt c / ev_te e))
  end.
