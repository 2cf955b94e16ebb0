(** Model of the template-creation metric, rubin_sim/maf/metrics/incremental_template_metric.py.
    Magnitudes, seeing and times are real numbers (float rounding and overflow are not modelled); constants such as 0.6
    are written as fractions.  [n_images_in_template] is [S k], at least one. *)
From Coq Require Import String Ascii Reals ZArith List.
From Verif Require Import Base Calendar_Model Depth_Model.
From Verif Require Small_Model.
Import ListNotations.
Open Scope R_scope.

(** one row of the data slice: the columns of lines 117-118 *)
Record visit := { tv_mjd : R; tv_night : Z; tv_band : string; tv_m5 : R; tv_seeing : R }.

(** [data_slice.sort(order=mjd_col)], line 132.  Simplified: visits with equal times keep their order (numpy compares the
    other columns). *)
Fixpoint vinsert (v : visit) (l : list visit) : list visit :=
  match l with [] => [v] | w :: t => if Rle_dec (tv_mjd v) (tv_mjd w) then v :: l else w :: vinsert v t end.
Definition vsort (l : list visit) : list visit := fold_right vinsert [] l.

(** [np.unique(bands)[0]], line 137: the first name in the order of strings; the slice is not empty here because
    [n_images_in_template] is at least one *)
Fixpoint first_band (b : string) (l : list string) : string :=
  match l with [] => b | c :: t => first_band (if str_leb b c then b else c) t end.

(** [np.percentile] with linear interpolation, lines 140 and 153 *)
Definition percentile (l : list R) (p : R) : R :=
  let s := Small_Model.rsort l in
  let h := p / 100 * INR (length s - 1) in
  let lo := Z.to_nat (Int_part h) in
  let a := nth lo s 0 in
  let b := nth (Nat.min (S lo) (length s - 1)) s 0 in
  a + (h - IZR (Int_part h)) * (b - a).

(** [np.where(mask)[0]], line 160 *)
Definition where_idx (p : visit -> bool) (l : list visit) : list nat :=
  map fst (filter (fun iv => p (snd iv)) (combine (seq 0 (length l)) l)).

Definition rleb (x y : R) : bool := if Rle_dec x y then true else false.
Definition rltb (x y : R) : bool := if Rlt_dec x y then true else false.

(** the arguments of the constructor, lines 62-115; [m5_threshold] is a dictionary or a number; [eff_wavelens] comes from
    SysEngVals, [season] is [calc_season] of the slice point's right ascension (both of rubin_scheduler) *)
Record config := {
  cf_k : nat;                                   (* n_images_in_template - 1 *)
  cf_seeing : R; cf_seeing_pct : R;
  cf_m5 : (string -> option R) + R; cf_m5_pct : R;
  cf_lat : R; cf_wavelens : string -> option R; cf_season : R -> R }.

(** the default thresholds, line 83 *)
Definition default_m5 (b : string) : option R :=
  dget String.eqb [("u", 23.7); ("g", 24.9); ("r", 24.5); ("i", 24.1); ("z", 23.5); ("y", 22.5)]%string b.
(** [self.extinction_coeffs], lines 108-115 *)
Definition extinction_coeffs (b : string) : option R :=
  dget String.eqb [("u", -0.46); ("g", -0.21); ("r", -0.12); ("i", -0.07); ("z", -0.06); ("y", -0.10)]%string b.

Definition key {A} (o : option A) : result A := match o with Some x => Ok x | None => Err KeyError end.

(** the dictionary [result], lines 203-227; [None] for the fraction is NaN (0/0); the light curve keeps the columns mjd,
    night, band, diff_m5, science_m5, science_seeing and n_alerts (template_m5 and template_seeing are constant there) *)
Record lc_row := { lc_mjd : R; lc_night : Z; lc_band : string; lc_diff : R; lc_m5 : R; lc_seeing : R; lc_alerts : R }.
Record template := {
  te_bench_seeing : R; te_bench_m5 : R; te_night : Z; te_season : R; te_until : nat; te_with : nat;
  te_m5 : R; te_seeing : R; te_alerts : R; te_input_m5s : list R; te_input_seeing : list R;
  te_better : option R; te_lc : list lc_row }.

(** lines 134-138 and 148-152: the best possible seeing and depth at the slice point, for band [b] *)
Definition min_airmass (dec lat : R) : R := 1 / cos (Rabs (dec - lat)).
Definition best_seeing (thr x lam : R) : R := thr * Rpower x (6/10) * Rpower (500 / lam) (3/10).
Definition best_m5 (m5thr coeff x thr best : R) : R := m5thr - coeff * (1 - x) + 25/10 * log10 (thr / best).

(** the two benchmarks, lines 134-154 *)
Definition benches (cf : config) (dec : R) (data : list visit) : result (R * R) :=
  match data with
  | [] => Err IndexError
  | v :: t =>
      let x := min_airmass dec (cf_lat cf) in
      let band := first_band (tv_band v) (map tv_band t) in
      do lam <- key (cf_wavelens cf band);
      let best := best_seeing (cf_seeing cf) x lam in
      let bench_seeing := Rmax best (percentile (map tv_seeing data) (cf_seeing_pct cf)) in
      do m5thr <- match cf_m5 cf with inl d => key (d band) | inr m => Ok m end;
      do coeff <- key (extinction_coeffs band);
      let bm := best_m5 m5thr coeff x (cf_seeing cf) best in
      Ok (bench_seeing, Rmin bm (percentile (map tv_m5 data) (100 - cf_m5_pct cf)))
  end.

(** lines 156-160 *)
Definition ok_visit (bs bm : R) (v : visit) : bool := rleb (tv_seeing v) bs && rleb bm (tv_m5 v).

(** lines 184 and 186-196, of the template's inputs *)
Definition template_m5 (inputs : list visit) : R := 5/4 * log10 (rsum (map (fun v => flux (tv_m5 v)) inputs)).
Definition template_f0 (inputs : list visit) : R := sqrt (rsum (map (fun v => 25 * flux (tv_m5 v)) inputs)).
Definition image_noise (f0 : R) (v : visit) : R := f0 / 5 * Rpower 10 (- (4/10) * tv_m5 v).
Definition template_seeing (inputs : list visit) : R :=
  sqrt (rsum (map (fun v => (tv_seeing v / image_noise (template_f0 inputs) v) ^ 2) inputs)).
(** lines 198-201 *)
Definition diff_m5 (tm5 : R) (v : visit) : R :=
  tv_m5 v + - (25/10) * log10 (sqrt (1 + Rpower 10 (- (4/5) * (tm5 - tv_m5 v)))).
Definition n_alerts (d : R) : R := 10000 * Rpower 10 (6/10 * (d - 24.7)).

(** run, lines 124-229; [None] is [self.badval] *)
Definition run (cf : config) (dec : R) (data0 : list visit) : result (option template) :=
  if (length data0 <? S (cf_k cf))%nat then Ok None
  else
    let data := vsort data0 in
    do b <- benches cf dec data;
    let '(bs, bm) := b in
    let ok := where_idx (ok_visit bs bm) data in
    if (length ok <? S (cf_k cf))%nat then Ok None
    else
      do created <- arr_get ok (cf_k cf);
      do c <- arr_get data created;
      let inputs := flat_map (fun i => match nth_error data i with Some v => [v] | None => [] end) (firstn (S (cf_k cf)) ok) in
      let later := filter (fun v => (tv_night c <? tv_night v)%Z) data in
      let tm5 := template_m5 inputs in
      let tsee := template_seeing inputs in
      Ok (Some {| te_bench_seeing := bs; te_bench_m5 := bm; te_night := tv_night c; te_season := cf_season cf (tv_mjd c);
                  te_until := created + 1; te_with := length later; te_m5 := tm5; te_seeing := tsee;
                  te_alerts := rsum (map (fun v => n_alerts (diff_m5 tm5 v)) later);
                  te_input_m5s := map tv_m5 inputs; te_input_seeing := map tv_seeing inputs;
                  te_better := match later with
                               | [] => None
                               | _ => Some (INR (length (filter (fun v => rltb tsee (tv_seeing v)) later)) / INR (length later))
                               end;
                  te_lc := map (fun v => {| lc_mjd := tv_mjd v; lc_night := tv_night v; lc_band := tv_band v;
                                            lc_diff := diff_m5 tm5 v; lc_m5 := tv_m5 v; lc_seeing := tv_seeing v;
                                            lc_alerts := n_alerts (diff_m5 tm5 v) |}) later |}).
