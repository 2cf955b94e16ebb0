(** Model of the class Sed as an object with state, of the state of Bandpass, of dust, redshift and renormalization:
    rubin_sim/phot_utils/sed.py and bandpass.py.
    Numbers are real numbers (exact); [None] is NaN in an array. *)
From Verif Require Import Base Astrom_Model MoMag_Model Resample_Model Phot_Model.
From Coq Require Import Reals.
Open Scope R_scope.

Definition vals := list (option R).
(** the attributes wavelen, flambda, fnu and zp, sed.py:383-404; None before they are set *)
Record sed := { s_w : option (list R); s_fl : option vals; s_fnu : option vals; s_zp : R }.
Definition new_sed : sed := {| s_w := None; s_fl := None; s_fnu := None; s_zp := zp_new |}.
(** an array of wavelengths with an array of fluxes, element by element *)
Definition zipo (h : R -> R -> R) (w : list R) (v : vals) : vals := map (fun p => option_map (h (fst p)) (snd p)) (combine w v).
Definition nus (w : list R) (v : vals) : vals := zipo to_fnu w v.
Definition lambdas (w : list R) (v : vals) : vals := zipo to_flambda w v.
Definition put (s : sed) (w : option (list R)) (fl fnu : option vals) : sed := {| s_w := w; s_fl := fl; s_fnu := fnu; s_zp := s_zp s |}.

(** Sed.set_sed, sed.py:454-486, of arrays: the new state and how the call ends *)
Definition set_sed (s : sed) (w : list R) (fl fnu : option vals) : sed * result unit :=
  match fl with
  | Some f => if Nat.eqb (length f) (length w) then (put s (Some w) (Some f) None, Ok tt) else (put s (Some w) None None, Err ValueError)
  | None => match fnu with
            | None => (put s (Some w) None None, Err ValueError)
            | Some f => if Nat.eqb (length f) (length w) then (put s (Some w) (Some (lambdas w f)) (Some f), Ok tt) else (put s (Some w) None None, Err ValueError)
            end
  end.
(** Sed.set_flat_sed, sed.py:488-498 *)
Definition set_flat_sed (s : sed) (mn mx step : R) : sed * result unit :=
  let w := sed_grid mn mx step in let f := map (fun _ => Some 3631) w in (put s (Some w) (Some (lambdas w f)) (Some f), Ok tt).
(** Sed.read_sed_flambda and read_sed_fnu, sed.py:500-619, of a file with these columns *)
Definition read_sed_flambda (s : sed) (rows : list (R * R)) : sed * result unit :=
  (put s (Some (map fst rows)) (Some (map (fun r => Some (snd r)) rows)) None, Ok tt).
Definition read_sed_fnu (s : sed) (rows : list (R * R)) : sed * result unit :=
  let w := map fst rows in let f := map (fun r => Some (snd r)) rows in (put s (Some w) (Some (lambdas w f)) (Some f), Ok tt).
(** Sed.clear_sed, sed.py:648-657 *)
Definition clear_sed (s : sed) : sed * result unit := ({| s_w := None; s_fl := None; s_fnu := None; s_zp := zp_cleared |}, Ok tt).
(** Sed.flambda_tofnu and fnu_toflambda of self, sed.py:820-878; None times an array is a TypeError *)
Definition flambda_tofnu (s : sed) : sed * result unit :=
  match s_w s, s_fl s with
  | Some w, Some f => (put s (Some w) (Some f) (Some (nus w f)), Ok tt)
  | _, _ => (put s (s_w s) (s_fl s) None, Err TypeError)
  end.
Definition fnu_toflambda (s : sed) : sed * result unit :=
  match s_w s, s_fnu s with
  | Some w, Some f => (put s (Some w) (Some (lambdas w f)) (Some f), Ok tt)
  | _, _ => (s, Err TypeError)
  end.
(** Sed.resample_sed of self, sed.py:747-818. The new arrays are arbitrary here (Resample_Model.v has their values): [None] when
    no resampling is needed, [Some None] when resampling fails *)
Definition resample_self (s : sed) (outcome : option (option (list R * vals))) : sed * result unit :=
  match outcome with
  | None => (s, Ok tt)
  | Some None => (put s (s_w s) (s_fl s) None, Err ValueError)
  | Some (Some (w, f)) => (put s (Some w) (Some f) None, Ok tt)
  end.
(** Sed.synchronize_sed, sed.py:659-676, without and with a grid *)
Definition synchronize_sed (s : sed) (outcome : option (option (list R * vals))) : sed * result unit :=
  match resample_self s outcome with
  | (s', Ok _) => flambda_tofnu s'
  | (s', Err e) => (s', Err e)
  end.
(** Sed.redshift_sed, sed.py:883-918 *)
Definition shift_w (z w : R) : R := if rltb z 0 then w / (1 - z) else w * (1 + z).
Definition dim (z f : R) : R := if rltb z 0 then f * (1 - z) else f / (1 + z).
Definition redshift_arrays (z : R) (dimming : bool) (w f : list R) : list R * list R :=
  (map (shift_w z) w, if dimming then map (dim z) f else f).
Definition redshift_sed (s : sed) (z : R) (dimming : bool) : sed * result unit :=
  match s_w s with
  | None => (put s None (s_fl s) None, Err TypeError)
  | Some w =>
    let w' := map (shift_w z) w in
    if dimming then match s_fl s with
                    | None => (put s (Some w) None None, Err TypeError)
                    | Some f => (put s (Some w') (Some (map (option_map (dim z)) f)) None, Ok tt)
                    end
    else (put s (Some w') (s_fl s) None, Ok tt)
  end.
(** the parameters of the dust, sed.py:1108-1124: A_V and R_V from what was given *)
Definition dust_params (a_v ebv : option R) (r_v : R) : result (R * R) :=
  do first <- (if Req_EM_T r_v (31/10) then
     match a_v, ebv with
     | None, None => Err TypeError
     | None, Some e => Ok (Some (r_v * e), r_v)
     | Some a, Some e => if Req_EM_T e 0 then Err ZeroDivisionError else Ok (Some a, a / e)
     | Some a, None => Ok (Some a, r_v)
     end
   else Ok (a_v, r_v));
  let a := fst first in let r := snd first in
  if Req_EM_T r (31/10) then match a with Some a => Ok (a, r) | None => Err TypeError end
  else match a, ebv with
       | Some a, Some e => if Req_EM_T e 0 then Err ZeroDivisionError else if Req_EM_T (a / e) r then Ok (a, r) else Err ValueError
       | None, None => Err TypeError
       | None, Some e => Ok (r * e, r)
       | Some a, None => Ok (a, r)
       end.
(** the factor on the flux, sed.py:1127-1130 *)
Definition dust_factor (a_v r_v ax bx : R) : R := exp (- ((ax + bx / r_v) * a_v) * (2/5 * ln 10)).
Definition dusty (a_v r_v : R) (ab : list (R * R)) (f : vals) : vals :=
  map (fun p => option_map (fun x => x * dust_factor a_v r_v (fst (fst p)) (snd (fst p))) (snd p)) (combine ab f).
(** Sed.add_dust of self, sed.py:1077-1136; arrays of another length are a ValueError (one-element arrays, which numpy would
    spread, are not modelled) *)
Definition add_dust (s : sed) (ab : list (R * R)) (a_v ebv : option R) (r_v : R) : sed * result unit :=
  let s0 := put s (s_w s) (s_fl s) None in
  match dust_params a_v ebv r_v with
  | Err e => (s0, Err e)
  | Ok (a, r) => match s_fl s with
                 | None => (s0, Err TypeError)
                 | Some f => if Nat.eqb (length ab) (length f) then (put s (s_w s) (Some (dusty a r ab f)) None, Ok tt) else (s0, Err ValueError)
                 end
  end.
(** what calc_adu, calc_flux, calc_mag and calc_flux_norm of self do to it, sed.py:1212-1218, 1312-1318, 1354-1359 *)
Definition ensure_fnu (s : sed) : sed * result unit := match s_fnu s with Some _ => (s, Ok tt) | None => flambda_tofnu s end.
(** Sed.multiply_flux_norm of self, sed.py:1371-1402 *)
Definition mult_norm (s : sed) (k : R) : sed * result unit :=
  match ensure_fnu s with
  | (s', Err e) => (s', Err e)
  | (s', Ok _) => match s_fnu s' with
                  | Some f => fnu_toflambda (put s' (s_w s') (s_fl s') (Some (map (option_map (fun x => x * k)) f)))
                  | None => (s', Err TypeError)
                  end
  end.
(** Sed.get_sed_flambda and get_sed_fnu, sed.py:621-644; numpy.copy of None is an array without numbers, which is a TypeError
    here *)
Definition get_sed_flambda (s : sed) : result (list R * vals) :=
  match s_w s, s_fl s with Some w, Some f => Ok (w, f) | _, _ => Err TypeError end.
Definition get_sed_fnu (s : sed) : result (list R * vals) :=
  match s_w s with
  | None => Err TypeError
  | Some w => match s_fnu s with
              | Some f => Ok (w, f)
              | None => match s_fl s with Some f => Ok (w, nus w f) | None => Err TypeError end
              end
  end.

(** numpy.interp of an ascending array, and its use in renormalize_sed, sed.py:1455-1465 *)
Fixpoint interp (w f : list R) (x : R) : R :=
  match w, f with
  | a :: ((b :: _) as wt), p :: ((q :: _) as ft) =>
      if rleb x a then p else if rleb x b then p + (q - p) / (b - a) * (x - a) else interp wt ft x
  | _, p :: _ => p
  | _, _ => 0
  end.
(** Sed.renormalize_sed of arrays or of a Sed without NaN, sed.py:1404-1526: flambda and fnu afterwards. There is no default
    step: PhysicalParameters has no wavelenstep, physical_parameters.py:10-14; there is no method fnutoflambda, sed.py:1519. Of
    the errors of normflux="fnu" only that there is one is claimed: with gap=0 numpy.interp gets None for the fluxes, and all the
    other ways end at the missing method *)
Inductive normflux := NFlambda | NFnu | NOther.
Definition renormalize (wavelen_step : option R) (nf : normflux) (w fl : list R) (lambdanorm normvalue gap : R) : result (list R) :=
  match wavelen_step with
  | None => Err AttributeError
  | Some step =>
    match nf with
    | NOther => Err UnboundLocalError
    | NFnu => if orb (rltb (last w 0) lambdanorm) (rltb lambdanorm (hd 0 w)) then Err ValueError
              else if Req_EM_T gap 0 then Err ValueError else Err AttributeError
    | NFlambda =>
      if orb (rltb (last w 0) lambdanorm) (rltb lambdanorm (hd 0 w)) then Err ValueError
      else
        let gapval := if Req_EM_T gap 0 then interp w fl lambdanorm
                      else let pts := arange (lambdanorm - gap) (lambdanorm + gap) step in
                           rsum (map (interp w fl) pts) / INR (length pts) in
        if Req_EM_T gapval 0 then Err ValueError else Ok (map (fun x => x * (normvalue / gapval)) fl)
    end
  end.

(** a(x) and b(x) of the dust laws, sed.py:938-999, 1001-1061, at x inverse microns; later ranges override earlier ones *)
Definition horner (cs : list R) (y : R) : R := fold_right (fun c acc => c + y * acc) 0 cs.
Definition ir_a (x : R) : R := 574 / 1000 * Rpower x (161 / 100).
Definition ir_b (x : R) : R := - (527 / 1000) * Rpower x (161 / 100).
Definition ccm_opt_a : list R := [1; 17699/100000; -50447/100000; -2427/100000; 72085/100000; 1979/100000; -77530/100000; 32999/100000].
Definition ccm_opt_b : list R := [0; 141338/100000; 228305/100000; 107233/100000; -538434/100000; -62251/100000; 530260/100000; -209002/100000].
Definition odo_opt_a : list R := [1; 104/1000; -609/1000; 701/1000; 1137/1000; -1718/1000; -827/1000; 1647/1000; -505/1000].
Definition odo_opt_b : list R := [0; 1952/1000; 2908/1000; -3989/1000; -7985/1000; 11102/1000; 5491/1000; -10805/1000; 3347/1000].
Definition uv_a (y : R) : R := 1752/1000 - 316/1000 * y - 104/1000 / ((y - 467/100) * (y - 467/100) + 341/1000).
Definition uv_b (y : R) : R := - (3090/1000) + 1825/1000 * y + 1206/1000 / ((y - 462/100) * (y - 462/100) + 263/1000).
Definition uv_fa (y : R) : R := let d := y - 59/10 in - (4473/100000) * (d * d) - 9779/1000000 * (d * d * d).
Definition uv_fb (y : R) : R := let d := y - 59/10 in 2130/10000 * (d * d) + 1207/10000 * (d * d * d).
Definition fuv_a (x : R) : R := horner [-1073/1000; -628/1000; 137/1000; -70/1000] (x - 8).
Definition fuv_b (x : R) : R := horner [13670/1000; 4257/1000; -420/1000; 374/1000] (x - 8).
Definition dust_law (opt_a opt_b : list R) (x : R) : R * R :=
  if andb (rleb 8 x) (rleb x 11) then (fuv_a x, fuv_b x)
  else if andb (rltb (59/10) x) (rltb x 8) then (uv_a x + uv_fa x, uv_b x + uv_fb x)
  else if andb (rleb (33/10) x) (rltb x (59/10)) then (uv_a x, uv_b x)
  else if andb (rleb (11/10) x) (rleb x (33/10)) then (horner opt_a (x - 182/100), horner opt_b (x - 182/100))
  else if andb (rleb (3/10) x) (rleb x (11/10)) then (ir_a x, ir_b x)
  else (0, 0).
Definition inverse_microns (nm : R) : R := 1 / (nm * (1 / 1000)).
Definition setup_ccm_ab (w : list R) : list (R * R) := map (fun l => dust_law ccm_opt_a ccm_opt_b (inverse_microns l)) w.
Definition setup_o_donnell_ab (w : list R) : list (R * R) := map (fun l => dust_law odo_opt_a odo_opt_b (inverse_microns l)) w.

(** Sed.write_sed, sed.py:1528-1575: the rows printed; with print_fnu the name fnu is the pair (wavelen, fnu), of which row [i]
    prints element [i] *)
Inductive cell := Num (x : R) | Arr (l : list R).
Fixpoint print_rows (w fl : list R) (rows : list (R * R)) (i : nat) : list (R * R * cell) * result unit :=
  match rows with
  | [] => ([], Ok tt)
  | (a, b) :: t =>
    match i with
    | O => let r := print_rows w fl t 1 in ((a, b, Arr w) :: fst r, snd r)
    | S O => let r := print_rows w fl t 2 in ((a, b, Arr (map (fun p => to_fnu (fst p) (snd p)) (combine w fl))) :: fst r, snd r)
    | _ => ([], Err IndexError)
    end
  end.
Definition write_sed_fnu (w fl : list R) : list (R * R * cell) * result unit := print_rows w fl (combine w fl) 0.
(** Sed.multiply_sed, sed.py:1138-1181, of two spectra at the same wavelengths *)
Definition multiply_sed (wavelen_step : option R) (w f h : list R) : result (list R * list R) :=
  match wavelen_step with None => Err AttributeError | Some _ => Ok (w, zip_with Rmult f h) end.

(** the attributes of a Bandpass, bandpass.py:71-80 *)
Record band := { bd_w : option (list R); bd_sb : option (list R); bd_phi : option (list R) }.
Definition new_band : band := {| bd_w := None; bd_sb := None; bd_phi := None |}.
Definition phi_of (w sb : list R) : list R :=
  let p := zip_with Rdiv sb w in let n := trapz p w in map (fun x => x / n) p.
(** Bandpass.resample_bandpass, bandpass.py:278-317: scipy's interp1d gives 0 outside the range *)
Definition interp0 (w f : list R) (x : R) : R := if orb (rltb x (hd 0 w)) (rltb (last w 0) x) then 0 else interp w f x.
Definition resample_arrays (w sb : list R) (mn mx step : R) : result (list R * list R) :=
  if orb (rltb mx (hd 0 w)) (rltb (last w 0) mn) then Err MetricRaised
  else let g := bandpass_grid mn mx step in Ok (g, map (interp0 w sb) g).
Definition resample_band (b : band) (mn mx step : R) : band * result unit :=
  match bd_w b, bd_sb b with
  | Some w, Some sb => match resample_arrays w sb mn mx step with
                       | Ok (g, v) => ({| bd_w := Some g; bd_sb := Some v; bd_phi := None |}, Ok tt)
                       | Err e => (b, Err e)
                       end
  | _, _ => (b, Err AttributeError)
  end.
(** Bandpass.set_bandpass, bandpass.py:82-110: nothing is set when the lengths differ *)
Definition set_band (b : band) (w sb : list R) : band * result unit :=
  if Nat.eqb (length w) (length sb) then ({| bd_w := Some w; bd_sb := Some sb; bd_phi := None |}, Ok tt) else (b, Err ValueError).
(** Bandpass.imsim_bandpass, bandpass.py:112-129 *)
Definition imsim_band (b : band) (centre mn mx step : R) : band * result unit :=
  let g := sed_grid mn mx step in
  ({| bd_w := Some g; bd_sb := Some (map (fun x => if rltb (Rabs (x - centre)) (step / 2) then 1 else 0) g); bd_phi := None |}, Ok tt).
(** Bandpass.read_throughput, bandpass.py:131-188, of a file with these columns (None: there is no such file); the sorted rows are
    arbitrary here. After a list of names was read the list itself is taken for a name, lines 144-151 *)
Inductive file := NoFile | Rows (rows sorted : list (R * R)) (unique : bool) | NameList (w sb : list R).
Definition read_throughput (b : band) (f : file) : band * result unit :=
  match f with
  | NoFile => (new_band, Err OperationalError)
  | Rows r s unique => if unique then ({| bd_w := Some (map fst s); bd_sb := Some (map snd s); bd_phi := None |}, Ok tt)
                       else ({| bd_w := Some (map fst r); bd_sb := Some (map snd r); bd_phi := None |}, Err ValueError)
  | NameList w sb => ({| bd_w := Some w; bd_sb := Some sb; bd_phi := None |}, Err AttributeError)
  end.
(** Bandpass.sb_tophi, bandpass.py:321-332, and its use when phi is None, bandpass.py:382-383, 394-395, sed.py:1321-1322 *)
Definition band_tophi (b : band) : band * result unit :=
  match bd_w b, bd_sb b with
  | Some w, Some sb => ({| bd_w := Some w; bd_sb := Some sb; bd_phi := Some (phi_of w sb) |}, Ok tt)
  | _, _ => (b, Err TypeError)
  end.
Definition ensure_phi (b : band) : band * result unit := match bd_phi b with Some _ => (b, Ok tt) | None => band_tophi b end.

(** Sed.setup_phi_array, sed.py:1579-1613, for bandpasses with positive first and last wavelengths: the rows of phi, or an error
    when a row has not the length of the array *)
Definition rmin_of (l : list R) : R := match l with [] => 0 | x :: t => fold_left Rmin t x end.
Definition rmax_of (l : list R) : R := match l with [] => 0 | x :: t => fold_left Rmax t x end.
Definition setup_phi_array (bands : list (list R * list R)) : result (list (list R) * R) :=
  match bands with
  | [] => Err IndexError
  | b0 :: _ =>
    let step := nth 1 (fst b0) 0 - nth 0 (fst b0) 0 in
    let mn := rmin_of (map (fun b => hd 0 (fst b)) bands) in
    let mx := rmax_of (map (fun b => last (fst b) 0) bands) in
    let n := length (sed_grid mn mx step) in
    do rows <- map_ok (fun b =>
        do r <- resample_arrays (fst b) (snd b) mn mx step;
        let p := phi_of (fst r) (snd r) in
        if Nat.eqb (length p) n then Ok p else Err ValueError) bands;
    Ok (rows, step)
  end.
(** Sed.many_flux_calc, sed.py:1615-1657 *)
Definition many_flux_calc (fnu : list R) (rows : list (list R)) (step : R) : list R :=
  map (fun p => rsum (zip_with Rmult p fnu) * step) rows.

(** a call of a method of a Sed on itself; the calls on passed arrays do not change it *)
Inductive op :=
| SetSed (w : list R) (fl fnu : option vals) | SetFlat (mn mx st : R)
| ReadFlambda (rows : list (R * R)) | ReadFnu (rows : list (R * R)) | Clear
| ToFnu | ToFlambda | Resample (outcome : option (option (list R * vals))) | Synchronize (outcome : option (option (list R * vals)))
| Redshift (z : R) (dimming : bool) | Dust (ab : list (R * R)) (a_v ebv : option R) (r_v : R)
| Measure | MultNorm (k : R).
Definition step (s : sed) (o : op) : sed * result unit :=
  match o with
  | SetSed w fl fnu => set_sed s w fl fnu
  | SetFlat mn mx st => set_flat_sed s mn mx st
  | ReadFlambda rows => read_sed_flambda s rows
  | ReadFnu rows => read_sed_fnu s rows
  | Clear => clear_sed s
  | ToFnu => flambda_tofnu s
  | ToFlambda => fnu_toflambda s
  | Resample r => resample_self s r
  | Synchronize r => synchronize_sed s r
  | Redshift z d => redshift_sed s z d
  | Dust ab a e r => add_dust s ab a e r
  | Measure => ensure_fnu s
  | MultNorm k => mult_norm s k
  end.
Definition run (s : sed) (os : list op) : sed := fold_left (fun s o => fst (step s o)) os s.

(** Bandpass.read_throughput_list, bandpass.py:190-245: the components on the grid, of which one may fail *)
Fixpoint mult_all (sb : list R) (comps : list (result (list R))) : list R * result unit :=
  match comps with
  | [] => (sb, Ok tt)
  | Err e :: _ => (sb, Err e)
  | Ok c :: t => mult_all (zip_with Rmult sb c) t
  end.
Definition read_list (b : band) (mn mx st : R) (comps : list (result (list R))) : band * result unit :=
  let g := bandpass_grid mn mx st in let r := mult_all (map (fun _ => 1) g) comps in
  ({| bd_w := Some g; bd_sb := Some (fst r); bd_phi := None |}, snd r).
Inductive bop :=
| BSet (w sb : list R) | BImsim (centre mn mx st : R) | BRead (f : file) | BReadList (mn mx st : R) (comps : list (result (list R)))
| BResample (mn mx st : R) | BToPhi | BMeasure.
Definition bstep (b : band) (o : bop) : band * result unit :=
  match o with
  | BSet w sb => set_band b w sb
  | BImsim c mn mx st => imsim_band b c mn mx st
  | BRead f => read_throughput b f
  | BReadList mn mx st comps => read_list b mn mx st comps
  | BResample mn mx st => resample_band b mn mx st
  | BToPhi => band_tophi b
  | BMeasure => ensure_phi b
  end.
Definition brun (b : band) (os : list bop) : band := fold_left (fun b o => fst (bstep b o)) os b.

(** The cache of spectra that were read, sed.py:500-574, with the arrays in memory: an array is an address of the heap. A name of a
    file is its stem and whether it ends in .gz (names ending in .gz.gz are not modelled). The cache of all shipped spectra is not
    loaded. *)
Definition fname := (nat * bool)%type.
Definition disk := fname -> option (list R * list R).
Record memory := { m_heap : list (list R); m_cache : list (fname * (nat * nat)); m_seds : list (nat * nat) }.
Definition name_eqb (a b : fname) : bool := andb (Nat.eqb (fst a) (fst b)) (Bool.eqb (snd a) (snd b)).
Fixpoint lookup (c : list (fname * (nat * nat))) (n : fname) : option (nat * nat) :=
  match c with [] => None | (k, v) :: t => if name_eqb k n then Some v else lookup t n end.
(** lines 531-535: the name without .gz has the last word *)
Definition cached (c : list (fname * (nat * nat))) (n : fname) : option (nat * nat) :=
  match lookup c (fst n, false) with Some v => Some v | None => lookup c (fst n, true) end.
(** lines 541-554: the zipped file first *)
Definition source (d : disk) (n : fname) : option (list R * list R) :=
  match d (fst n, true) with Some x => Some x | None => d (fst n, false) end.
Definition alloc (h : list (list R)) (x : list R) : list (list R) * nat := (h ++ [x], length h).
Definition read_cached (d : disk) (m : memory) (k : nat) (n : fname) (cache_sed : bool) : memory * result unit :=
  match cached (m_cache m) n with
  | Some (aw, af) =>
      let '(h1, w) := alloc (m_heap m) (nth aw (m_heap m) []) in
      let '(h2, f) := alloc h1 (nth af (m_heap m) []) in
      ({| m_heap := h2; m_cache := m_cache m; m_seds := set_nth (m_seds m) k (w, f) |}, Ok tt)
  | None =>
      match source d n with
      | None => (m, Err OperationalError)
      | Some (xw, xf) =>
          let '(h1, w) := alloc (m_heap m) xw in
          let '(h2, f) := alloc h1 xf in
          if cache_sed then
            let '(h3, cw) := alloc h2 xw in
            let '(h4, cf) := alloc h3 xf in
            ({| m_heap := h4; m_cache := (n, (cw, cf)) :: m_cache m; m_seds := set_nth (m_seds m) k (w, f) |}, Ok tt)
          else ({| m_heap := h2; m_cache := m_cache m; m_seds := set_nth (m_seds m) k (w, f) |}, Ok tt)
      end
  end.
(** what happens between: a new Sed, a read, a change in place of the fluxes or wavelengths of a Sed (add_dust, sed.py:1130, or the
    user), new arrays for a Sed (everything else) *)
Inductive mop := MNew | MRead (k : nat) (n : fname) (cache_sed : bool) | MInPlace (k : nat) (wave : bool) (x : list R) | MFresh (k : nat) (w f : list R).
Definition mstep (d : disk) (m : memory) (o : mop) : memory :=
  match o with
  | MNew => let '(h1, w) := alloc (m_heap m) [] in let '(h2, f) := alloc h1 [] in
            {| m_heap := h2; m_cache := m_cache m; m_seds := m_seds m ++ [(w, f)] |}
  | MRead k n c => fst (read_cached d m k n c)
  | MInPlace k wave x =>
      match nth_error (m_seds m) k with
      | Some (w, f) => {| m_heap := set_nth (m_heap m) (if wave then w else f) x; m_cache := m_cache m; m_seds := m_seds m |}
      | None => m
      end
  | MFresh k w f =>
      let '(h1, aw) := alloc (m_heap m) w in let '(h2, af) := alloc h1 f in
      {| m_heap := h2; m_cache := m_cache m; m_seds := set_nth (m_seds m) k (aw, af) |}
  end.
Definition mrun (d : disk) (os : list mop) : memory := fold_left (mstep d) os {| m_heap := []; m_cache := []; m_seds := [] |}.
Definition contents (m : memory) (k : nat) : option (list R * list R) :=
  match nth_error (m_seds m) k with Some (w, f) => Some (nth w (m_heap m) [], nth f (m_heap m) []) | None => None end.
