(** Model of the prenight simulation tools: sim_archive/prenightindex.py, sim_archive/prenight.py, and
    find_latest_prenight_sim_for_nights of sim_archive/prototype.py and sim_archive/sim_archive.py.
    Times are microseconds (Z) as in Calendar_Model. *)
From Verif Require Import Base Calendar_Model.
From Coq Require Import QArith.
Open Scope Z_scope.

(** set(tags).issubset(sim["tags"]) *)
Definition has_tags (wanted have : list string) : bool := forallb (fun g => existsb (String.eqb g) have) wanted.

(** * select_latest_prenight_sim *)
(** a row of the table: its label, tags and creation time *)
Record psim := mkPsim { ps_id : nat; ps_tags : list string; ps_created : Z }.
(** timedelta.days: whole days, rounded down *)
Definition age_days (now created : Z) : Z := (now - created) / day_us.
(** the loop of select_latest_prenight_sim, prenightindex.py:445-458; [now i] is the clock read in round i *)
Fixpoint select_from (now : nat -> Z) (tags : list string) (max_age : Z) (i : nat) (best : option psim)
    (rows : list psim) : option psim :=
  match rows with
  | [] => best
  | s :: rest =>
      let best' :=
        if negb (has_tags tags (ps_tags s)) then best
        else if match best with Some b => ps_created s <? ps_created b | None => false end then best
        else if max_age <? age_days (now i) (ps_created s) then best
        else Some s in
      select_from now tags max_age (S i) best' rest
  end.
(** select_latest_prenight_sim, prenightindex.py:421-464 *)
Definition select_latest (now : nat -> Z) (rows : list psim) (tags : list string) (max_age : Z) : option psim :=
  select_from now tags max_age 0 None rows.

(** find_latest_prenight_sim_for_nights, sim_archive.py:365-392: [idx d] is the index of night d; the labels of the
    simulations in both indices go through a set, whose order is the oracle [reorder].
    NoMatchingSimulationsFoundError is a ValueError here. *)
Definition find_latest_for_nights (now : nat -> Z) (idx : Z -> list psim) (reorder : list psim -> list psim)
    (first last : Z) (tags : list string) (max_age : Z) : result psim :=
  let sims_first := idx first in
  let cand := if first =? last then sims_first
              else filter (fun s => existsb (fun r => Nat.eqb (ps_id s) (ps_id r)) (idx last)) sims_first in
  match select_latest now (reorder cand) tags max_age with Some s => Ok s | None => Err ValueError end.

(** the age condition of sims_on_nights, vseqmetadata.py:1468: creation_time >= NOW() - N days *)
Definition query_age_ok (now created max_age : Z) : bool := now - max_age * day_us <=? created.

(** * the prototype archive *)
Record osim := mkOsim { os_first : Z; os_last : Z; os_tel : option string; os_tags : list string;
                        os_exec : Z; os_index : Z }.
Section Proto.
  Variable lower : string -> string.                        (* str.lower *)
  (** the tests at prototype.py:796-803; ISO dates are compared as texts, which is the order of the dates (C88) *)
  Definition proto_match (first last : Z) (tel : string) (tags : list string) (s : osim) : bool :=
    negb (first <? os_first s) && negb (os_last s <? last)
    && match os_tel s with Some t => String.eqb (lower t) (lower tel) | None => true end
    && has_tags tags (os_tags s).
  (** one round of the loop, prototype.py:791-809 *)
  Definition proto_step (first last : Z) (tel : string) (tags : list string) (best : option osim) (s : osim) : option osim :=
    if negb (proto_match first last tel tags s) then best
    else match best with
         | None => Some s
         | Some b => if os_exec s <? os_exec b then best
                     else if os_index s <? os_index b then best
                     else Some s
         end.
  (** find_latest_prenight_sim_for_nights, prototype.py:732-822, the archive given as the list of its simulations *)
  Definition proto_find (first last : Z) (tel : string) (tags : list string) (sims : list osim) : option osim :=
    fold_left (proto_step first last tel tags) sims None.
End Proto.

(** * AnomalousOverheadFunc *)
Record ov_params := mkOv { slew_scale : Q; slew_loc : Q; min_overhead : Q }.
Definition qltb (a b : Q) : bool := negb (Qle_bool b a).
(** the slew part, prenight.py:184-207; [z] is what rng.normal(slew_loc, slew_scale) returns *)
Definition slew_part (p : ov_params) (slewtime : option Q) (obs : option (list (string * Q))) (z : Q) : result Q :=
  if qltb 0 (slew_scale p) || qltb 0 (slew_loc p) then
    do st <- match slewtime with
             | Some s => Ok s
             | None => match obs with
                       | None => Err AssertionError
                       | Some o => match dget String.eqb o "slewtime"%string with Some s => Ok s | None => Err KeyError end
                       end
             end ;
    let off := (st * z)%Q in
    Ok (if qltb (st + off)%Q 0 then ((-1) * st)%Q else off)
  else Ok 0%Q.
(** the keys needed for the check, prenight.py:216-222 *)
Definition model_overhead (o : list (string * Q)) : option Q :=
  match dget String.eqb o "slewtime"%string, dget String.eqb o "visittime"%string, dget String.eqb o "exptime"%string with
  | Some s, Some v, Some e => Some (s + v - e)%Q
  | _, _, _ => None
  end.
(** AnomalousOverheadFunc.__call__, prenight.py:146-232; [scatter] is the draw from the scatter distribution.  The
    second component says whether the minimum could be checked (a warning is given otherwise). *)
Definition overhead_offset (p : ov_params) (slewtime : option Q) (obs : option (list (string * Q))) (z scatter : Q)
    : result (Q * bool) :=
  do sp <- slew_part p slewtime obs z ;
  let off := (sp + scatter)%Q in
  match obs with
  | None => Ok (off, false)
  | Some o => match model_overhead o with
              | None => Ok (off, false)
              | Some m => Ok (if qltb (m + off)%Q (min_overhead p) then (min_overhead p - m)%Q else off, true)
              end
  end.

(** * compute_sim_start_and_end *)
Record night := mkNight { sunset : Z; sun_n12_setting : Z; sunrise : Z }.
(** indexing of a numpy array, with negative positions counted from the end *)
Definition py_get {A} (l : list A) (i : Z) : result A :=
  let n := Z.of_nat (length l) in
  let j := if i <? 0 then i + n else i in
  if (0 <=? j) && (j <? n) then arr_get l (Z.to_nat j) else Err IndexError.
Definition ceil_days (t : Z) : Z := - ((- t) / day_us).
(** compute_sim_start_and_end, prenight.py:235-273; the delay in microseconds; MJD - DJD = 15019.5 days *)
Definition sim_start_and_end (al : list night) (day_obs : Z) (sim_nights : Z) (delay : Z) : result (Z * Z) :=
  do n0 <- py_get al 0 ;
  let night0_djd := (sunset n0 - (15019 * day_us + half_us)) / day_us in
  do d <- dayobs_to_date (DInt day_obs) ;
  let day_obs_djd := ymd2ord d - ymd2ord (mkDate 1899 12 31) in
  let start_night := day_obs_djd - night0_djd in
  do n1 <- py_get al start_night ;
  let start := sun_n12_setting n1 + delay in
  let end_night := start_night + sim_nights - 1 in
  do n2 <- py_get al end_night ;
  let dur := sunrise n2 - start in
  if ceil_days dur =? sim_nights then Ok (start, dur) else Err AssertionError.

(** * Lookup in the index of a night *)
(** a row of the index: uuid, creation day, daily id *)
Record irow := mkIrow { ir_uuid : nat; ir_day : Z; ir_daily : Z }.
(** get_prenight_index, prenightindex.py:142-190: a table, or the empty DataFrame without columns when neither the
    database nor the file is there (None) *)
Definition pindex := option (list irow).
(** one round of the loop of _get_sim_uuid_from_metadata_index, prenightindex.py:292-300 *)
Definition lookup_step (sim_date daily_id : Z) (acc : result (option nat)) (ix : pindex) : result (option nat) :=
  do m <- acc ;
  match ix with
  | None => Err AttributeError
  | Some rows =>
      match filter (fun r => (ir_day r =? sim_date) && (ir_daily r =? daily_id)) rows with
      | [] => Ok m
      | [r] => Ok (Some (ir_uuid r))
      | _ => Err AssertionError
      end
  end.
(** _get_sim_uuid_from_metadata_index, prenightindex.py:250-306: [ixs] are the indices of the night for the telescopes
    in TELESCOPES (simonyi, auxtel) *)
Definition lookup_uuid (ixs : list pindex) (sim_date daily_id : Z) : result nat :=
  do m <- fold_left (lookup_step sim_date daily_id) ixs (Ok None) ;
  match m with Some u => Ok u | None => Err ValueError end.

(** int of a day_obs that is a date, text or integer: prenightindex.py:281-288 (get_sim_uuid) *)
Definition uuid_day_obs (a : dayobs_arg) : result Z :=
  match a with
  | DStr s => parse_int (drop_dashes s)
  | DDate d => parse_int (pad4 (year d) ++ pad2 (month d) ++ pad2 (day d))%string
  | DInt n => Ok n
  | DNumpyInt n => Ok n
  | DTime _ => Err TypeError
  end.
(** the same in _get_sim_metadata_from_metadata_index, prenightindex.py:384-386: dashes are not removed *)
Definition metadata_day_obs (a : dayobs_arg) : result Z :=
  match a with
  | DStr s => parse_int s
  | DDate d => parse_int (pad4 (year d) ++ pad2 (month d) ++ pad2 (day d))%string
  | DInt n => Ok n
  | DNumpyInt n => Ok n
  | DTime _ => Err TypeError
  end.
