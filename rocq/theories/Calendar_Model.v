(** Model of the observing-day code: maf/stackers/date_stackers.py, sim_archive/util.py (dayobs_to_date),
    sim_archive/vseqarchive.py (compute_nightly_stats), sim_archive/sim_archive.py (make_sim_archive_dir,
    fetch_sim_for_nights, fetch_obsloctap_visits) and the parts of Python's datetime that they use.
    A time is a number of microseconds of UTC since MJD 0 (Z), without leap seconds; an MJD is that time in days,
    exactly (the code holds it in a float). *)
From Verif Require Import Base.
From Coq Require Import Ascii.
Open Scope Z_scope.

(** one day, half a day, one millisecond in microseconds *)
Definition day_us : Z := 86400000000.
Definition half_us : Z := 43200000000.
Definition ms_us : Z := 1000.

(** * datetime.date *)
Record date := mkDate { year : Z; month : Z; day : Z }.
(** datetime._is_leap, _days_in_month, _days_before_year, _days_before_month (CPython Lib/_pydatetime.py); external
    to /repo, used by util.py:33-40 and vseqarchive.py:67-68 *)
Definition is_leap (y : Z) : bool := (y mod 4 =? 0) && (negb (y mod 100 =? 0) || (y mod 400 =? 0)).
Definition month_len (m : Z) : Z := nth (Z.to_nat (m - 1)) [31;28;31;30;31;30;31;31;30;31;30;31] 0.
Definition days_in_month (y m : Z) : Z := if (if m =? 2 then is_leap y else false) then 29 else month_len m.
Definition days_before_year (y : Z) : Z := let p := y - 1 in p * 365 + p / 4 - p / 100 + p / 400.
Definition month_before (m : Z) : Z := nth (Z.to_nat (m - 1)) [0;31;59;90;120;151;181;212;243;273;304;334] 0.
Definition days_before_month (y m : Z) : Z := month_before m + (if (2 <? m) && is_leap y then 1 else 0).
(** datetime._check_date_fields: date(y, m, d) raises ValueError for anything else *)
Definition valid_date (d : date) : bool :=
  (1 <=? year d) && (year d <=? 9999) && (1 <=? month d) && (month d <=? 12)
  && (1 <=? day d) && (day d <=? days_in_month (year d) (month d)).
Definition make_date (y m d : Z) : result date :=
  if valid_date (mkDate y m d) then Ok (mkDate y m d) else Err ValueError.
(** datetime._ymd2ord: 1 January of year 1 is 1 *)
Definition ymd2ord (d : date) : Z := days_before_year (year d) + days_before_month (year d) (month d) + day d.
(** datetime._ord2ymd *)
Definition ord2ymd (n : Z) : date :=
  let n0 := n - 1 in
  let n400 := n0 / 146097 in let n1 := n0 mod 146097 in
  let n100 := n1 / 36524 in let n2 := n1 mod 36524 in
  let n4 := n2 / 1461 in let n3 := n2 mod 1461 in
  let ny := n3 / 365 in let n5 := n3 mod 365 in
  let y := n400 * 400 + 1 + n100 * 100 + n4 * 4 + ny in
  if (ny =? 4) || (n100 =? 4) then mkDate (y - 1) 12 31
  else
    let leap := (ny =? 3) && (negb (n4 =? 24) || (n100 =? 3)) in
    let m := (n5 + 50) / 32 in
    let pre := month_before m + (if (2 <? m) && leap then 1 else 0) in
    if n5 <? pre then
      let m' := m - 1 in
      let pre' := pre - (month_len m' + (if (m' =? 2) && leap then 1 else 0)) in
      mkDate y m' (n5 - pre' + 1)
    else mkDate y m (n5 - pre + 1).
(** the calendar date of an integer MJD: MJD 0 is 17 November 1858 *)
Definition mjd_ordinal : Z := 678576.
Definition date_of_mjd (n : Z) : date := ord2ymd (n + mjd_ordinal).

(** * Text *)
Definition digit (n : Z) : ascii := ascii_of_nat (48 + Z.to_nat (n mod 10)).
(** format with :02d and :04d *)
Definition pad2 (n : Z) : string := String (digit (n / 10)) (String (digit n) EmptyString).
Definition pad4 (n : Z) : string := (pad2 (n / 100) ++ pad2 n)%string.
(** date.isoformat() *)
Definition isoformat (d : date) : string := (pad4 (year d) ++ "-" ++ pad2 (month d) ++ "-" ++ pad2 (day d))%string.
(** int(text) for texts of digits; anything else is taken to raise ValueError (simplified: signs, blanks and
    underscores, which int also accepts, do not occur here) *)
Definition digit_val (c : ascii) : option Z :=
  let n := Z.of_nat (nat_of_ascii c) in if (48 <=? n) && (n <=? 57) then Some (n - 48) else None.
Fixpoint digits_from (acc : Z) (s : string) : option Z :=
  match s with
  | EmptyString => Some acc
  | String c r => match digit_val c with Some v => digits_from (acc * 10 + v) r | None => None end
  end.
Definition parse_int (s : string) : result Z :=
  match s with EmptyString => Err ValueError | _ => match digits_from 0 s with Some v => Ok v | None => Err ValueError end end.
(** s.replace("-", "") *)
Fixpoint drop_dashes (s : string) : string :=
  match s with EmptyString => EmptyString | String c r => if Ascii.eqb c "-"%char then drop_dashes r else String c (drop_dashes r) end.
(** datetime.fromisoformat(s).date(), for texts of the form YYYY-MM-DD only (simplified: the other forms that
    fromisoformat accepts are not modelled) *)
Definition fromisoformat (s : string) : result date :=
  if (Nat.eqb (String.length s) 10) && (String.eqb (substring 4 1 s) "-") && (String.eqb (substring 7 1 s) "-") then
    do y <- parse_int (substring 0 4 s) ; do m <- parse_int (substring 5 2 s) ; do d <- parse_int (substring 8 2 s) ;
    make_date y m d
  else Err ValueError.
(** Python string comparison <= (by code points) *)
Fixpoint str_leb (a b : string) : bool :=
  match a, b with
  | EmptyString, _ => true
  | String _ _, EmptyString => false
  | String x a', String y b' =>
      if Ascii.eqb x y then str_leb a' b' else (nat_of_ascii x <? nat_of_ascii y)%nat
  end.

(** * Times *)
(** astropy Time.iso with its default precision: rounded to the nearest millisecond (a carry may reach the date),
    "YYYY-MM-DD hh:mm:ss.sss" *)
Definition time_iso (t : Z) : string :=
  let r := (t + ms_us / 2) / ms_us in              (* milliseconds *)
  let dayno := r / 86400000 in let ms := r mod 86400000 in
  (isoformat (date_of_mjd dayno) ++ " " ++ pad2 (ms / 3600000) ++ ":" ++ pad2 (ms / 60000 mod 60) ++ ":"
   ++ pad2 (ms / 1000 mod 60) ++ "." ++ pad2 (ms / 10 mod 100) ++ String (digit ms) EmptyString)%string.
(** Time.to_datetime(timezone(-12h)).date(), pd.to_datetime(..).dt.date: the date field of the shifted time *)
Definition datetime_date (t : Z) : date := date_of_mjd (t / day_us).

(** _compute_day_obs_mjd, date_stackers.py:87-89 *)
Definition day_obs_mjd (t : Z) : Z := (t - half_us) / day_us.
(** _compute_day_obs_astropy_time, _compute_day_obs_iso8601, date_stackers.py:92-106: Time of the integer, .iso[:10] *)
Definition day_obs_iso (t : Z) : string := substring 0 10 (time_iso (day_obs_mjd t * day_us)).
(** _compute_day_obs_int, date_stackers.py:109-112 (texts), and the assignment of them to the integer column of
    DayObsStacker, date_stackers.py:132-141 *)
Definition day_obs_int (t : Z) : result Z := parse_int (drop_dashes (day_obs_iso t)).
(** compute_nightly_stats, vseqarchive.py:57-68: MJD + 2400000 read as a Julian date, i.e. half a day earlier *)
Definition stats_day_obs (t : Z) : date := datetime_date (t - half_us).
(** convert_mjd_to_dayobs in make_sim_archive_dir, sim_archive.py:145-150 *)
Definition convert_mjd_to_dayobs (t : Z) : string := substring 0 10 (time_iso ((t - half_us) / day_us * day_us)).
(** Time(mjd - 0.5, format="mjd").iso[:10]: sim_archive.py:561-563, prototype.py:781, 864, 963-964,
    future_vsarch.py:465-467 *)
Definition shifted_iso (t : Z) : string := substring 0 10 (time_iso (t - half_us)).
(** datetime.now(timezone(timedelta(hours=-12))).date(): vseqmetadata.py:1449, 1519; the same in zone Etc/GMT+12,
    sim_archive.py:366, 424 *)
Definition now_day_obs (t : Z) : date := datetime_date (t - half_us).

(** the argument of dayobs_to_date; a numpy integer is not an instance of int *)
Inductive dayobs_arg := DInt (n : Z) | DNumpyInt (n : Z) | DStr (s : string) | DTime (t : Z) | DDate (d : date).
(** dayobs_to_date, util.py:12-51 (datetime arguments and arrays of one Time are left out) *)
Definition dayobs_to_date (a : dayobs_arg) : result date :=
  match a with
  | DInt n => make_date (n / 10000) (n / 100 mod 100) (n mod 100)
  | DStr s => fromisoformat s
  | DTime t => Ok (datetime_date (t - half_us))
  | DDate d => Ok d
  | DNumpyInt _ => Err AssertionError
  end.

(** the filter of fetch_sim_for_nights, sim_archive.py:492-496 (visits given by their start times) *)
Definition on_requested_dates (first last : string) (ts : list Z) : list Z :=
  filter (fun t => str_leb first (day_obs_iso t) && str_leb (day_obs_iso t) last) ts.
