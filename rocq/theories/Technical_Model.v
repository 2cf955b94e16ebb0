(** Model of maf/metrics/technical_metrics.py, string_count_metric.py, phase_gap_metric.py (PhaseGapMetric),
    pair_metric.py and the campaign metrics of season_metrics.py.  Times are integers (ticks); conversions between
    days, minutes and seconds are dropped. *)
From Verif Require Import Base.
From Coq Require Import Ascii QArith Qround.
Open Scope Z_scope.

(** * Changes of state: technical_metrics.py *)
(** a visit: its time and the value of the tracked column *)
Record svisit := { s_time : Z; s_state : string }.
(** changes = col[idxs][1:] != col[idxs][:-1]; times[idxs][1:][where(changes)]: lines 26-27, 62-64, 112-114, 166-168.
    The argument is the list after argsort. *)
Fixpoint change_times (l : list svisit) : list Z :=
  match l with
  | a :: ((b :: _) as t) => if String.eqb (s_state a) (s_state b) then change_times t else s_time b :: change_times t
  | _ => []
  end.
(** changetimes - concatenate(([times[0]], changetimes[:-1])), lines 65-71 and 115-121 *)
Definition dtimes (t0 : Z) (cts : list Z) : list Z :=
  map (fun p => fst p - snd p) (combine cts (t0 :: removelast cts)).
Definition zmin_list (l : list Z) : option Z :=
  match l with [] => None | x :: t => Some (fold_left Z.min t x) end.
Definition zmax_list (l : list Z) : option Z :=
  match l with [] => None | x :: t => Some (fold_left Z.max t x) end.
Section Order.
  (** argsort of the time column: some arrangement of the visits in time order *)
  Variable order : list svisit -> list svisit.
  (** NChangesMetric.run, technical_metrics.py:25-28 *)
  Definition n_changes (data : list svisit) : Z := Z.of_nat (length (change_times (order data))).
  (** MinTimeBetweenStatesMetric.run, technical_metrics.py:59-75; None is badval *)
  Definition min_time_between (data : list svisit) : result (option Z) :=
    match order data with
    | [] => Err IndexError
    | (v :: _) as l => Ok (zmin_list (dtimes (s_time v) (change_times l)))
    end.
  (** NStateChangesFasterThanMetric.run, technical_metrics.py:109-122 *)
  Definition n_faster_than (cutoff : Z) (data : list svisit) : result Z :=
    match order data with
    | [] => Err IndexError
    | (v :: _) as l => Ok (Z.of_nat (length (filter (fun d => d <? cutoff) (dtimes (s_time v) (change_times l)))))
    end.
  (** MaxStateChangesWithinMetric.run, technical_metrics.py:157-177; searchsorted(.., side="right") in a sorted list is
      the number of elements that are not greater *)
  Definition max_within (timespan : Z) (data : list svisit) : Z :=
    if Nat.eqb (length data) 1 then 0
    else
      let cts := change_times (order data) in
      let nchanges := map (fun p => Z.of_nat (length (filter (fun y => y <=? snd p + timespan) cts)) - Z.of_nat (fst p))
                          (combine (seq 0 (length cts)) cts) in
      match zmax_list nchanges with None => 0 | Some m => m end.
End Order.

(** * Open shutter fractions *)
Record ovis := { o_mjd : Z; o_exp : Z; o_visit : Z; o_slew : Z }.
Definition zsum (l : list Z) : Z := fold_right Z.add 0 l.
(** a / b for numpy floats; None is a division by zero (nan or inf with a warning) *)
Definition fdiv (a b : Z) : option Q := if b =? 0 then None else Some (inject_Z a / inject_Z b)%Q.
(** OpenShutterFractionMetric.run, technical_metrics.py:210-214 *)
Definition open_shutter (l : list ovis) : option Q :=
  fdiv (zsum (map o_exp l)) (zsum (map (fun v => o_slew v + o_visit v) l)).
(** np.sort and np.diff *)
Fixpoint insert_z (x : Z) (l : list Z) : list Z :=
  match l with [] => [x] | y :: t => if x <=? y then x :: l else y :: insert_z x t end.
Definition sort_z (l : list Z) : list Z := fold_right insert_z [] l.
Fixpoint diff_z (l : list Z) : list Z :=
  match l with a :: ((b :: _) as t) => (b - a) :: diff_z t | _ => [] end.
(** BruteOSFMetric.run, technical_metrics.py:264-270 *)
Definition brute_osf (maxgap fudge : Z) (l : list ovis) : option Q :=
  let open_time := zsum (filter (fun d => d <? maxgap) (diff_z (sort_z (map o_mjd l)))) in
  fdiv (zsum (map (fun v => o_exp v + fudge) l)) open_time.

(** * StringCountMetric, string_count_metric.py:55-94 *)
(** the parts before and after the last ", " *)
Fixpoint split_last (s : string) : option (string * string) :=
  match s with
  | EmptyString => None
  | String a t =>
      match split_last t with
      | Some (p, q) => Some (String a p, q)
      | None => if String.prefix ", " s then Some (""%string, String.substring 2 (String.length s - 2) s) else None
      end
  end.
Definition is_digit (a : ascii) : bool := let n := nat_of_ascii a in (48 <=? n)%nat && (n <=? 57)%nat.
Fixpoint all_digits (s : string) : bool := match s with EmptyString => true | String a t => is_digit a && all_digits t end.
(** str.isdigit, for ASCII *)
Definition isdigit (s : string) : bool := match s with EmptyString => false | _ => all_digits s end.
(** lines 58-69 *)
Definition clip (s : string) : string :=
  match split_last s with Some (p, q) => if isdigit q then p else s | None => s end.
(** collections.Counter *)
Definition counter (l : list string) : list (string * Z) :=
  fold_left (fun d s => dset String.eqb d s (match dget String.eqb d s with Some n => n + 1 | None => 1 end)) l [].
Definition label (s : string) : string := if String.eqb s "" then "blank"%string else s.
Fixpoint has_dup (l : list string) : bool :=
  match l with [] => false | x :: t => existsb (String.eqb x) t || has_dup t end.
(** the structured array of the metric: its fields and values; a repeated field name is a ValueError (line 75) *)
Definition string_count (percent clip_end : bool) (col : list string) : result (list (string * Q)) :=
  let col' := if clip_end then map clip col else col in
  let c := counter col' in
  if has_dup (map (fun p => label (fst p)) c) then Err ValueError
  else
    let vals := map (fun p => (label (fst p), inject_Z (snd p))) c in
    Ok (if percent
        then let norm := (fold_right Qplus 0 (map snd vals) / 100)%Q in map (fun p => (fst p, snd p / norm)%Q) vals
        else vals).
(** lines 88-92: the reduce functions named after the fields are added to those of the metric *)
Definition add_reduce (funcs : list string) (value : list (string * Q)) : list string :=
  funcs ++ filter (fun k => negb (existsb (String.eqb k) funcs)) (map fst value).
(** Keylookerupper.__call__: a field that the array does not have is a ValueError *)
Definition lookup_key (key : string) (value : list (string * Q)) : result Q :=
  match dget String.eqb value key with Some q => Ok q | None => Err ValueError end.

(** * PhaseGapMetric.run, phase_gap_metric.py:47-70; None is NaN *)
Definition qleb (a b : Q) : bool := Qle_bool a b.
Fixpoint insert_q (x : Q) (l : list Q) : list Q :=
  match l with [] => [x] | y :: t => if qleb x y then x :: l else y :: insert_q x t end.
Definition sort_q (l : list Q) : list Q := fold_right insert_q [] l.
Fixpoint diff_q (l : list Q) : list Q :=
  match l with a :: ((b :: _) as t) => (b - a)%Q :: diff_q t | _ => [] end.
Definition qmax (a b : Q) : Q := if qleb a b then b else a.
Definition qmax_list (l : list Q) : Q := match l with [] => 0 | x :: t => fold_left qmax t x end%Q.
(** periods, lines 51-56: arange(n) / max(arange(n)) * (max - min) + min; 0/0 for a single period *)
Definition periods (n_periods : nat) (pmin pmax : Q) : list (option Q) :=
  if Qeq_bool ((pmax - pmin) / inject_Z (Z.of_nat n_periods)) 0 then [Some pmin]
  else map (fun i => if Nat.eqb n_periods 1 then None
                     else Some (inject_Z (Z.of_nat i) / inject_Z (Z.of_nat (n_periods - 1)) * (pmax - pmin) + pmin)%Q)
           (seq 0 n_periods).
(** (t % period) / period *)
Definition phase (period t : Q) : Q := let x := (t / period)%Q in (x - inject_Z (Qfloor x))%Q.
Definition largest_gap (times : list Q) (period : Q) : Q :=
  let ph := sort_q (map (phase period) times) in
  qmax_list (diff_q ph ++ [(1 - last ph 0 + hd 0 ph)%Q]).
(** None is badval; np.zeros(n_periods) filled in for the periods there are (line 57-69); [Some (.., None)] entries are
    NaN *)
Definition phase_gap (n_periods : nat) (pmin pmax : Q) (n_visits_min : nat) (times : list Q)
    : option (list (option Q) * list (option Q)) :=
  if (length times <? n_visits_min)%nat then None
  else
    let ps := periods n_periods pmin pmax in
    let gaps := map (option_map (largest_gap times)) ps in
    Some (ps, gaps ++ repeat (Some 0%Q) (n_periods - length ps)).
(** reduce_mean_gap, lines 72-76 (all gaps finite) *)
Definition mean_gap (gaps : list (option Q)) : option Q :=
  match fold_right (fun g acc => match g, acc with Some a, Some b => Some (a + b)%Q | _, _ => None end) (Some 0%Q) gaps with
  | Some s => Some (s / inject_Z (Z.of_nat (length gaps)))%Q
  | None => None
  end.

(** * PairMetric.run, pair_metric.py:47-69 *)
Definition bin_of (t0 bin_size t : Z) : Z := (t - t0) / bin_size.
(** np.round of a quotient of integers: to the nearest, halves to the even one *)
Definition round_div (a b : Z) : Z :=
  let q := a / b in let r := a mod b in
  if 2 * r <? b then q else if b <? 2 * r then q + 1 else if Z.even q then q else q + 1.
Fixpoint insert_uniq_z (x : Z) (l : list Z) : list Z :=
  match l with
  | [] => [x]
  | y :: t => if x <? y then x :: l else if y <? x then y :: insert_uniq_z x t else l
  end.
Definition unique_z (l : list Z) : list Z := fold_right insert_uniq_z [] l.
(** np.arange(min, max + bin_size, bin_size): the first edge is the earliest visit, the last one is the first that is
    not before the latest visit; the last bin is closed, so a visit on the last edge belongs to the bin before.  A
    single edge makes no bins. *)
Definition bins_with_obs (bin_size : Z) (times : list Z) : list Z :=
  match zmin_list times, zmax_list times with
  | Some lo, Some hi =>
      if lo =? hi then []
      else unique_z (map (fun t => let k := bin_of lo bin_size t in
                                   let nbins := (hi - lo + bin_size - 1) / bin_size in
                                   if k =? nbins then k - 1 else k) times)
  | _, _ => []
  end.
Definition zrange (lo hi : Z) : list Z := map (fun i => lo + Z.of_nat i) (seq 0 (Z.to_nat (hi - lo + 1))).
(** the number of pairs of occupied bins at an accepted distance; None is badval *)
Definition pair_metric (match_min match_max bin_size : Z) (times : list Z) : option Z :=
  let b := bins_with_obs bin_size times in
  let result := zsum (map (fun add => Z.of_nat (length (filter (fun k => existsb (Z.eqb (k - add)) b) b)))
                          (zrange (round_div match_min bin_size) (round_div match_max bin_size))) in
  if result =? 0 then None else Some result.

(** * Campaigns: season_metrics.py:97-165 *)
(** a visit: its season (the floor of calc_season, of the visits in time order), night and whether it is long enough *)
Record qvisit := { q_season : Z; q_night : Z; q_long : bool }.
Definition qmean (l : list Q) : option Q :=
  match l with [] => None | _ => Some (fold_right Qplus 0 l / inject_Z (Z.of_nat (length l)))%Q end.
(** CampaignLengthMetric.run, 115-124; None is badval *)
Definition campaign_length (l : list qvisit) : option Z :=
  match filter q_long l with
  | [] => None
  | good => Some (Z.of_nat (length (unique_z (map q_season good))))
  end.
(** the mean separation of the nights of one season, 158-164: zero when there is only one night *)
Definition season_mean (nights : list Z) : Q :=
  match qmean (map inject_Z (diff_z (unique_z nights))) with Some m => m | None => 0%Q end.
(** MeanCampaignFrequencyMetric.run, 146-165 (seasons are contiguous, so the slice first:last+1 is the season) *)
Definition mean_campaign_frequency (l : list qvisit) : option Q :=
  match filter q_long l with
  | [] => None
  | good => qmean (map (fun s => season_mean (map q_night (filter (fun v => q_season v =? s) good)))
                       (unique_z (map q_season good)))
  end.
