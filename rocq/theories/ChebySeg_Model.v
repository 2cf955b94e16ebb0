(** Model of rubin_sim/moving_objects/cheby_fits.py: segment lengths, the division of the time span into segments and their
    subdivision, and of cheby_values.py: which segment answers for which object and time.
    All times that ChebyFits rounds to n_decimal places are integers, in units of the last decimal place ("ticks"); ephemeris
    times are integers in units of a tick over 4 * ngran.  Floating point rounding of the ephemeris times is not modelled. *)
From Verif Require Import Base.
Open Scope Z_scope.

(** round() of z / g, ties to the even number *)
Definition round_even (z g : Z) : Z :=
  let q := z / g in let r := z mod g in
  if 2 * r <? g then q else if g <? 2 * r then q + 1 else if Z.even q then q else q + 1.

(** * Lengths *)
(** cheby_fits.py lines 267-276, the loop of _round_length; num_tolerance is 10 ** (1 - n_decimal), ten ticks whatever n_decimal.
    A length of 0 raises for Python's floats; for numpy's ([np]: in objects made by _subdivide_segment) the remainder is NaN and
    the loop ends *)
Definition tolerance : Z := 10.
Fixpoint round_loop (fuel : nat) (np : bool) (span len prev : Z) : result Z :=
  if len =? 0 then (if np then Ok 0 else Err ZeroDivisionError)
  else match fuel with
       | O => Ok len
       | S f =>
           if (tolerance <? span mod len) && (0 <? len) then
             let k := Z.quot span len + 1 in
             let k := if k =? prev then prev + 1 else k in
             if k =? 0 then Err ZeroDivisionError else round_loop f np span (round_even span k) k
           else Ok len
       end.
(** _round_length, lines 277-286: the list of failures is built with DataFrame.as_matrix, which pandas no longer has *)
Definition accept (span : Z) (r : result Z) : result Z :=
  do l <- r;
  if (l <=? 0) || (tolerance <? span mod l) then Err AttributeError else Ok l.
(** line 270: at most twenty rounds *)
Definition rounds : nat := 20.
(** _round_length, lines 249-286, of a length that is rounded already (line 263) *)
Definition round_length (np : bool) (span len : Z) : result Z := accept span (round_loop rounds np span len 0).
(** calc_segment_length, lines 311-392.  [test l] says that the residuals of _test_residuals exceed sky_tolerance for the length l;
    [guess] is the length that line 358, 361-362 or 365 starts from *)
Fixpoint halve (fuel : nat) (np : bool) (span : Z) (test : Z -> bool) (counter : nat) (len : Z) : result Z :=
  match fuel with
  | O => if Nat.ltb 50 counter || (len <=? 0) then Err AttributeError else Ok len
  | S f =>
      if test len && Nat.leb counter 50 && (0 <? len) then
        do l <- round_length np span (round_even len 2);
        halve f np span test (S counter) l
      else if Nat.ltb 50 counter || (len <=? 0) then Err AttributeError else Ok len
  end.
Definition calc_segment_length (np : bool) (span : Z) (test : Z -> bool) (guess : Z) (given : option Z) : result Z :=
  match given with
  | Some l => round_length np span l
  | None => do l <- round_length np span guess; halve 51 np span test 0 l
  end.

(** * Segments *)
(** the numbers of an object: ephemeris points per segment, and coefficients *)
Record sizes := { ngran : nat; n_position : nat; n_vmag : nat; n_dist : nat; n_elong : nat }.
Definition unit_ (z : sizes) : Z := 4 * Z.of_nat (ngran z).
(** make_all_times, lines 213-230: np.arange(t_start, t_end + timestep / 2, timestep) *)
Definition all_times (z : sizes) (t0 span len : Z) : list Z :=
  map (fun i => t0 * unit_ z + Z.of_nat i * (4 * len)) (seq 0 (Z.to_nat (- (- (span * unit_ z + 2 * len) / (4 * len))))).
(** what the fits to a segment give: a position residual over sky_tolerance, a NaN among the other residuals, or neither *)
Inductive verdict := TooFar | NotANumber | Good.
(** one entry of self.coeffs ([true]) or of self.failed *)
Record event := { e_ok : bool; e_start : Z; e_end : Z }.
(** the sizes that chebfit accepts (chebyshev_utils.py lines 307-325) *)
Definition fits_positions (z : sizes) (n : nat) : bool := Nat.leb (n_position z) (2 * n) && Nat.leb 4 (n_position z).
Definition fits_others (z : sizes) (n : nat) : bool :=
  forallb (fun m => Nat.leb m n && Nat.leb 2 m) [n_dist z; n_vmag z; n_elong z].
(** calc_segments, lines 465-485, for one object: [one] is calc_one_segment; a round of the loop advances by at least a tick *)
Fixpoint segments_loop (fuel : nat) (z : sizes) (ts : list Z) (s t_end len : Z) (one : list Z -> result (list event)) : result (list event) :=
  match fuel with
  | O => Ok []
  | S f =>
      if s * unit_ z <? t_end * unit_ z - len then
        do e <- one (filter (fun u => (s * unit_ z <=? u) && (u <? (s + len) * unit_ z + len)) ts);
        do r <- segments_loop f z ts (s + len) t_end len one;
        Ok (e ++ r)
      else Ok []
  end.
(** calc_one_segment and _subdivide_segment, lines 487-585.  [choose t span] is calc_segment_length() of the object made for the
    piece; [depth] bounds the recursion of the interpreter.  Simplified: start and span of the piece are rounded to ticks, which changes
    them only for a last piece that is shorter than the others *)
Fixpoint calc_segments (depth : nat) (z : sizes) (fit : list Z -> verdict) (choose : Z -> Z -> result Z) (t0 span len : Z) : result (list event) :=
  match depth with
  | O => Err RuntimeError
  | S d =>
      segments_loop (S (Z.to_nat span)) z (all_times z t0 span len) t0 (t0 + span) len (fun ephs =>
        match ephs with
        | [] => Err IndexError
        | first :: _ =>
            let last_ := last ephs first in
            if negb (fits_positions z (length ephs)) then Err RuntimeError
            else match fit ephs with
                 | TooFar =>
                     let t' := round_even first (unit_ z) in
                     let span' := round_even (last_ - first) (unit_ z) in
                     match choose t' span' with
                     | Err ValueError => Ok []
                     | Err e => Err e
                     | Ok l => calc_segments d z fit choose t' span' l
                     end
                 | v =>
                     if negb (fits_others z (length ephs)) then Err RuntimeError
                     else Ok [{| e_ok := match v with Good => true | _ => false end; e_start := first; e_end := last_ |}]
                 end
        end)
  end.

(** * Looking up, cheby_values.py *)
(** a row of the table of coefficients; [s_row] stands for the coefficients *)
Record segm := { s_obj : Z; s_t0 : Z; s_t1 : Z; s_row : Z }.
(** an entry of the result: never written, NaN, or the value of the row at the time *)
Inductive cell := Zero | NaN | Value (s : segm) (t : Z).
Definition mem (x : Z) (l : list Z) : bool := existsb (Z.eqb x) l.
(** np.unique *)
Fixpoint insert (x : Z) (l : list Z) : list Z :=
  match l with [] => [x] | y :: r => if x <? y then x :: l else if x =? y then l else y :: insert x r end.
Definition unique (l : list Z) : list Z := fold_right insert [] l.
Definition fold_min (l : list Z) (d : Z) : Z := fold_left Z.min l d.
Definition fold_max (l : list Z) (d : Z) : Z := fold_left Z.max l d.
(** the segments used for a time, lines 199-220; [None]: the whole column is NaN *)
Definition pick (sub : list segm) (extrapolate : bool) (t : Z) : result (option (list segm)) :=
  match filter (fun s => (s_t0 s <=? t) && (t <? s_t1 s)) sub with
  | [] =>
      match sub with
      | [] => Err ValueError
      | s :: _ =>
          let a := fold_min (map s_t0 sub) (s_t0 s) in
          let b := fold_max (map s_t1 sub) (s_t1 s) in
          if (t <? a) || (b <? t) then
            if extrapolate then
              Ok (Some (if b <? t then filter (fun s => s_t1 s =? b) sub else filter (fun s => s_t0 s =? a) sub))
            else Ok None
          else if b =? t then Ok (Some (filter (fun s => s_t1 s =? b) sub))
          else Ok (Some [])
      end
  | l => Ok (Some l)
  end.
(** the loop over these segments, lines 221-225: row i of the result and entry i of the ids are overwritten *)
Fixpoint write_rows (t : Z) (i : nat) (l : list segm) (ids : list Z) (col : list cell) : result (list Z * list cell) :=
  match l with
  | [] => Ok (ids, col)
  | s :: r =>
      do col' <- arr_set col i (Value s t);
      do ids' <- arr_set ids i (s_obj s);
      write_rows t (S i) r ids' col'
  end.
Fixpoint columns (sub : list segm) (extrapolate : bool) (times : list Z) (ids : list Z) : result (list Z * list (list cell)) :=
  match times with
  | [] => Ok (ids, [])
  | t :: r =>
      do p <- pick sub extrapolate t;
      do ic <- match p with
               | None => Ok (ids, repeat NaN (length ids))
               | Some l => write_rows t 0 l ids (repeat Zero (length ids))
               end;
      do rest <- columns sub extrapolate r (fst ic);
      Ok (fst rest, snd ic :: snd rest)
  end.
(** get_ephemerides, lines 155-231: the ids and for each time the column of the objects.  The caller's array of ids is the one that
    is overwritten, so that the check at the end (lines 226-230) compares it with itself *)
Definition get_ephemerides (coeffs : list segm) (times : list Z) (obj_ids : option (list Z)) (extrapolate : bool) : result (list Z * list (list cell)) :=
  match obj_ids with
  | None => columns coeffs extrapolate times (unique (map s_obj coeffs))
  | Some ids =>
      do r <- columns (filter (fun s => mem (s_obj s) ids) coeffs) extrapolate times ids;
      if forallb (fun x => mem x (fst r)) (fst r) then Ok r else Err ValueError
  end.
