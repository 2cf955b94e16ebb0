(** Model of rubin_sim/moving_objects/orbits.py: the Orbits object - setting and validating orbits, default columns, the choice of
    spectra, comparison, indexing and iteration.
    A DataFrame is a list of row labels and a list of named columns; numbers are reals (binary rounding is not modelled), a cell
    may also hold text or NaN.  Column names are taken to be distinct. *)
From Coq Require Import Reals.
From Verif Require Import Base.
Open Scope R_scope.

(** * DataFrames *)
(** one entry of a DataFrame *)
Inductive cell := Num (x : R) | Txt (s : string) | Nan.
(** Python's ==, NaN is not equal to itself *)
Definition cell_eqb (a b : cell) : bool :=
  match a, b with
  | Num x, Num y => if Req_EM_T x y then true else false
  | Txt s, Txt t => String.eqb s t
  | _, _ => false
  end.
(** labels of the rows, and the columns in their order *)
Record frame := { f_index : list Z; f_cols : list (string * list cell) }.
(** `c in orbits` *)
Definition has (c : string) (f : frame) : bool := existsb (fun p => String.eqb (fst p) c) (f_cols f).
(** `orbits[c].values` *)
Definition column (f : frame) (c : string) : result (list cell) :=
  match find (fun p => String.eqb (fst p) c) (f_cols f) with Some p => Ok (snd p) | None => Err KeyError end.
(** `del orbits[c]` where c is present (and nothing otherwise) *)
Definition drop (c : string) (f : frame) : frame :=
  {| f_index := f_index f; f_cols := filter (fun p => negb (String.eqb (fst p) c)) (f_cols f) |}.
(** `orbits.assign(c=v)` for a c that is not there *)
Definition assign (c : string) (v : list cell) (f : frame) : frame :=
  {| f_index := f_index f; f_cols := f_cols f ++ [(c, v)] |}.
(** `len(orbits)` *)
Definition rows (f : frame) : nat := length (f_index f).
(** 0, 1, .., n - 1 *)
Definition count (n : nat) : list Z := map Z.of_nat (seq 0 n).

(** * The object *)
(** __init__, lines 18-63; o_draws counts the numbers drawn from self._rng (seeded with 42 at its first use, line 255) *)
Record orb := { o_orbits : option frame; o_format : option cell; o_draws : nat }.
Definition fresh : orb := {| o_orbits := None; o_format := None; o_draws := 0 |}.
(** lines 24-63: self.data_cols[...] *)
Definition com_cols : list string :=
  ["obj_id"; "q"; "e"; "inc"; "Omega"; "argPeri"; "tPeri"; "epoch"; "H"; "g"; "sed_filename"]%string.
Definition kep_cols : list string :=
  ["obj_id"; "a"; "e"; "inc"; "Omega"; "argPeri"; "meanAnomaly"; "epoch"; "H"; "g"; "sed_filename"]%string.
Definition car_cols : list string :=
  ["obj_id"; "x"; "y"; "z"; "xdot"; "ydot"; "zdot"; "epoch"; "H"; "g"; "sed_filename"]%string.
Definition data_cols (fmt : cell) : result (list string) :=
  match fmt with
  | Txt s => if String.eqb s "COM" then Ok com_cols else if String.eqb s "KEP" then Ok kep_cols
             else if String.eqb s "CAR" then Ok car_cols else Err KeyError
  | _ => Err KeyError
  end.

(** * assign_sed, lines 218-261 *)
(** the value of a: a number, an infinity (q / 0), or NaN *)
Inductive axis := Finite (x : R) | PlusInf | MinusInf | Undefined.
(** arithmetic on text raises TypeError *)
Definition number (c : cell) : result (option R) :=
  match c with Num x => Ok (Some x) | Nan => Ok None | Txt _ => Err TypeError end.
(** line 242 *)
Definition axis_a (c : cell) : result axis :=
  do v <- number c; Ok (match v with Some x => Finite x | None => Undefined end).
(** line 244: q / (1 - e) *)
Definition axis_q (q e : cell) : result axis :=
  do q' <- number q; do e' <- number e;
  Ok (match q', e' with
      | Some x, Some y => if Req_EM_T y 1 then (if Rlt_dec 0 x then PlusInf else if Rlt_dec x 0 then MinusInf else Undefined)
                          else Finite (x / (1 - y))
      | _, _ => Undefined
      end).
(** line 247: the distance of the object *)
Definition axis_x (x y z : cell) : result axis :=
  do x' <- number x; do y' <- number y; do z' <- number z;
  Ok (match x', y', z' with
      | Some a, Some b, Some c => Finite (sqrt (a ^ 2 + b ^ 2 + c ^ 2))
      | _, _, _ => Undefined
      end).
(** the results for a list, or the first error *)
Fixpoint all_ok {A : Type} (l : list (result A)) : result (list A) :=
  match l with
  | [] => Ok []
  | r :: t => do x <- r; do y <- all_ok t; Ok (x :: y)
  end.
(** lines 241-249.  (Text in column "a" is reported before numbers are drawn; the code draws them first.) *)
Definition axes (f : frame) : result (list axis) :=
  if has "a" f then do a <- column f "a"; all_ok (map axis_a a)
  else if has "q" f then
    do q <- column f "q"; do e <- column f "e"; all_ok (map (fun p => axis_q (fst p) (snd p)) (combine q e))
  else if has "x" f then
    do x <- column f "x"; do y <- column f "y"; do z <- column f "z";
    all_ok (map (fun p => axis_x (fst (fst p)) (snd (fst p)) (snd p)) (combine (combine x y) z))
  else Err ValueError.
(** lines 258-260: chance <= 0.5 * a - 1 *)
Definition sed_of (chance : R) (a : axis) : cell :=
  match a with
  | Finite x => if Rle_dec chance (0.5 * x - 1) then Txt "C.dat" else Txt "S.dat"
  | PlusInf => Txt "C.dat"
  | MinusInf | Undefined => Txt "S.dat"
  end.
(** assign_sed on an object that has drawn [k] numbers; [draws] is the sequence of self._rng.random_sample *)
Definition assign_sed (draws : nat -> R) (k : nat) (f : frame) : result (list cell * nat) :=
  do a <- axes f;
  Ok (map (fun p => sed_of (fst p) (snd p)) (combine (map draws (seq k (rows f))) a), (k + rows f)%nat).

(** * set_orbits, lines 97-216 *)
(** what is given: a DataFrame, a Series with its name, or a numpy array of records *)
Inductive given :=
| DataFrame (f : frame)
| Series (label : Z) (row : list (string * cell))
| Records (n : nat) (cols : list (string * list cell)).
(** lines 117-129 *)
Definition to_frame (g : given) : frame :=
  match g with
  | DataFrame f => {| f_index := count (rows f); f_cols := f_cols f |}
  | Series label row => {| f_index := [label]; f_cols := map (fun p => (fst p, [snd p])) row |}
  | Records n cols => {| f_index := count n; f_cols := cols |}
  end.
(** the caller's object after [f] was changed in place: only a DataFrame is the caller's own *)
Definition after (g : given) (f : frame) : given := match g with DataFrame _ => DataFrame f | _ => g end.
(** lines 153-161: the error for a stated format without its first element *)
Definition lacks (fmt : cell) (f : frame) : bool :=
  cell_eqb fmt (Txt "COM") && negb (has "q" f) || cell_eqb fmt (Txt "KEP") && negb (has "a" f) ||
  cell_eqb fmt (Txt "CAR") && negb (has "x" f).
(** lines 142-161: the stated format, the DataFrame without it, and the error *)
Definition stated (f : frame) : option cell * frame * option exn :=
  match column f "FORMAT" with
  | Ok (c :: t) =>
      if forallb (fun x => cell_eqb x c) (c :: t) then
        let c := if cell_eqb c (Txt "CART") then Txt "CAR" else c in
        let f' := drop "FORMAT" f in
        (Some c, f', if lacks c f' then Some ValueError else None)
      else (None, f, Some ValueError)
  | _ => (None, f, None)
  end.
(** lines 162-175 *)
Definition guess (f : frame) : result cell :=
  if has "q" f then Ok (Txt "COM") else if has "a" f then Ok (Txt "KEP") else if has "x" f then Ok (Txt "CAR")
  else Err ValueError.
(** lines 179-189: the epoch of the first object; comparisons with NaN are false, those with text raise TypeError *)
Definition check_epoch (f : frame) : result unit :=
  do e <- column f "epoch";
  match e with
  | Num x :: _ => if Rlt_dec x (-21503) then Err ValueError else if Rlt_dec 124594 x then Err ValueError else Ok tt
  | Nan :: _ => Ok tt
  | Txt _ :: _ => Err TypeError
  | [] => Err IndexError
  end.
(** lines 193-199: the columns that have defaults *)
Definition fill (c : string) (v : list cell) (f : frame) : frame := if has c f then f else assign c v f.
Definition defaults (f : frame) : frame :=
  let n := rows f in
  fill "g" (repeat (Num 0.15) n) (fill "H" (repeat (Num 20) n) (fill "obj_id" (map (fun i => Num (IZR i)) (count n)) f)).
(** lines 200-201 *)
Definition fill_sed (draws : nat -> R) (k : nat) (f : frame) : result (frame * nat) :=
  if has "sed_filename" f then Ok (f, k)
  else do s <- assign_sed draws k f; Ok (assign "sed_filename" (fst s) f, snd s).
(** lines 204-208 *)
Definition required (fmt : cell) (f : frame) : result unit :=
  do cols <- data_cols fmt;
  if forallb (fun c => has c f) cols then Ok tt else Err ValueError.
(** the object afterwards, the caller's object afterwards, whether self.orbits is the caller's own DataFrame, and the outcome *)
Record outcome := { u_self : orb; u_given : given; u_same : bool; u_result : result unit }.
Definition fails (o : orb) (g : given) (e : exn) : outcome :=
  {| u_self := o; u_given := g; u_same := false; u_result := Err e |}.
Definition set_format (o : orb) (c : option cell) : orb := {| o_orbits := o_orbits o; o_format := c; o_draws := o_draws o |}.
(** set_orbits, lines 97-216; the warning about duplicate ids (lines 211-214) is not modelled *)
Definition set_orbits (draws : nat -> R) (o : orb) (g : given) : outcome :=
  let f0 := drop "index" (to_frame g) in
  if Nat.eqb (rows f0) 0 then fails o (after g f0) ValueError
  else
    let '(fm, f1, e) := stated f0 in
    let g1 := after g f1 in
    match e with
    | Some x => fails (set_format o fm) g1 x
    | None =>
        match (match fm with Some c => Ok c | None => guess f1 end) with
        | Err x => fails (set_format o None) g1 x
        | Ok fmt =>
            let o1 := set_format o (Some fmt) in
            match check_epoch f1 with
            | Err x => fails o1 g1 x
            | Ok _ =>
                match fill_sed draws (o_draws o) (defaults f1) with
                | Err x => fails o1 g1 x
                | Ok (f2, k) =>
                    match required fmt f2 with
                    | Err x => fails {| o_orbits := o_orbits o; o_format := Some fmt; o_draws := k |} g1 x
                    | Ok _ =>
                        {| u_self := {| o_orbits := Some f2; o_format := Some fmt; o_draws := k |}; u_given := g1;
                           u_same := match g with DataFrame _ => Nat.eqb (length (f_cols f2)) (length (f_cols f1)) | _ => false end;
                           u_result := Ok tt |}
                    end
                end
            end
        end
    end.

(** * Comparison, indexing, iteration *)
(** the frame, or the TypeError of None *)
Definition frame_of (o : orb) : result frame := match o_orbits o with Some f => Ok f | None => Err TypeError end.
(** np.all(a == b): lengths that differ raise unless one is 1 (numpy 1.25 or later) *)
Definition all_equal (a b : list cell) : result bool :=
  match a, b with
  | [x], _ => Ok (forallb (cell_eqb x) b)
  | _, [y] => Ok (forallb (fun x => cell_eqb x y) a)
  | _, _ => if Nat.eqb (length a) (length b) then Ok (forallb (fun p => cell_eqb (fst p) (snd p)) (combine a b)) else Err ValueError
  end.
(** __eq__, lines 83-87: the loop over the columns returns in its first round; None if there is no column *)
Definition eq_loop (cols : list string) (f1 f2 : frame) : result (option bool) :=
  match cols with
  | [] => Ok None
  | c :: r =>
      do a <- column f1 c; do b <- column f2 c; do same <- all_equal a b;
      if negb same then Ok (Some false) else Ok (Some true)
  end.
(** orb_format of both: the same text, or both None *)
Definition same_format (a b : option cell) : bool :=
  match a, b with Some x, Some y => cell_eqb x y | None, None => true | _, _ => false end.
(** __eq__, lines 79-89, of two Orbits *)
Definition orb_eq (o1 o2 : orb) : result (option bool) :=
  if negb (same_format (o_format o1) (o_format o2)) then Ok (Some false)
  else match o_format o1 with
       | None => Err KeyError
       | Some fmt => do cols <- data_cols fmt; do f1 <- frame_of o1; do f2 <- frame_of o2; eq_loop cols f1 f2
       end.
(** __len__, lines 65-66 *)
Definition orb_len (o : orb) : result nat := do f <- frame_of o; Ok (rows f).
(** orbits.iloc[i] as a Series *)
Definition row (f : frame) (i : nat) : given :=
  Series (nth i (f_index f) 0%Z) (map (fun p => (fst p, nth i (snd p) Nan)) (f_cols f)).
(** set_orbits of a new object, or its error *)
Definition new_orbits (draws : nat -> R) (g : given) : result orb :=
  let u := set_orbits draws fresh g in do x <- u_result u; Ok (u_self u).
(** __getitem__ with an integer, lines 68-71 *)
Definition get_item (draws : nat -> R) (o : orb) (i : Z) : result orb :=
  do f <- frame_of o;
  let n := Z.of_nat (rows f) in
  if ((i <? - n) || (n <=? i))%Z%bool then Err IndexError
  else new_orbits draws (row f (Z.to_nat (if (i <? 0)%Z then i + n else i))).
(** __iter__, lines 73-77: what list(orbits) gives *)
Definition items (draws : nat -> R) (o : orb) : result (list orb) :=
  do f <- frame_of o; all_ok (map (fun i => new_orbits draws (row f i)) (seq 0 (rows f))).
(** orbits.iloc[...] of a slice or list: the rows at the positions [is] *)
Definition take_rows (f : frame) (is : list nat) : frame :=
  {| f_index := map (fun i => nth i (f_index f) 0%Z) is; f_cols := map (fun p => (fst p, map (fun i => nth i (snd p) Nan) is)) (f_cols f) |}.
(** __getitem__ with a slice or list, lines 68-71; [is] are the positions that it stands for *)
Definition get_rows (draws : nat -> R) (o : orb) (is : list nat) : result orb :=
  do f <- frame_of o; new_orbits draws (DataFrame (take_rows f is)).
