(** Model of rubin_sim/moving_objects/orbits.py: update_orbits and read_orbits, and of ooephemerides.py: packing orbits for pyoorb,
    unpacking them, and the conversion of pyoorb's ephemeris arrays.  pyoorb itself and pandas.read_csv's parsing of numbers are
    arguments. *)
From Coq Require Import Reals Ascii.
From Verif Require Import Base Orbits_Model.
Open Scope R_scope.

(** * ooephemerides.py: packing *)
(** a number of the array; None is NaN *)
Definition num := option R.
(** np.radians, np.degrees *)
Definition radians (x : num) : num := match x with Some v => Some (v * PI / 180) | None => None end.
Definition degrees (x : num) : num := match x with Some v => Some (v * 180 / PI) | None => None end.
(** assignment of a column to a double array; text is no number (np.radians of text raises TypeError instead; not distinguished) *)
Definition to_num (c : cell) : result num := match c with Num x => Ok (Some x) | Nan => Ok None | Txt _ => Err ValueError end.
Definition of_num (x : num) : cell := match x with Some v => Num v | None => Nan end.
Definition pack (f : frame) (c : string) (conv : num -> num) : result (list num) :=
  do l <- column f c; do v <- all_ok (map to_num l); Ok (map conv v).
(** lines 74-75 *)
Definition elem_type (fmt : string) : result Z :=
  if String.eqb fmt "CAR" then Ok 1%Z else if String.eqb fmt "COM" then Ok 2%Z else if String.eqb fmt "KEP" then Ok 3%Z
  else if String.eqb fmt "DEL" then Ok 4%Z else if String.eqb fmt "EQX" then Ok 5%Z else Err KeyError.
Definition time_scales (s : string) : result Z :=
  if String.eqb s "UTC" then Ok 1%Z else if String.eqb s "UT1" then Ok 2%Z else if String.eqb s "TT" then Ok 3%Z
  else if String.eqb s "TAI" then Ok 4%Z else Err KeyError.
(** lines 131-153: the elements and how they are converted *)
Definition oorb_elements (fmt : string) : result (list (string * (num -> num))) :=
  if String.eqb fmt "KEP" then
    Ok [("a", fun x => x); ("e", fun x => x); ("inc", radians); ("Omega", radians); ("argPeri", radians); ("meanAnomaly", radians)]%string
  else if String.eqb fmt "COM" then
    Ok [("q", fun x => x); ("e", fun x => x); ("inc", radians); ("Omega", radians); ("argPeri", radians); ("tPeri", fun x => x)]%string
  else if String.eqb fmt "CAR" then
    Ok [("x", fun x => x); ("y", fun x => x); ("z", fun x => x); ("xdot", fun x => x); ("ydot", fun x => x); ("zdot", fun x => x)]%string
  else Err ValueError.
(** _convert_to_oorb_elem, lines 103-158: the twelve columns of oorb_elem *)
Definition to_oorb (f : frame) (fmt : string) : result (list (list num)) :=
  let n := rows f in
  do t <- elem_type fmt; do s <- time_scales "TT"; do els <- oorb_elements fmt;
  do e <- all_ok (map (fun p => pack f (fst p) (snd p)) els);
  do ep <- pack f "epoch" (fun x => x); do h <- pack f "H" (fun x => x); do g <- pack f "g" (fun x => x);
  Ok ([map (fun i => Some (INR i + 1)) (seq 0 n)] ++ e ++ [repeat (Some (IZR t)) n; ep; repeat (Some (IZR s)) n; h; g]).
(** convert_from_oorb_elem, lines 160-238: names of the six elements and how they are converted back *)
Definition table_elements (fmt : string) : result (list (string * (num -> num))) :=
  if String.eqb fmt "KEP" then
    Ok [("a", fun x => x); ("e", fun x => x); ("inc", degrees); ("Omega", degrees); ("argPeri", degrees); ("meanAnomaly", degrees)]%string
  else if String.eqb fmt "COM" then
    Ok [("q", fun x => x); ("e", fun x => x); ("inc", degrees); ("Omega", degrees); ("argPeri", degrees); ("tPeri", fun x => x)]%string
  else if String.eqb fmt "CAR" then
    Ok [("x", fun x => x); ("y", fun x => x); ("z", fun x => x); ("xdot", fun x => x); ("ydot", fun x => x); ("zdot", fun x => x)]%string
  else Err ValueError.
(** columns 0, 7 and 9 (oorbId, elem_type, epoch_type) are deleted (lines 233-235) *)
Definition from_oorb (fmt : string) (cols : list (list num)) : result frame :=
  do els <- table_elements fmt;
  let named := els ++ [("epoch", fun x => x); ("H", fun x => x); ("g", fun x => x)]%string in
  let used := map (fun k => nth k cols []) [1; 2; 3; 4; 5; 6; 8; 10; 11]%nat in
  Ok {| f_index := count (length (nth 0 cols []));
        f_cols := map (fun p => (fst (fst p), map (fun x => of_num (snd (fst p) x)) (snd p))) (combine named used) |}.

(** * orbits.py: update_orbits, lines 491-507 *)
(** the entry of column c for the row label k; NaN if there is none *)
Definition joined (f : frame) (c : string) (k : Z) : result cell :=
  do l <- column f c;
  Ok (match find (fun p => (fst p =? k)%Z) (combine (f_index f) l) with Some p => snd p | None => Nan end).
(** neworb.join(self.orbits[["obj_id", "sed_filename"]])[new_order]: rows are matched by their labels; columns of the same name raise.
    Row labels of an Orbits object are distinct. *)
Definition join_ids (f new : frame) : result frame :=
  if has "obj_id" new || has "sed_filename" new then Err ValueError
  else do ids <- all_ok (map (joined f "obj_id") (f_index new)); do seds <- all_ok (map (joined f "sed_filename") (f_index new));
       Ok {| f_index := f_index new; f_cols := ("obj_id"%string, ids) :: f_cols new ++ [("sed_filename"%string, seds)] |}.
Definition update_orbits (draws : nat -> R) (o : orb) (new : frame) : result orb :=
  do f <- frame_of o; do j <- join_ids f new;
  let u := set_orbits draws o (DataFrame j) in do x <- u_result u; Ok (u_self u).

(** * ooephemerides.py: ephemerides *)
(** str.lower of ASCII text *)
Definition lower_char (a : ascii) : ascii :=
  let n := nat_of_ascii a in if Nat.leb 65 n && Nat.leb n 90 then ascii_of_nat (n + 32) else a.
Fixpoint lower (s : string) : string := match s with EmptyString => EmptyString | String a r => String (lower_char a) (lower r) end.
(** lines 593-598, 630-635 *)
Definition dynamics (mode : string) : result string :=
  let m := lower mode in
  if String.eqb m "nbody" || String.eqb m "n" then Ok "N"%string
  else if String.eqb m "2body" || String.eqb m "2" then Ok "2"%string else Err ValueError.
(** _convert_times, lines 261-287, of a list of times: each with the number of its scale *)
Definition convert_times (times : list R) (scale : string) : result (list (R * R)) :=
  match times with [] => Err ValueError | _ => do k <- time_scales scale; Ok (map (fun t => (t, IZR k)) times) end.
(** an array of three dimensions with its shape *)
Record array3 := { a_shape : nat * nat * nat; a_at : nat -> nat -> nat -> R }.
Definition swap20 (a : array3) : array3 :=
  let '(x, y, z) := a_shape a in {| a_shape := (z, y, x); a_at := fun i j k => a_at a k j i |}.
Definition swap21 (a : array3) : array3 :=
  let '(x, y, z) := a_shape a in {| a_shape := (x, z, y); a_at := fun i j k => a_at a i k j |}.
(** a column of the result: its name, its shape and its entries *)
Record column2 := { c_name : string; c_shape : nat * nat; c_at : nat -> nat -> R }.
Definition basic_names : list string :=
  ["time"; "ra"; "dec"; "dradt"; "ddecdt"; "phase"; "solarelon"; "helio_dist"; "geo_dist"; "magV"; "trueAnomaly"]%string.
Definition full_names : list string :=
  ["time"; "ra"; "dec"; "dradt"; "ddecdt"; "phase"; "solarelon"; "helio_dist"; "geo_dist"; "magV"; "pa"; "topo_lon"; "topo_lat";
   "opp_topo_lon"; "opp_topo_lat"; "helio_lon"; "helio_lat"; "opp_helio_lon"; "opp_helio_lat"; "topo_obj_alt"; "topo_solar_alt";
   "topo_lunar_alt"; "lunar_phase"; "lunar_dist"; "helio_x"; "helio_y"; "helio_z"; "helio_dx"; "helio_dy"; "helio_dz"; "obs_helio_x";
   "obs_helio_y"; "obs_helio_z"; "trueAnom"]%string.
(** _convert_oorb_ephs_full and _basic, lines 387-435, 511-536: they differ in the names only *)
Definition convert_ephs (names : list string) (by_object : bool) (ephs : array3) : result (list column2) :=
  let e := swap20 ephs in
  let '(n, t, o) := a_shape e in
  if Nat.ltb n 5 then Err IndexError
  else
    let velocity := fun i j => sqrt (a_at e 3%nat i j ^ 2 + a_at e 4%nat i j ^ 2) in
    let e' := if by_object then swap21 e else e in
    let shape := if by_object then (o, t) else (t, o) in
    let velocity' := if by_object then fun i j => velocity j i else velocity in
    if Nat.ltb n (length names) then Err IndexError
    else Ok (map (fun p => {| c_name := snd p; c_shape := shape; c_at := a_at e' (fst p) |}) (combine (seq 0 (length names)) names) ++
             [{| c_name := "velocity"; c_shape := shape; c_at := velocity' |}]).
(** generate_ephemerides, lines 538-619; [oorb_basic] and [oorb_full] are pyoorb's functions of the times and the mode, with their
    error codes.  The basic call ignores its error code (line 603) *)
Definition generate_ephemerides (oorb_basic oorb_full : list (R * R) -> string -> array3 * Z)
  (times : list R) (scale : string) (by_object : bool) (mode type : string) : result (list column2) :=
  do m <- dynamics mode; do t <- convert_times times scale;
  if String.eqb (lower type) "basic" then convert_ephs basic_names by_object (fst (oorb_basic t m))
  else if String.eqb (lower type) "full" then
    (if (snd (oorb_full t m) =? 0)%Z then convert_ephs full_names by_object (fst (oorb_full t m)) else Err RuntimeError)
  else Err ValueError.
(** propagate_orbits, lines 621-643 *)
Definition propagate_orbits (oorb_propagation : list (list num) -> list (R * R) -> string -> list (list num) * Z)
  (elem : list (list num)) (epoch : R) (mode : string) : result (list (list num)) :=
  do t <- convert_times [epoch] "TT"; do m <- dynamics mode;
  if (snd (oorb_propagation elem t m) =? 0)%Z then Ok (fst (oorb_propagation elem t m)) else Err RuntimeError.

(** * orbits.py: read_orbits, lines 263-489 *)
(** lines 306-323: a file as the words of its lines; [is_float] says that float() accepts a word.  The number of lines before the first
    line with a number as its fourth word, less one, and the last of them *)
Fixpoint scan (is_float : string -> bool) (lines : list (list string)) (skip : Z) (header : option (list string)) : Z * option (list string) :=
  match lines with
  | [] => (skip, header)
  | l :: r =>
      match nth_error l 3 with
      | Some w => if is_float w then (skip, header) else scan is_float r (skip + 1) (Some l)
      | None => scan is_float r (skip + 1) (Some l)
      end
  end.
(** lines 325-335: names and the number of lines to skip *)
Definition header_names (h : option (list string)) (skip : Z) : result (option (list string) * Z) :=
  match h with
  | None => Ok (None, skip)
  | Some [] => Err IndexError
  | Some (w :: r) =>
      Ok (Some (if String.eqb w "#" || String.eqb w "!!" || String.eqb w "##" then r else w :: r), (skip + 1)%Z)
  end.
(** lines 342-389 *)
Definition des_names (els : list string) : list string :=
  ["obj_id"; "FORMAT"]%string ++ els ++ ["H"; "epoch"; "INDEX"; "N_PAR"; "MOID"; "COMPCODE"]%string.
Definition des_com : list string := des_names ["q"; "e"; "i"; "node"; "argperi"; "t_p"]%string.
Definition des_kep : list string := des_names ["a"; "e"; "i"; "node"; "argperi"; "meanAnomaly"]%string.
Definition des_car : list string := des_names ["x"; "y"; "z"; "xdot"; "ydot"; "zdot"]%string.
(** pandas.read_csv(sep=r"\s+", skiprows=skip, names=names): lines without words are passed over.  Lines that do not have as many
    words as there are names are not modelled (pandas pads them, or takes words for row labels): they give an error here; a file
    without data gives an error in pandas or in set_orbits *)
Definition read_csv (lines : list (list string)) (skip : nat) (names : list string) : result (list (list string)) :=
  let data := filter (fun l => negb (Nat.eqb (length l) 0)) (skipn skip lines) in
  if forallb (fun l => Nat.eqb (length l) (length names)) data then
    match data with [] => Err EmptyDataError | _ => Ok data end
  else Err ValueError.
(** lines 300-402: the names of the columns, before they are standardised, and the rows (skiprows=None).  [lines] are the words of the
    lines, separated by white space; [fields] those separated by delim, the same if delim is None *)
Definition read_table (is_float : string -> bool) (lines fields : list (list string)) : result (list string * list (list string)) :=
  let '(skip, h) := scan is_float lines (-1) None in
  do hn <- header_names h skip;
  match fst hn with
  | Some names => do d <- read_csv fields (Z.to_nat (snd hn)) names; Ok (names, d)
  | None =>
      do d <- read_csv lines 0 des_com;
      let w := nth 1 (nth 0 d []) ""%string in
      Ok (if String.eqb w "KEP" then des_kep else if String.eqb w "CAR" then des_car else des_com, d)
  end.
(** lines 406-415 *)
Definition unneeded : list string := ["INDEX"; "N_PAR"; "MOID"; "COMPCODE"; "tmp"]%string.
(** lines 424-466; the missing comma of line 432 makes "S3MIDobjid(int)" of "S3MID" and "objid(int)" *)
Definition alt_names : list (string * list string) :=
  [("obj_id", ["obj_id"; "objid"; "!!ObjID"; "!!OID"; "!!S3MID"; "OID"; "S3MIDobjid(int)"; "full_name"; "#name"]);
   ("q", ["q"]); ("a", ["a"]); ("e", ["e"; "ecc"]); ("inc", ["inc"; "i"; "i(deg)"; "incl"]);
   ("Omega", ["Omega"; "omega"; "node"; "om"; "node(deg)"; "BigOmega"; "Omega/node"; "longNode"]);
   ("argPeri", ["argPeri"; "argperi"; "omega/argperi"; "w"; "argperi(deg)"; "peri"]);
   ("tPeri", ["tPeri"; "t_p"; "timeperi"; "t_peri"; "T_peri"]); ("epoch", ["epoch"; "t_0"; "Epoch"; "epoch_mjd"]);
   ("H", ["H"; "magH"; "magHv"; "Hv"; "H_v"]); ("g", ["g"; "phaseV"; "phase"; "gV"; "phase_g"; "G"]);
   ("meanAnomaly", ["meanAnomaly"; "meanAnom"; "M"; "ma"]); ("sed_filename", ["sed_filename"; "sed"]);
   ("xdot", ["xdot"; "xDot"]); ("ydot", ["ydot"; "yDot"]); ("zdot", ["zdot"; "zDot"])]%string.
Definition mem (c : string) (l : list string) : bool := existsb (String.eqb c) l.
(** sso_cols[sso_cols.index(x)] = name *)
Fixpoint replace_first (x name : string) (cols : list string) : list string :=
  match cols with
  | [] => []
  | c :: r => if String.eqb c x then name :: r else c :: replace_first x name r
  end.
(** lines 469-477: one round *)
Definition rename (p : string * list string) (cols : list string) : result (list string) :=
  match nodup string_dec (filter (fun c => mem c (snd p)) cols) with
  | [] => Ok cols
  | [x] => Ok (replace_first x (fst p) cols)
  | _ => Err ValueError
  end.
Definition standard_names (cols : list string) : result (list string) :=
  fold_left (fun r p => do c <- r; rename p c) alt_names (Ok cols).
(** lines 406-489: the table given to set_orbits; [parse] is what pandas makes of a word.  The check for negative inclinations
    (lines 482-486) builds an exception and drops it *)
Definition to_table (parse : string -> cell) (names : list string) (data : list (list string)) : result frame :=
  let f := {| f_index := count (length data);
              f_cols := map (fun k => (nth k names ""%string, map (fun l => parse (nth k l ""%string)) data)) (seq 0 (length names)) |} in
  let f := fold_left (fun f c => drop c f) unneeded f in
  do cols <- standard_names (map fst (f_cols f));
  Ok {| f_index := f_index f; f_cols := combine cols (map snd (f_cols f)) |}.
Definition read_orbits (is_float : string -> bool) (parse : string -> cell) (draws : nat -> R) (o : orb) (lines fields : list (list string)) : result orb :=
  do t <- read_table is_float lines fields; do f <- to_table parse (fst t) (snd t);
  let u := set_orbits draws o (DataFrame f) in do x <- u_result u; Ok (u_self u).
