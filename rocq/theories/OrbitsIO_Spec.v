(** What the properties of reading and packing orbits speak of. *)
From Coq Require Import Reals.
From Verif Require Import Base.
Open Scope R_scope.

(** alternative column names and the standard name they stand for, as listed in orbits.py, lines 424-466 (with the comma) *)
Definition documented : list (string * string) :=
  [("obj_id", "obj_id"); ("objid", "obj_id"); ("!!ObjID", "obj_id"); ("!!OID", "obj_id"); ("!!S3MID", "obj_id"); ("OID", "obj_id");
   ("S3MID", "obj_id"); ("objid(int)", "obj_id"); ("full_name", "obj_id"); ("#name", "obj_id");
   ("q", "q"); ("a", "a"); ("e", "e"); ("ecc", "e"); ("inc", "inc"); ("i", "inc"); ("i(deg)", "inc"); ("incl", "inc");
   ("Omega", "Omega"); ("omega", "Omega"); ("node", "Omega"); ("om", "Omega"); ("node(deg)", "Omega"); ("BigOmega", "Omega");
   ("Omega/node", "Omega"); ("longNode", "Omega"); ("argPeri", "argPeri"); ("argperi", "argPeri"); ("omega/argperi", "argPeri"); ("w", "argPeri");
   ("argperi(deg)", "argPeri"); ("peri", "argPeri"); ("tPeri", "tPeri"); ("t_p", "tPeri"); ("timeperi", "tPeri"); ("t_peri", "tPeri");
   ("T_peri", "tPeri"); ("epoch", "epoch"); ("t_0", "epoch"); ("Epoch", "epoch"); ("epoch_mjd", "epoch"); ("H", "H"); ("magH", "H");
   ("magHv", "H"); ("Hv", "H"); ("H_v", "H"); ("g", "g"); ("phaseV", "g"); ("phase", "g"); ("gV", "g"); ("phase_g", "g"); ("G", "g");
   ("meanAnomaly", "meanAnomaly"); ("meanAnom", "meanAnomaly"); ("M", "meanAnomaly"); ("ma", "meanAnomaly");
   ("sed_filename", "sed_filename"); ("sed", "sed_filename"); ("xdot", "xdot"); ("xDot", "xdot"); ("ydot", "ydot"); ("yDot", "ydot");
   ("zdot", "zdot"); ("zDot", "zdot")]%string.
(** a line of data: its fourth word is a number *)
Definition data_line (is_float : string -> bool) (l : list string) : Prop := exists w, nth_error l 3 = Some w /\ is_float w = true.
(** the words of a header, without the mark of a comment *)
Inductive header_of : list string -> list string -> Prop :=
| ho_mark m r : (m = "#" \/ m = "!!" \/ m = "##")%string -> header_of (m :: r) r
| ho_plain w r : (w <> "#" /\ w <> "!!" /\ w <> "##")%string -> header_of (w :: r) (w :: r).
(** the column names of a file without a header, by the second word of its first line *)
Definition des_layout (fmt : string) (names : list string) : Prop :=
  exists els, names = ["obj_id"; "FORMAT"]%string ++ els ++ ["H"; "epoch"; "INDEX"; "N_PAR"; "MOID"; "COMPCODE"]%string /\
  (fmt = "KEP"%string /\ els = ["a"; "e"; "i"; "node"; "argperi"; "meanAnomaly"]%string \/
   fmt = "CAR"%string /\ els = ["x"; "y"; "z"; "xdot"; "ydot"; "zdot"]%string \/
   fmt <> "KEP"%string /\ fmt <> "CAR"%string /\ els = ["q"; "e"; "i"; "node"; "argperi"; "t_p"]%string).
