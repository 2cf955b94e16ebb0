(** Model of rubin_sim/maf/db/tracking_db.py (TrackingDb) and maf/utils/output_utils.py (name_sanitize).
    The table is the list of its rows; an id that is not given is one more than the largest id (SQLite INTEGER
    PRIMARY KEY without AUTOINCREMENT). *)
From Verif Require Import Base ResultsDb_Model.
From Coq Require Import Ascii.

(** RunRow, tracking_db.py:24-61: the id, the directory and the nine other columns as one list *)
Record run_row := mkR { r_id : nat; r_dir : string; r_info : list string }.

Section Tracking.
(** [os.path.relpath(maf_dir, start=self.tracking_db_dir)], tracking_db.py:164 *)
Variable relpath : string -> string.

(** add_run, tracking_db.py:96-231: the new table and the id, or ValueError.  [info] are the other columns
    ([None] is stored as "NULL", lines 143-163). *)
Definition add_run (t : list run_row) (info : list (option string)) (dir : option string) (run_id : option nat)
    : list run_row * result nat :=
  let maf_dir := relpath (null_str dir) in
  match filter (fun r => String.eqb (r_dir r) maf_dir) t with
  | r :: _ =>
      (filter (fun r => negb (String.eqb (r_dir r) maf_dir)) t ++ [mkR (r_id r) maf_dir (map null_str info)], Ok (r_id r))
  | [] =>
      match run_id with
      | Some i =>
          if existsb (fun r => (r_id r =? i)%nat) t then (t, Err ValueError)
          else (t ++ [mkR i maf_dir (map null_str info)], Ok i)
      | None =>
          let i := next_id (map r_id t) in (t ++ [mkR i maf_dir (map null_str info)], Ok i)
      end
  end.
(** delRun, tracking_db.py:233-245; the plain Exception is written [ValueError] here *)
Definition del_run (t : list run_row) (i : nat) : list run_row * result unit :=
  match filter (fun r => (r_id r =? i)%nat) t with
  | [] => (t, Err ValueError)
  | [r] => (filter (fun r => negb (r_id r =? i)%nat) t, Ok tt)
  | _ => (t, Err ValueError)
  end.
Inductive top :=
| AddRun (info : list (option string)) (dir : option string) (run_id : option nat)
| DelRun (i : nat).
Definition tstep (t : list run_row) (o : top) : list run_row :=
  match o with
  | AddRun info d i => fst (add_run t info d i)
  | DelRun i => fst (del_run t i)
  end.
Definition trun (h : list top) : list run_row := fold_left tstep h [].

(** The states of the database file during add_run: the delete is committed (line 176) before the new row is
    added and committed (lines 229-230). *)
Definition add_run_states (t : list run_row) (info : list (option string)) (dir : option string) (run_id : option nat)
    : list (list run_row) :=
  let maf_dir := relpath (null_str dir) in
  match filter (fun r => String.eqb (r_dir r) maf_dir) t with
  | _ :: _ => [t; filter (fun r => negb (String.eqb (r_dir r) maf_dir)) t; fst (add_run t info dir run_id)]
  | [] => [t; fst (add_run t info dir run_id)]
  end.
End Tracking.

(** * name_sanitize, output_utils.py:4-34 *)
(** characters are code points *)
Definition char : Type := N.
Definition chr (a : ascii) : char := N_of_ascii a.
(** [str.replace] of one character by a string *)
Definition replace_char (c : char) (by_ : list char) (s : list char) : list char :=
  flat_map (fun x => if N.eqb x c then by_ else [x]) s.
Definition us : char := chr "_".
(** [s.replace("__", "_")]: leftmost non-overlapping occurrences *)
Fixpoint replace_double (s : list char) : list char :=
  match s with
  | a :: ((b :: t) as r) => if N.eqb a us && N.eqb b us then us :: replace_double t else a :: replace_double r
  | _ => s
  end.
(** ["__" in s] *)
Fixpoint has_double (s : list char) : bool :=
  match s with
  | a :: ((b :: _) as r) => (N.eqb a us && N.eqb b us) || has_double r
  | _ => false
  end.
(** the while loop of lines 31-32; [None]: not finished *)
Fixpoint collapse (fuel : nat) (s : list char) : option (list char) :=
  if has_double s then match fuel with O => None | S f => collapse f (replace_double s) end else Some s.
Local Open Scope char_scope.
(** lines 18-30, in order *)
Definition sanitize_chars (s : list char) : list char :=
  let s := replace_char (chr ">") [chr "g"; chr "t"] s in
  let s := replace_char (chr "<") [chr "l"; chr "t"] s in
  let s := replace_char (chr "=") [chr "e"; chr "q"] s in
  let s := replace_char (chr " ") [us] s in
  let s := replace_char (chr ".") [us] s in
  let s := replace_char (chr ",") [] s in
  let s := replace_char (chr "/") [us] s in
  let s := replace_char (chr "\") [us] s in
  let s := replace_char (chr "(") [] s in
  let s := replace_char (chr ")") [] s in
  let s := replace_char (chr ":") [us] s in
  let s := replace_char (chr ";") [us] s in
  let s := replace_char (chr "%") [us] s in
  replace_char (chr "#") [us] s.
Definition name_sanitize (s : list char) : option (list char) :=
  let s := sanitize_chars s in collapse (length s) s.
