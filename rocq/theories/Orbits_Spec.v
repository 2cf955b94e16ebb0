(** What the properties of Orbits speak of: entries of a table, its format, which tables are acceptable. *)
From Coq Require Import Reals.
From Verif Require Import Base Orbits_Model.
Open Scope R_scope.

(** the columns of a table *)
Definition names (f : frame) : list string := map fst (f_cols f).
(** row i of column c holds v *)
Definition holds (f : frame) (c : string) (i : nat) (v : cell) : Prop := exists l, In (c, l) (f_cols f) /\ nth_error l i = Some v.
(** a table: distinct columns, as long as there are rows *)
Definition wf (f : frame) : Prop := NoDup (names f) /\ forall c l, In (c, l) (f_cols f) -> length l = rows f.
(** no text among the entries of column c *)
Definition numeric (f : frame) (c : string) : Prop := forall i s, ~ holds f c i (Txt s).
Definition numeric_elements (f : frame) : Prop := forall c, In c ["a"; "q"; "e"; "x"; "y"; "z"; "epoch"]%string -> numeric f c.
(** the six elements of a format *)
Inductive elements : string -> list string -> Prop :=
| el_com : elements "COM" ["q"; "e"; "inc"; "Omega"; "argPeri"; "tPeri"]%string
| el_kep : elements "KEP" ["a"; "e"; "inc"; "Omega"; "argPeri"; "meanAnomaly"]%string
| el_car : elements "CAR" ["x"; "y"; "z"; "xdot"; "ydot"; "zdot"]%string.
(** the format of a table: the stated one (CART stands for CAR), otherwise the first of q, a, x among the columns says *)
Inductive chosen (f : frame) : string -> Prop :=
| ch_stated s fmt : In "FORMAT"%string (names f) -> (forall i v, holds f "FORMAT" i v -> v = Txt s) ->
    (s = fmt \/ s = "CART" /\ fmt = "CAR")%string -> chosen f fmt
| ch_com : ~ In "FORMAT"%string (names f) -> In "q"%string (names f) -> chosen f "COM"
| ch_kep : ~ In "FORMAT"%string (names f) -> ~ In "q"%string (names f) -> In "a"%string (names f) -> chosen f "KEP"
| ch_car : ~ In "FORMAT"%string (names f) -> ~ In "q"%string (names f) -> ~ In "a"%string (names f) -> In "x"%string (names f) ->
    chosen f "CAR".
(** an epoch between the years 1800 and 2200 *)
Definition epoch_ok (v : cell) : Prop := forall x, v = Num x -> -21503 <= x <= 124594.
(** a table that set_orbits accepts (the last line: to choose a spectrum from q, e is needed, in any format) *)
Definition acceptable (f : frame) (fmt : string) : Prop :=
  rows f <> 0%nat /\ chosen f fmt /\
  (exists els, elements fmt els /\ forall c, In c els -> In c (names f)) /\
  (exists v, holds f "epoch" 0 v /\ epoch_ok v) /\
  (~ In "sed_filename"%string (names f) -> ~ In "a"%string (names f) -> In "q"%string (names f) -> In "e"%string (names f)).
(** accepted, with f' stored *)
Definition accepted (u : outcome) (f' : frame) (fmt : string) : Prop :=
  u_result u = Ok tt /\ o_orbits (u_self u) = Some f' /\ o_format (u_self u) = Some (Txt fmt).
(** an Orbits object holding a table in a format *)
Definition holding (o : orb) (f : frame) (fmt : string) : Prop :=
  o_orbits o = Some f /\ o_format o = Some (Txt fmt) /\ wf f /\ (0 < rows f)%nat /\
  exists els, elements fmt els /\ forall c, In c (els ++ ["obj_id"; "epoch"; "H"; "g"; "sed_filename"]%string) -> In c (names f).
