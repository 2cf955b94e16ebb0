(** Model of the plots of two-dimensional metric values, rubin_sim/maf/plots/two_d_plotters.py.  A plot is what is handed to
    matplotlib; colours, titles and matplotlib itself are left out. *)
From Coq Require Import String.
From Verif Require Import Base.
From Coq Require Import Reals.
Open Scope R_scope.

(** * VisitPairsHist.__call__, lines 153-177.  The metric values are numbers of visits, [true] if masked. *)
(** a value of the argument of line 153 *)
Definition entry := (nat * bool)%type.
(** line 161: the largest value that is not masked.  Simplified: there is one. *)
Definition max_val (l : list entry) : nat := fold_left Nat.max (map fst (filter (fun e => negb (snd e)) l)) 0%nat.
(** [np.arange(0.5, m + 0.5, 1)], line 162: [m] edges *)
Definition edges (m : nat) : list R := map (fun i => 1/2 + INR i) (seq 0 m).
(** [np.histogram], line 164, which ignores the mask: bins are half-open but the last *)
Definition inside (lo hi : R) (last : bool) (v : nat) : bool :=
  (if Rle_dec lo (INR v) then true else false) && (if last then (if Rle_dec (INR v) hi then true else false) else (if Rlt_dec (INR v) hi then true else false)).
Fixpoint histogram (es : list R) (l : list entry) : list (R * R * nat) :=
  match es with
  | a :: ((b :: t) as r) => (a, b, length (filter (fun e => inside a b (match t with [] => true | _ => false end) (fst e)) l)) :: histogram r l
  | _ => []
  end.
(** the bars, lines 165 and 170: their centers and heights *)
Definition bars (l : list entry) : list (R * R) :=
  map (fun h => let x := (fst (fst h) + snd (fst h)) / 2 in (x, INR (snd h) * x)) (histogram (edges (max_val l)) l).

(** * TwoDMap.__call__, lines 39-112 *)
(** [numpy.ma.MaskedArray], the argument of line 39: a masked array, row after row; [None]: no mask *)
Record marray := { a_data : list R; a_mask : option (list bool) }.
(** lines 78-81: the values below the color minimum are masked, in the array that was given.  Without a mask there is nothing to
    assign to, TypeError *)
Definition mask_low (cmin : option R) (a : marray) : result marray :=
  match cmin with
  | None => Ok a
  | Some c =>
      match a_mask a with
      | None => Err TypeError
      | Some m => Ok {| a_data := a_data a; a_mask := Some (map (fun p => snd p || (if Rlt_dec (fst p) c then true else false))%bool (combine (a_data a) m)) |}
      end
  end.
(** lines 58-61: the label by the kind of slicer is written into the defaults of the plotter, the state [dflt]; [has s k] tells if
    the name [s] contains [k] *)
Definition default_label (has : string -> string -> bool) (slicer : string) (dflt : option string) : option string :=
  if has slicer "Healpix"%string then Some "Healpix ID"%string else if has slicer "User"%string then Some "User Field ID"%string else dflt.
(** lines 63-68: the label of the user, unless None *)
Definition label (user dflt : option string) : option string := match user with Some u => Some u | None => dflt end.
(** a call, lines 39-112: the default label and the array afterwards, and the image and its label *)
Definition two_d_map (has : string -> string -> bool) (slicer : string) (user : option string) (cmin : option R) (dflt : option string) (a : marray) :
  result (option string * marray * option string) :=
  do a' <- mask_low cmin a;
  let d := default_label has slicer dflt in
  Ok (d, a', label user d).
