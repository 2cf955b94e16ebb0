(** Model of the plots of binned data: rubin_sim/maf/plots/oned_plotters.py (OneDBinnedData) and nd_plotters.py (TwoDSubsetData,
    OneDSubsetData).  A plot is the line that is handed to matplotlib and the limits that are set; labels, colours and
    matplotlib itself are left out.  Numbers are real numbers (exact). *)
From Coq Require Import String.
From Verif Require Import Base.
From Verif Require Astrom_Model.
From Coq Require Import Reals.
Open Scope R_scope.

(** a masked array: [a_mask] is [None] if there is no mask ([np.ma.nomask]) *)
Record marray := { a_data : list R; a_mask : option (list bool); a_fill : R }.
Definition masked (a : marray) (i : nat) : bool := match a_mask a with None => false | Some m => nth i m false end.
Definition pos_in (a : marray) : list nat := seq 0 (length (a_data a)).
(** [filled()] and [compressed()] *)
Definition filled (a : marray) : list R := map (fun i => if masked a i then a_fill a else nth i (a_data a) 0) (pos_in a).
Definition compressed (a : marray) : list R := map (fun i => nth i (a_data a) 0) (filter (fun i => negb (masked a i)) (pos_in a)).

(** what the plotter reads of the plot_dict, the defaults of lines 18-36 being filled in; [o_color] tells if there is a colour,
    which has no default *)
Record options := { o_color : bool; o_filled : bool; o_clip : option R; o_ymin : option R; o_ymax : option R }.
Record drawing := { d_x : list R; d_y : list R; d_bottom : option R; d_top : option R }.

(** the left edges and widths, lines 54-55 *)
Definition lefts (bins : list R) : list R := removelast bins.
Fixpoint widths (bins : list R) : list R := match bins with a :: ((b :: _) as t) => (b - a) :: widths t | _ => [] end.
(** [np.where(~mask)], line 60: without a mask there is one place, the first *)
Definition good (a : marray) : list nat :=
  match a_mask a with None => [0%nat] | Some m => filter (fun i => negb (nth i m false)) (seq 0 (length m)) end.
(** [np.ravel(list(zip(u, v)))] *)
Definition ravel (u v : list R) : list R := flat_map (fun p => [fst p; snd p]) (combine u v).
Fixpoint at_each {A} (l : list A) (ix : list nat) : result (list A) :=
  match ix with [] => Ok [] | i :: t => do x <- arr_get l i; do r <- at_each l t; Ok (x :: r) end.
Definition adds (u v : list R) : list R := map (fun p => fst p + snd p) (combine u v).
(** lines 56-62 *)
Definition line_of (bins : list R) (fill : bool) (a : marray) : result (list R * list R) :=
  if fill then Ok (ravel (lefts bins) (adds (lefts bins) (widths bins)), ravel (filled a) (filled a))
  else
    do l <- at_each (lefts bins) (good a);
    do w <- at_each (widths bins) (good a);
    do v <- at_each (a_data a) (good a);
    Ok (ravel l (adds l w), ravel v v).
(** the limits, lines 89-108; [clip] is percentile_clipping *)
Definition keep (x : option R) (y : R) : option R := match x with Some v => Some v | None => Some y end.
Definition limits (clip : list R -> R -> result (R * R)) (o : options) (a : marray) : result (option R * option R) :=
  do lim <- match o_clip o with
            | None => Ok (o_ymin o, o_ymax o)
            | Some p => do c <- clip (compressed a) p; Ok (keep (o_ymin o) (fst c), keep (o_ymax o) (snd c))
            end;
  match fst lim with
  | Some v => Ok lim
  | None => match filled a with
            | [] => Err ValueError
            | x :: t => Ok (if Req_EM_T (fold_left Rmin t x) 0 then (Some 0, snd lim) else lim)
            end
  end.
(** OneDBinnedData.__call__, lines 38-114; [bins] is [None] if the slice points have no bins *)
Definition binned_data (clip : list R -> R -> result (R * R)) (slicer_name : string) (bins : option (list R)) (o : options) (a : marray) : result drawing :=
  if negb (String.eqb slicer_name "OneDSlicer") then Err ValueError
  else match bins with
       | None => Err ValueError
       | Some b =>
           do l <- line_of b (o_filled o) a;
           if negb (o_color o) then Err KeyError
           else if negb (length (fst l) =? length (snd l))%nat then Err ValueError
           else
             do lim <- limits clip o a;
             Ok {| d_x := fst l; d_y := snd l; d_bottom := fst lim; d_top := snd lim |}
       end.

(** * nd_plotters.py.  [attrs] are the attributes of the slicer, those of an NDSlicer after setup_slicer (nd_slicer.py:32-105)
    being [nd_attrs]; [sum] is the rest of the plot *)
Definition nd_attrs : list string := ["slicer_name"; "slice_col_list"; "columns_needed"; "n_d"; "bins_list"; "slicer_init"; "plot_funcs"; "bins"; "nslice"; "shape"; "slice_points"; "sim_idxs"; "lefts"; "badval"; "verbose"; "cache_size"; "islice"]%string.
Definition attr (attrs : list string) (name : string) : result unit := if existsb (String.eqb name) attrs then Ok tt else Err AttributeError.
Definition has_key (d : list (string * nat)) (k : string) : bool := existsb (fun p => String.eqb (fst p) k) d.
(** the values are reshaped, lines 69-73 and 179-183: the sizes have to agree *)
Definition reshape (shape : list nat) (n : nat) : result unit := if (fold_right Nat.mul 1%nat shape =? n)%nat then Ok tt else Err ValueError.
(** lines 55-119, 165-220: [keys] are the axes needed *)
Definition subset_data (keys : list string) {A} (rest : result A) (attrs : list string) (slicer_name : string) (nbins : list nat) (n : nat) (d : list (string * nat)) : result A :=
  if negb (String.eqb slicer_name "NDSlicer") then Err ValueError
  else if negb (forallb (has_key d) keys) then Err ValueError
  else
    do _ <- attr attrs "bins";
    do _ <- reshape (rev nbins) n;
    do _ <- attr attrs "nD";
    rest.
Definition two_d {A} : result A -> _ := subset_data ["xaxis"; "yaxis"]%string.
Definition one_d {A} : result A -> _ := subset_data ["axis"]%string.
