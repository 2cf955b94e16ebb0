(** Model of the plots of moving object metrics against orbits and H, rubin_sim/maf/plots/mo_plotters.py, and of the plot of the
    area against the number of visits, rubin_sim/maf/plots/special_plotters.py (FOPlot).  A plot is what is handed to matplotlib.
    Numbers are real numbers (exact). *)
From Coq Require Import String.
From Verif Require Import Base.
From Coq Require Import Reals.
Open Scope R_scope.

(** * FOPlot.__call__ *)
(** [np.sort], special_plotters.py:74 *)
Fixpoint insert (x : R) (l : list R) : list R := match l with [] => [x] | y :: t => if Rle_dec x y then x :: l else y :: insert x t end.
Fixpoint rsort (l : list R) : list R := match l with [] => [] | x :: t => insert x (rsort t) end.
(** [np.arange(1, n + 1)[::-1] * scale], line 72 *)
Definition areas (n : nat) (scale : R) : list R := map (fun k => INR k * scale) (rev (seq 1 n)).
(** the line, lines 70-79: values are those that are not masked *)
Definition fo_line (scale : R) (values : list R) : list (R * R) := combine (rsort values) (areas (length values) scale).

(** * The choice of H of MetricVsOrbit and MetricVsOrbitPoints, mo_plotters.py:169-219 and 287-318 *)
(** a plot_dict; only options that are None or numbers are kept *)
Definition dict := list (string * option R).
Fixpoint get (d : dict) (k : string) : result (option R) := match d with [] => Err KeyError | (n, v) :: t => if String.eqb n k then Ok v else get t k end.
(** the defaults, lines 152-167 and 271-284.  Simplified: of those only the ones with the value None *)
Definition orbit_defaults : dict := [("title", None); ("label", None); ("np_reduce", None); ("nxbins", None); ("nybins", None); ("levels", None); ("h_val", None); ("Hwidth", None); ("figsize", None)]%string.
(** [plot_dict.update], lines 170-172: the user's option is found first *)
Definition plot_dict (user : dict) : dict := user ++ orbit_defaults.
Inductive hsel := One (i : nat) | Many (l : list nat).
(** [np.where(abs(hvals - h) == abs(hvals - h).min())[0][0]], lines 207-208 *)
Fixpoint nearest_from (h : R) (i : nat) (best : nat * R) (l : list R) : nat :=
  match l with
  | [] => fst best
  | x :: t => if Rlt_dec (Rabs (x - h)) (snd best) then nearest_from h (S i) (i, Rabs (x - h)) t else nearest_from h (S i) best t
  end.
Definition nearest (h : R) (l : list R) : result nat := match l with [] => Err ValueError | x :: t => Ok (nearest_from h 1 (0%nat, Rabs (x - h)) t) end.
(** [np.where(abs(hvals - h) <= hwidth / 2)[0]], lines 212 and 215 *)
Definition close_to (h w : R) (l : list R) : list nat := filter (fun i => if Rle_dec (Rabs (nth i l 0 - h)) (w / 2) then true else false) (seq 0 (length l)).
(** lines 196-215, 295-314: the H of the label and the places of the values; [n] is the second size of the slicer and [median] is
    [np.median] *)
Definition choose_h (median : list R -> R) (hvals : list R) (n : nat) (user : dict) : result (R * hsel) :=
  do w <- get (plot_dict user) "hwidth";
  let width := match w with Some x => x | None => 1 end in
  if (length hvals =? n)%nat then
    do h <- get (plot_dict user) "hval";
    match h with
    | None => do x <- arr_get hvals (length hvals / 2); Ok (x, One (length hvals / 2))
    | Some x => do i <- nearest x hvals; Ok (x, One i)
    end
  else
    do h <- get (plot_dict user) "hval";
    match h with
    | None => Ok (median hvals, Many (close_to (median hvals) width hvals))
    | Some _ => do h2 <- get (plot_dict user) "hvals";
        match h2 with None => Err TypeError | Some x => Ok (x, Many (close_to x width hvals)) end
    end.

(** * The bins of MetricVsOrbit, lines 220-237 *)
(** [np.digitize], lines 226-227, for edges in order *)
Definition digitize (edges : list R) (x : R) : nat := length (filter (fun e => if Rle_dec e x then true else false) edges).
Definition places (edges : list R) (l : list R) (i : nat) : list nat := filter (fun j => digitize edges (nth j l 0%R) =? S i)%nat (seq 0 (length l)).
(** [a[ix]] with a list of places, line 235 *)
Fixpoint at_each {A} (l : list A) (ix : list nat) : result (list A) :=
  match ix with [] => Ok [] | i :: t => do x <- arr_get l i; do r <- at_each l t; Ok (x :: r) end.
(** lines 232-235 *)
Definition match_vals (xb yb xs ys m : list R) (ix iy : nat) : result (list R) :=
  let ymatch := places yb ys iy in
  do v <- at_each m ymatch;
  Ok (map snd (filter (fun p => digitize xb (nth (fst p) xs 0%R) =? S ix)%nat (combine ymatch v))).
(** lines 225, 231-237: the value of each bin, in turn *)
Definition bin_val (reduce : list R -> R) (bad : R) (xb yb xs ys m : list R) (p : nat * nat) : result R :=
  do v <- match_vals xb yb xs ys m (fst p) (snd p);
  Ok (match v with [] => bad | _ => reduce v end).
Fixpoint each {A B} (f : A -> result B) (l : list A) : result (list B) := match l with [] => Ok [] | x :: t => do y <- f x; do r <- each f t; Ok (y :: r) end.
Definition bin_vals (reduce : list R -> R) (bad : R) (xb yb xs ys m : list R) : result (list R) :=
  each (bin_val reduce bad xb yb xs ys m) (flat_map (fun iy => map (fun ix => (ix, iy)) (seq 0 (length xb))) (seq 0 (length yb))).
(** lines 214-219: the values of the objects chosen, if each has its own H *)
Definition own_vals (values : list R) (hidx : list nat) : result (list R) := at_each values hidx.
(** MetricVsOrbitPoints, lines 296-354: the label of the colorbar, which is there only with the foreground points.  The scatter
    plot, lines 338-349, needs as many values as the [nobj] objects *)
Definition orbit_points (median : list R -> R) (hvals : list R) (n nobj : nat) (user : dict) (foreground : bool) : result R :=
  do c <- choose_h median hvals n user;
  if foreground then
    match snd c with
    | One _ => Ok (fst c)
    | Many l => if (length l =? nobj)%nat then Ok (fst c) else Err ValueError
    end
  else Err UnboundLocalError.
