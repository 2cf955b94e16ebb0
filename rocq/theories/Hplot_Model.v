(** Model of the plot of metric values against H, rubin_sim/maf/plots/mo_plotters.py (MetricVsH), and of the summary histogram,
    rubin_sim/maf/plots/special_plotters.py (SummaryHistogram).  A plot is the line that is handed to matplotlib.  Numbers are
    real numbers (exact). *)
From Coq Require Import String.
From Verif Require Import Base.
From Verif Require Import Moplot_Model.
From Coq Require Import Reals.
Open Scope R_scope.

(** * MetricVsH.__call__, for objects with their own H, mo_plotters.py:66-86 *)
(** an object: H, metric value and if that is masked *)
Record object := { o_h : R; o_val : R; o_masked : bool }.
Definition min_h (x : R) (t : list R) : R := fold_left Rmin t x.
Definition max_h (x : R) (t : list R) : R := fold_left Rmax t x.
(** lines 66-71: where the bins begin and their whole range, which is at least [min_hrange] (line 41) *)
Definition h_range (x : R) (t : list R) : R * R :=
  if Rlt_dec (max_h x t - min_h x t) 1 then (min_h x t - 1 / 2, 1) else (min_h x t, max_h x t - min_h x t).
(** lines 72-76: [np.arange(lo, lo + range + step / 2, step)] has [nbins + 1] edges, the number of bins being positive *)
Definition h_edges (nbins : nat) (r : R * R) : list R := map (fun i => fst r + INR i * (snd r / INR nbins)) (seq 0 (S nbins)).
(** [filled()], line 85 *)
Definition fill (bad : R) (o : object) : R := if o_masked o then bad else o_val o.
(** lines 77-85: the value of a bin; the fill value is the slicer's bad value *)
Definition h_bin (reduce : list R -> R) (bad : R) (edges : list R) (objs : list object) (i : nat) : R :=
  match filter (fun o => digitize edges (o_h o) =? S i)%nat objs with
  | [] => bad
  | l => reduce (map (fill bad) l)
  end.
(** the line, lines 66-92 *)
Definition h_line (reduce : list R -> R) (bad : R) (nbins : nat) (objs : list object) : list (R * R) :=
  match objs with
  | [] => []
  | o :: t => let edges := h_edges nbins (h_range (o_h o) (map o_h t)) in
              combine edges (map (h_bin reduce bad edges objs) (seq 0 (length edges)))
  end.
(** lines 44-48 and 94: the options of the user afterwards, and the colour; options are names here *)
Definition h_options (user : list string) : list string * result unit :=
  let user' := if existsb (String.eqb "linestyle") user then user else user ++ ["linestyle"%string] in
  (user', if existsb (String.eqb "color") user' then Ok tt else Err KeyError).

(** * SummaryHistogram.__call__, special_plotters.py:161-246 *)
(** line 203: the values of a bin at all slice points *)
Fixpoint column (rows : list (list R)) (i : nat) : result (list R) := match rows with [] => Ok [] | r :: t => do x <- arr_get r i; do c <- column t i; Ok (x :: c) end.
(** line 206 *)
Fixpoint cumsum (acc : R) (l : list R) : list R := match l with [] => [] | x :: t => (acc + x) :: cumsum (acc + x) t end.
(** lines 185-224: [rows] are the values that are not masked, which numpy needs to be of the same size; [reduce] is the metric.  The
    heights and the line *)
Definition summary (reduce : list R -> R) (cumulative steps : bool) (bins : option (list R)) (rows : list (list R)) : result (list R * list (R * R)) :=
  match rows with
  | [] => Err ValueError
  | r :: _ =>
      if negb (forallb (fun q => length q =? length r)%nat rows) then Err ValueError
      else
        do h <- each (fun i => do c <- column rows i; Ok (reduce c)) (seq 0 (length r));
        let hist := if cumulative then cumsum 0 h else h in
        match bins with
        | None => Err TypeError
        | Some b =>
            if negb (length b =? S (length hist))%nat then Err ValueError
            else Ok (hist, if steps then flat_map (fun p => [(fst (fst p), snd p); (snd (fst p), snd p)]) (combine (combine (removelast b) (tl b)) hist)
                           else combine (removelast b) hist)
        end
  end.
