(** Model of the binning slicers and of slicer iteration:
    rubin_sim/maf/slicers/{one_d_slicer,nd_slicer,movie_slicer,base_slicer}.py.
    Column values and bin edges are [Z] ticks; NaN is not modelled. *)
From Verif Require Import Base.
Open Scope Z_scope.

(** * numpy primitives *)

(** [np.searchsorted(s, v, "left")] on a sorted array: the first position whose element is >= v. *)
Fixpoint ssl (s : list Z) (v : Z) : nat :=
  match s with
  | [] => 0
  | h :: t => if (v <=? h)%Z then 0 else S (ssl t v)
  end%nat.

(** [l[a:b]] for non-negative bounds. *)
Definition pyslice {A} (l : list A) (a b : nat) : list A := firstn (b - a) (skipn a l).

(** [col[perm]] (fancy indexing with in-range indices). *)
Definition take (col : list Z) (perm : list nat) : list Z := map (fun i => nth i col 0) perm.

(** [np.sort] of the bin edges (insertion sort). *)
Fixpoint zinsert (x : Z) (l : list Z) : list Z :=
  match l with [] => [x] | h :: t => if x <=? h then x :: l else h :: zinsert x t end.
Fixpoint zsort (l : list Z) : list Z :=
  match l with [] => [] | h :: t => zinsert h (zsort t) end.

(** [np.arange(lo, hi + step / 2.0, step, "float")] for step > 0; ceil((hi - lo)/step + 1/2) elements.
    Simplification: exact arithmetic (no float rounding). *)
Definition arange_half (lo hi step : Z) : list Z :=
  let n := (2 * (hi - lo) + step + (2 * step - 1)) / (2 * step) in
  map (fun k => lo + Z.of_nat k * step) (seq 0 (Z.to_nat n)).

(** [np.nanmin], [np.nanmax] of a non-empty column. *)
Definition zmin (l : list Z) : Z := fold_right Z.min (hd 0 l) l.
Definition zmax (l : list Z) : Z := fold_right Z.max (hd 0 l) l.

(** * OneDSlicer *)

(** one_d_slicer.py:152-160 with given bins.  [perm] is the result of [np.argsort] (line 152), an
    arbitrary permutation that sorts the column. *)
Definition oned_slices (col : list Z) (perm : list nat) (bins : list Z) : list (list nat) :=
  let data_sorted := take col perm in
  let left := map (ssl data_sorted) (removelast bins) in   (* self.bins[0:-1] *)
  let right := map (ssl data_sorted) (tl bins) in          (* self.bins[1:] *)
  map (fun lr => pyslice perm (fst lr) (snd lr)) (combine left right).

(** one_d_slicer.py:116-138: bins from the data when nothing was specified.  [nbins] is the rounded
    result of optimal_bins, [size] the bin size of line 136: ticks are chosen such that the
    division is exact, i.e. [size * nbins = bin_max - bin_min] (a hypothesis of the theorems). *)
Definition oned_auto_max (col : list Z) : Z :=
  if zmin col =? zmax col then zmax col + 1 else zmax col.
Definition oned_auto_bins (col : list Z) (size : Z) : list Z :=
  arange_half (zmin col) (oned_auto_max col) size.

(** * NDSlicer *)

(** One dimension: the data column, the argsort of it (nd_slicer.py:97), and the bin edges given. *)
Record dim := { d_col : list Z; d_perm : list nat; d_bins : list Z }.

(** nd_slicer.py:68 *)
Definition d_edges (d : dim) : list Z := zsort (d_bins d).

(** nd_slicer.py:98-110 *)
Definition d_lefts (d : dim) : list nat :=
  map (ssl (take (d_col d) (d_perm d))) (removelast (d_edges d)) ++ [length (d_perm d)].

(** [itertools.product]: the last component varies fastest. *)
Fixpoint product {A} (ls : list (list A)) : list (list A) :=
  match ls with
  | [] => [[]]
  | l :: ls' => flat_map (fun x => map (cons x) (product ls')) l
  end.

(** nd_slicer.py:77-82 and 84-90: left edges and bin indices of the cells, in slice order. *)
Definition nd_bins (ds : list dim) : list (list Z) := product (map (fun d => removelast (d_edges d)) ds).
Definition nd_bin_idxs (ds : list dim) : list (list nat) :=
  product (map (fun d => seq 0 (length (removelast (d_edges d)))) ds).

(** nd_slicer.py:69 *)
Definition nd_nslice (ds : list dim) : nat :=
  fold_right Nat.mul 1%nat (map (fun d => (length (d_edges d) - 1)%nat) ds).

Definition nmemb (x : nat) (l : list nat) : bool := existsb (Nat.eqb x) l.

(** nd_slicer.py:124: the visits of bin [i] in one dimension *)
Definition d_idxs (d : dim) (i : nat) : list nat :=
  pyslice (d_perm d) (nth i (d_lefts d) 0%nat) (nth (S i) (d_lefts d) 0%nat).

(** nd_slicer.py:125: [list(set.intersection(...))]; a set has no duplicates and its order is
    unspecified, so the theorems about this list only speak of membership and duplicates. *)
Definition set_intersection (ls : list (list nat)) : result (list nat) :=
  match ls with
  | [] => Err TypeError
  | l :: ls' => Ok (filter (fun x => forallb (nmemb x) ls') (nodup Nat.eq_dec l))
  end.

(** nd_slicer.py:117-133 *)
Definition nd_slice (ds : list dim) (islice : nat) : result (list nat) :=
  match nth_error (nd_bin_idxs ds) islice with
  | None => Err IndexError
  | Some ks => set_intersection (map (fun dk => d_idxs (fst dk) (snd dk)) (combine ds ks))
  end.

(** nd_slicer.py:137-147 [__eq__] of two slicers of the same class, both set up. *)
Fixpoint nd_eq_loop (b1 b2 : list (list Z)) (is : list nat) : result bool :=
  match is with
  | [] => Ok true
  | i :: t => do x <- arr_get b1 i;
              do y <- arr_get b2 i;
              if list_eq_dec Z.eq_dec x y then nd_eq_loop b1 b2 t else Ok false
  end.
Definition nd_eq (self other : list dim) : result bool :=
  if negb (Nat.eqb (length other) (length self)) then Ok false
  else nd_eq_loop (nd_bins other) (nd_bins self) (seq 0 (length self)).

(** * MovieSlicer *)

(** movie_slicer.py:152-166: [self.left] *)
Definition movie_left (col : list Z) (perm : list nat) (bins : list Z) : list nat :=
  map (ssl (take col perm)) (removelast bins) ++ [length perm].

(** movie_slicer.py:170-189 (cumulative) and 194-209; [bins] already sorted (line 127) *)
Definition movie_slice (cumulative : bool) (col : list Z) (perm : list nat) (bins : list Z) (islice : nat) : list nat :=
  let left := movie_left col perm bins in
  if cumulative then pyslice perm 0 (nth (S islice) left 0%nat)
  else pyslice perm (nth islice left 0%nat) (nth (S islice) left 0%nat).

(** movie_slicer.py:143 *)
Definition movie_nslice (bins : list Z) : nat := (length bins - 1)%nat.

(** * Iteration (base_slicer.py:119-139) *)

Record iter_state := { islice : nat }.

(** [iter(slicer)] / [next(slicer)]: the Python calls a for loop makes *)
Inductive iter_op := OpIter | OpNext.

(** base_slicer.py:119-122 [__iter__] *)
Definition do_iter (st : iter_state) : iter_state := {| islice := 0 |}.

(** base_slicer.py:124-136 [__next__]: [None] is StopIteration; the value is the slice number handed to
    [_slice_sim_data]. *)
Definition do_next (nslice : nat) (st : iter_state) : option nat * iter_state :=
  if Nat.leb nslice (islice st) then (None, st)
  else (Some (islice st), {| islice := S (islice st) |}).

Definition iter_step (nslice : nat) (st : iter_state) (op : iter_op) : iter_state :=
  match op with OpIter => do_iter st | OpNext => snd (do_next nslice st) end.

(** a for loop that runs until StopIteration or [fuel] bodies (a [break] after [fuel] items);
    returns the slices seen, whether StopIteration was reached, and the state *)
Fixpoint for_loop (nslice fuel : nat) (st : iter_state) : list nat * bool * iter_state :=
  match fuel with
  | O => ([], false, st)
  | S f => match do_next nslice st with
           | (None, st') => ([], true, st')
           | (Some i, st') => let '(l, b, st'') := for_loop nslice f st' in (i :: l, b, st'')
           end
  end.

(** [for a in slicer: for b in slicer: body(a, b)] with both loops on the same object: [__iter__]
    returns [self], so the inner loop resets and exhausts the shared counter. *)
Fixpoint nested_loop (nslice fuel : nat) (st : iter_state) : list (nat * nat) * bool :=
  match fuel with
  | O => ([], false)
  | S f => match do_next nslice st with
           | (None, _) => ([], true)
           | (Some a, st') =>
               let '(inner, _, st2) := for_loop nslice (S nslice) (do_iter st') in
               let '(rest, fin) := nested_loop nslice f st2 in
               (map (fun b => (a, b)) inner ++ rest, fin)
           end
  end.
