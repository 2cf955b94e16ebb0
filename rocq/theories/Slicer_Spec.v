(** Vocabulary for the statements about binning slicers. *)
From Verif Require Import Base Slicer_Model.
From Coq Require Import Permutation Sorted.
Open Scope Z_scope.

(** [perm] is a possible result of np.argsort(col): a rearrangement of all indices along which the
    values do not decrease (ties in any order). *)
Definition is_argsort (col : list Z) (perm : list nat) : Prop :=
  Permutation perm (seq 0 (length col)) /\
  forall i j a b, (i < j)%nat -> nth_error perm i = Some a -> nth_error perm j = Some b ->
                  nth a col 0 <= nth b col 0.

(** edges that do not decrease *)
Definition nondecreasing (l : list Z) : Prop :=
  forall i j a b, (i < j)%nat -> nth_error l i = Some a -> nth_error l j = Some b -> a <= b.

(** value [x] lies in bin [i]: edge_i <= x < edge_{i+1} *)
Definition in_bin (edges : list Z) (i : nat) (x : Z) : Prop :=
  exists a b, nth_error edges i = Some a /\ nth_error edges (S i) = Some b /\ a <= x < b.

(** value [x] lies in bin [i], the last bin having no upper limit *)
Definition in_open_bin (edges : list Z) (i : nat) (x : Z) : Prop :=
  (S i < length edges)%nat /\
  exists a, nth_error edges i = Some a /\ a <= x /\
            ((S (S i) < length edges)%nat -> exists b, nth_error edges (S i) = Some b /\ x < b).

(** row-major number of the cell with indices [ks] in a box with sides [ns] *)
Fixpoint row_major (ns ks : list nat) : nat :=
  match ns, ks with
  | n :: ns', k :: ks' => (k * fold_right Nat.mul 1 ns' + row_major ns' ks')%nat
  | _, _ => 0%nat
  end.

(** a usable dimension: the order is an argsort of the column and there are at least two edges *)
Definition dim_ok (d : dim) := is_argsort (d_col d) (d_perm d) /\ (2 <= length (d_bins d))%nat.

(** number of bins in each dimension *)
Definition sides (ds : list dim) : list nat := map (fun d => (length (d_bins d) - 1)%nat) ds.

(** visit [v] lies in bin [k] of dimension [d] (edges in increasing order) *)
Definition cell_member (v : nat) (d : dim) (k : nat) : Prop :=
  exists x, nth_error (d_col d) v = Some x /\ in_open_bin (zsort (d_bins d)) k x.

(** visit [v] lies at or above the smallest edge of dimension [d] *)
Definition above_first (v : nat) (d : dim) : Prop :=
  exists x first, nth_error (d_col d) v = Some x /\ In first (d_bins d) /\ (forall e, In e (d_bins d) -> first <= e) /\ first <= x.
