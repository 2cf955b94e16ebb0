(** C09-C14, C18, C58: binning slicers and slicer iteration. *)
From Verif Require Import Base Slicer_Model Slicer_Spec Slicer_Proofs.
Open Scope Z_scope.

(** C09.  Slice i holds exactly the visits with edge_i <= value < edge_{i+1}, each once. *)
Theorem C09_oned_slice_content :
  forall col perm bins, is_argsort col perm ->
    length (oned_slices col perm bins) = (length bins - 1)%nat /\
    forall i sl, nth_error (oned_slices col perm bins) i = Some sl ->
      NoDup sl /\ forall v, In v sl <-> exists x, nth_error col v = Some x /\ in_bin bins i x.
Proof.
  intros col perm bins Ha.
  exact (conj (oned_length col perm bins) (fun i sl H => oned_membership col perm bins i sl Ha H)).
Qed.
Print Assumptions C09_oned_slice_content.

(** C09.  With non-decreasing edges: a visit is in some slice exactly when it lies in [first, last), and
    never in two. *)
Theorem C09_oned_partition :
  forall col perm bins first last n v x,
    is_argsort col perm -> nondecreasing bins ->
    nth_error bins 0 = Some first -> length bins = S (S n) -> nth_error bins (S n) = Some last ->
    nth_error col v = Some x ->
    (first <= x < last <->
       exists i, (i <= n)%nat /\ exists sl, nth_error (oned_slices col perm bins) i = Some sl /\ In v sl) /\
    (forall i j si sj, nth_error (oned_slices col perm bins) i = Some si ->
       nth_error (oned_slices col perm bins) j = Some sj -> In v si -> In v sj -> i = j).
Proof. exact oned_partition. Qed.
Print Assumptions C09_oned_partition.
Example C09_case : is_argsort [1; 3; 6] [0; 1; 2]%nat /\ nondecreasing [0; 3; 6] /\
  oned_slices [1; 3; 6] [0; 1; 2]%nat [0; 3; 6; 9] = [[0]; [1]; [2]]%nat.
Proof.
  split; [apply argsort_sorted_col|]. split; [|reflexivity].
  apply sorted_nondecreasing. repeat constructor; discriminate.
Qed.

(** C10 (documented: "the last bin is [a, b]"; false of the code). *)
Theorem C10_last_bin_closed_refuted :
  exists col perm bins v x, is_argsort col perm /\ nondecreasing bins /\
    (2 <= length bins)%nat /\ nth_error col v = Some x /\ nth_error bins (length bins - 1) = Some x /\
    forall i sl, nth_error (oned_slices col perm bins) i = Some sl -> ~ In v sl.
Proof. exact oned_last_edge_refuted. Qed.
Print Assumptions C10_last_bin_closed_refuted.

(** C10: a visit at the last edge is never delivered. *)
Theorem C10_last_edge_always_lost :
  forall col perm bins last n v,
    is_argsort col perm -> nondecreasing bins -> length bins = S (S n) ->
    nth_error bins (S n) = Some last -> nth_error col v = Some last ->
    forall i sl, nth_error (oned_slices col perm bins) i = Some sl -> ~ In v sl.
Proof. exact oned_last_edge_lost. Qed.
Print Assumptions C10_last_edge_always_lost.

(** C10: when the bins are chosen from the data, the visits with the largest value are in no slice. *)
Theorem C10_auto_bins_lose_maximum :
  forall col perm size nbins v x,
    is_argsort col perm -> zmin col < zmax col ->
    0 < size -> size * Z.of_nat (S nbins) = zmax col - zmin col ->
    nth_error col v = Some x -> (forall y, In y col -> y <= x) ->
    forall i sl, nth_error (oned_slices col perm (oned_auto_bins col size)) i = Some sl -> ~ In v sl.
Proof. exact oned_auto_max_lost. Qed.
Print Assumptions C10_auto_bins_lose_maximum.
Example C10_case : zmin [1; 3; 6] < zmax [1; 3; 6] /\ 1 * Z.of_nat 5 = zmax [1; 3; 6] - zmin [1; 3; 6] /\
  oned_auto_bins [1; 3; 6] 1 = [1; 2; 3; 4; 5; 6] /\
  concat (oned_slices [1; 3; 6] [0; 1; 2]%nat (oned_auto_bins [1; 3; 6] 1)) = [0; 1]%nat.
Proof. repeat split; reflexivity. Qed.

(** C11.  Cell number row_major(ks) holds exactly the visits lying in bin ks_d of every dimension d. *)
Theorem C11_nd_cell_content :
  forall ds ks, ds <> [] -> Forall dim_ok ds -> Forall2 lt ks (sides ds) ->
    exists sl, nd_slice ds (row_major (sides ds) ks) = Ok sl /\ NoDup sl /\
      forall v, In v sl <-> Forall2 (cell_member v) ds ks.
Proof. exact nd_cell. Qed.
Print Assumptions C11_nd_cell_content.

(** C11.  A visit is in some cell exactly when it is at or above the first edge in every dimension, and
    then in only one. *)
Theorem C11_nd_each_visit_once :
  forall ds v, ds <> [] -> Forall dim_ok ds ->
    (Forall (above_first v) ds <->
       exists i sl, (i < nd_nslice ds)%nat /\ nd_slice ds i = Ok sl /\ In v sl) /\
    (forall i j si sj, (i < nd_nslice ds)%nat -> (j < nd_nslice ds)%nat ->
       nd_slice ds i = Ok si -> nd_slice ds j = Ok sj -> In v si -> In v sj -> i = j).
Proof. exact nd_each_visit. Qed.
Print Assumptions C11_nd_each_visit_once.
Example C11_case : Forall dim_ok [mkdim [0; 5]; mkdim [4; 0; 2]] /\
  nd_nslice [mkdim [0; 5]; mkdim [4; 0; 2]] = 2%nat /\
  nd_slice [mkdim [0; 5]; mkdim [4; 0; 2]] 1 = Ok [1; 2]%nat.
Proof.
  split; [|split; reflexivity]. repeat constructor; simpl; auto; apply argsort_sorted_col.
Qed.

(** C12 (documented: "All bins are half-open"; false of the code): a visit above all edges is in a cell. *)
Theorem C12_nd_half_open_refuted :
  exists ds i sl v x, Forall dim_ok ds /\ ds <> [] /\
    nd_slice ds i = Ok sl /\ In v sl /\
    (exists d, In d ds /\ nth_error (d_col d) v = Some x /\ forall e, In e (d_bins d) -> e < x).
Proof. exact nd_last_edge_refuted. Qed.
Print Assumptions C12_nd_half_open_refuted.

(** C13 (false of the code): two slicers that compare equal, over the same columns, with different
    numbers of cells and different visits in the same cell. *)
Theorem C13_nd_equality_refuted :
  exists s o i si so, Forall dim_ok s /\ Forall dim_ok o /\ map d_col s = map d_col o /\
    nd_eq s o = Ok true /\ nd_nslice s <> nd_nslice o /\
    nd_slice s i = Ok si /\ nd_slice o i = Ok so /\ ~ (forall v, In v si <-> In v so).
Proof. exact nd_eq_refuted. Qed.
Print Assumptions C13_nd_equality_refuted.

(** C13: all that equality guarantees is the same number of dimensions and the same left edges of the
    first n_d cells.  Missing: everything else about the bins. *)
Theorem C13_nd_equality_partial :
  forall s o, nd_eq s o = Ok true ->
    length s = length o /\ forall i, (i < length s)%nat ->
      exists x, nth_error (nd_bins s) i = Some x /\ nth_error (nd_bins o) i = Some x.
Proof. exact nd_eq_implies. Qed.
Print Assumptions C13_nd_equality_partial.
Example C13_case : nd_eq [mkdim [0; 5]; mkdim [0; 2; 4]] [mkdim [0; 2; 9]; mkdim [0; 2; 4]] = Ok true.
Proof. reflexivity. Qed.

(** C13: comparing two slicers with fewer cells than dimensions raises IndexError. *)
Theorem C13_nd_equality_total_refuted :
  exists s o, Forall dim_ok s /\ Forall dim_ok o /\ nd_eq s o = Err IndexError.
Proof. exact nd_eq_raises. Qed.
Print Assumptions C13_nd_equality_total_refuted.

(** C14, cumulative mode. *)
Theorem C14_movie_cumulative :
  forall col perm bins i, is_argsort col perm -> (i < movie_nslice bins)%nat ->
    (forall v, NoDup (movie_slice true col perm bins i) /\
      (In v (movie_slice true col perm bins i) <->
       exists x, nth_error col v = Some x /\
         ((S (S i) < length bins)%nat -> exists b, nth_error bins (S i) = Some b /\ x < b))) /\
    (nondecreasing bins -> forall j v, (i <= j)%nat -> (j < movie_nslice bins)%nat ->
       In v (movie_slice true col perm bins i) -> In v (movie_slice true col perm bins j)).
Proof.
  intros col perm bins i Ha Hi.
  exact (conj (fun v => movie_cumulative col perm bins i v Ha Hi)
              (fun Hn j v Hij Hj => movie_grows col perm bins i j v Ha Hn Hij Hj)).
Qed.
Print Assumptions C14_movie_cumulative.

(** C14, non-cumulative mode. *)
Theorem C14_movie_frames_partition :
  forall col perm bins v x first, is_argsort col perm -> nondecreasing bins ->
    (2 <= length bins)%nat -> nth_error bins 0 = Some first -> nth_error col v = Some x ->
    (first <= x <-> exists i, (i < movie_nslice bins)%nat /\ In v (movie_slice false col perm bins i)) /\
    (forall i j, (i < movie_nslice bins)%nat -> (j < movie_nslice bins)%nat ->
       In v (movie_slice false col perm bins i) -> In v (movie_slice false col perm bins j) -> i = j).
Proof. exact movie_plain_partition. Qed.
Print Assumptions C14_movie_frames_partition.

(** C14, non-cumulative mode: content of a frame. *)
Theorem C14_movie_frame_content :
  forall col perm bins i v, is_argsort col perm -> (i < movie_nslice bins)%nat ->
    NoDup (movie_slice false col perm bins i) /\
    (In v (movie_slice false col perm bins i) <->
     exists x, nth_error col v = Some x /\ in_open_bin bins i x).
Proof. exact movie_plain. Qed.
Print Assumptions C14_movie_frame_content.
Example C14_case : map (movie_slice false [1; 3; 6] [0; 1; 2]%nat [2; 4; 5]) [0; 1]%nat = [[1]; [2]]%nat /\
  map (movie_slice true [1; 3; 6] [0; 1; 2]%nat [2; 4; 5]) [0; 1]%nat = [[0; 1]; [0; 1; 2]]%nat.
Proof. split; reflexivity. Qed.

(** C18.  Whatever iter/next calls were made before, a new loop yields slices 0 .. nslice-1 in order, once
    each, and then stops. *)
Theorem C18_iteration_complete :
  forall nslice (history : list iter_op) st0,
    for_loop nslice (S nslice) (do_iter (fold_left (iter_step nslice) history st0)) =
    (seq 0 nslice, true, {| islice := nslice |}).
Proof. intros nslice history st0. exact (full_loop nslice (fold_left (iter_step nslice) history st0)). Qed.
Print Assumptions C18_iteration_complete.
Example C18_case : fst (for_loop 3 4 (do_iter (fold_left (iter_step 3) [OpIter; OpNext; OpNext] {| islice := 7 |})))
  = ([0; 1; 2], true)%nat.
Proof. reflexivity. Qed.

(** C58 (false of the code): two loops over the same slicer, one inside the other, see all pairs.  With one
    shared counter the outer loop ends after its first slice, for every slicer with more than one slice. *)
Theorem C58_nested_loops_refuted :
  forall nslice, (1 < nslice)%nat ->
    nested_loop nslice (S nslice) (do_iter {| islice := 0 |}) =
      (map (fun b => (0, b)%nat) (seq 0 nslice), true) /\
    ~ In (1, 0)%nat (map (fun b => (0, b)%nat) (seq 0 nslice)).
Proof.
  intros nslice H. split.
  - apply nested_loop_lost. exact (Nat.lt_trans 0 1 nslice Nat.lt_0_1 H).
  - intros Hin. apply in_map_iff in Hin as (b & E & _). discriminate.
Qed.
Print Assumptions C58_nested_loops_refuted.
