(** C15-C17, C59, C60: time interval slicers. *)
From Verif Require Import Base Slicer_Model Slicer_Spec Slicer_Proofs TimeSlicer_Model TimeSlicer_Spec TimeSlicer_Proofs.
From Coq Require Import Permutation Sorted Lia.
Open Scope Z_scope.

(** C15 (false of the code): a visit inside the announced interval of slice 0 that no slice delivers. *)
Theorem C15_interval_content_refuted :
  exists day intv mjds v x t, 0 < day /\ 0 < intv /\ nth_error mjds v = Some x /\
    nth_error (ti_mjd (ti_setup day intv [] mjds)) 0 = Some t /\ t <= x < t + intv /\
    (forall i, (i < ti_nslice (ti_setup day intv [] mjds))%nat ->
       ~ delivered (ti_idxs (ti_setup day intv [] mjds) i) v) /\
    ti_nslice (ti_setup day intv [] mjds) = 1%nat.
Proof. exact ti_refuted. Qed.
Print Assumptions C15_interval_content_refuted.

(** C15, what the slices really hold: the visits of the interval that ENDS at the announced start time. *)
Theorem C15_slice_holds_previous_interval :
  forall day intv mjds i t v, 0 < day -> 0 < intv ->
    nth_error (ti_mjd (ti_setup day intv [] mjds)) i = Some t ->
    (delivered (ti_idxs (ti_setup day intv [] mjds) i) v <->
     exists x, nth_error mjds v = Some x /\ t - intv <= x < t).
Proof. exact ti_true_law. Qed.
Print Assumptions C15_slice_holds_previous_interval.

(** C15: visits at or after the last announced start time are in no slice. *)
Theorem C15_last_interval_lost :
  forall day intv mjds v x, 0 < day -> 0 < intv -> nth_error mjds v = Some x ->
    (forall t, In t (ti_mjd (ti_setup day intv [] mjds)) -> t <= x) ->
    forall i, (i < ti_nslice (ti_setup day intv [] mjds))%nat ->
      ~ delivered (ti_idxs (ti_setup day intv [] mjds) i) v.
Proof. exact ti_last_lost. Qed.
Print Assumptions C15_last_interval_lost.
Example C15_case : ti_mjd (ti_setup 10 5 [] [21; 27; 33]) = [20; 25; 30; 35] /\
  ti_idxs (ti_setup 10 5 [] [21; 27; 33]) 1 = Visits [0]%nat /\
  ti_idxs (ti_setup 10 5 [] [21; 27; 33]) 2 = Visits [1]%nat /\
  (forall t, In t (ti_mjd (ti_setup 10 5 [] [21; 27; 38])) -> t <= 38).
Proof.
  split; [reflexivity|]. split; [reflexivity|]. split; [reflexivity|]. intros t Ht. vm_compute in Ht. lia.
Qed.

(** C16 (false of the code): the announced start time is that of another visit when the data are not in
    time order. *)
Theorem C16_visit_interval_label_refuted :
  exists mjds durs perm islice sp own, is_argsort mjds perm /\ length durs = length mjds /\
    vi_slice mjds durs perm islice = Ok sp /\ nth_error mjds (vi_visit sp) = Some own /\ vi_mjd sp <> own.
Proof. exact vi_refuted. Qed.
Print Assumptions C16_visit_interval_label_refuted.

(** C16: every visit is in exactly one slice. *)
Theorem C16_each_visit_once :
  forall mjds durs perm v, is_argsort mjds perm -> length durs = length mjds -> (v < length mjds)%nat ->
    exists islice sp, (islice < length mjds)%nat /\ vi_slice mjds durs perm islice = Ok sp /\ vi_visit sp = v /\
      forall j sp', vi_slice mjds durs perm j = Ok sp' -> vi_visit sp' = v -> j = islice.
Proof. exact vi_each_once. Qed.
Print Assumptions C16_each_visit_once.

(** C16: for data in strict time order the announced time and duration are those of the visit. *)
Theorem C16_visit_interval_label_partial :
  forall mjds durs perm islice sp, is_argsort mjds perm -> length durs = length mjds ->
    (forall i j a b, (i < j)%nat -> nth_error mjds i = Some a -> nth_error mjds j = Some b -> a < b) ->
    vi_slice mjds durs perm islice = Ok sp ->
    vi_visit sp = islice /\ nth_error mjds (vi_visit sp) = Some (vi_mjd sp) /\
    nth_error durs (vi_visit sp) = Some (vi_duration sp).
Proof. exact vi_sorted_ok. Qed.
Print Assumptions C16_visit_interval_label_partial.

(** C16: after the calculation the value stored in position v is the metric of visit v, in any data order
    (so stored values agree with the slicer's stored start times). *)
Theorem C16_results_aligned :
  forall (V : Type) (metric : nat -> V) mjds durs perm data,
    is_argsort mjds perm -> length durs = length mjds -> length data = length mjds ->
    vi_run metric mjds durs perm (seq 0 (length mjds)) data = Ok (map metric (seq 0 (length mjds))).
Proof. exact @vi_results_aligned. Qed.
Print Assumptions C16_results_aligned.
Example C16_case : is_argsort [5; 3] [1; 0]%nat /\
  vi_run (fun v => v) [5; 3] [1; 1] [1; 0]%nat (seq 0 2) [9; 9]%nat = Ok [0; 1]%nat.
Proof.
  split; [|reflexivity]. apply is_argsort_intro; [simpl; constructor|]. repeat constructor; simpl; lia.
Qed.

(** C17.  [perm]: the visits in time order (ties in any order). *)
Theorem C17_blocks :
  forall tol vs perm, is_argsort (map v_mjd vs) perm ->
    (* every visit is in exactly one block *)
    (forall v, (v < length vs)%nat ->
       exists i, (i < block_nslice tol vs perm)%nat /\ In v (block_slice tol vs perm i) /\
         forall j, In v (block_slice tol vs perm j) -> j = i) /\
    (forall i, NoDup (block_slice tol vs perm i) /\ forall v, In v (block_slice tol vs perm i) -> (v < length vs)%nat) /\
    (* one note per block *)
    (forall i v w x y, In v (block_slice tol vs perm i) -> In w (block_slice tol vs perm i) ->
       nth_error vs v = Some x -> nth_error vs w = Some y -> v_note x = v_note y) /\
    (* two consecutive visits share a block exactly when notes agree and the gap is below the tolerance *)
    (forall k v w x y, nth_error perm k = Some v -> nth_error perm (S k) = Some w ->
       nth_error vs v = Some x -> nth_error vs w = Some y ->
       ((exists i, In v (block_slice tol vs perm i) /\ In w (block_slice tol vs perm i)) <->
        v_note x = v_note y /\ v_mjd y - (v_mjd x + v_dur x) < tol)) /\
    (* a block is a run of consecutive visits *)
    (forall i j k l v w u, (j <= l <= k)%nat -> nth_error perm j = Some v -> nth_error perm k = Some w ->
       nth_error perm l = Some u -> In v (block_slice tol vs perm i) -> In w (block_slice tol vs perm i) ->
       In u (block_slice tol vs perm i)).
Proof.
  intros tol vs perm H.
  exact (conj (block_each_visit tol vs perm H)
        (conj (fun i => conj (block_slice_NoDup tol vs perm H i) (block_only_visits tol vs perm H i))
        (conj (block_same_note tol vs perm H)
        (conj (block_consecutive tol vs perm H) (block_run tol vs perm H))))).
Qed.
Print Assumptions C17_blocks.

(** C17: the announced start and duration cover every visit of the block. *)
Theorem C17_block_announced_interval :
  forall tol vs perm i v x, is_argsort (map v_mjd vs) perm ->
    In v (block_slice tol vs perm i) -> nth_error vs v = Some x ->
    block_start tol vs perm i <= v_mjd x /\
    v_mjd x + v_dur x <= block_start tol vs perm i + block_duration tol vs perm i.
Proof. intros tol vs perm i v x _. exact (block_announced tol vs perm i v x). Qed.
Print Assumptions C17_block_announced_interval.
Example C17_case :
  let mk m n := {| v_mjd := m; v_dur := 2; v_note := n |} in
  let vs := [mk 10 "a"; mk 0 "a"; mk 3 "a"; mk 13 "b"]%string in
  is_argsort (map v_mjd vs) [1; 2; 0; 3]%nat /\
  map (block_slice 4 vs [1; 2; 0; 3]%nat) (seq 0 (block_nslice 4 vs [1; 2; 0; 3]%nat)) = [[1; 2]; [0]; [3]]%nat.
Proof.
  split; [|reflexivity]. apply is_argsort_intro.
  - simpl. apply (Permutation_trans (l' := [1; 0; 2; 3]%nat)); repeat constructor.
  - repeat constructor; simpl; lia.
Qed.

(** C59 (false of the code): a slicer set up a second time only delivers visits of the new data. *)
Theorem C59_resetup_refuted :
  exists day intv mjds1 mjds2 i v, 0 < day /\ 0 < intv /\
    let s1 := ti_setup day intv [] mjds1 in
    let s2 := ti_setup day intv (ti_sim_idxs s1) mjds2 in
    (i < ti_nslice s2)%nat /\ delivered (ti_idxs s2 i) v /\ nth_error mjds2 v = None.
Proof. exact ti_stale_refuted. Qed.
Print Assumptions C59_resetup_refuted.

(** C60 (false of the code): a slice without visits is recognised as empty (and so masked): the length tested
    is never 0, whatever the data and slice, though there are slices without visits. *)
Theorem C60_empty_interval_masked_refuted :
  (forall s i, len_slicedata (ti_idxs s i) <> 0%nat) /\
  exists day intv mjds i, 0 < day /\ 0 < intv /\
    (i < ti_nslice (ti_setup day intv [] mjds))%nat /\
    (forall v, ~ delivered (ti_idxs (ti_setup day intv [] mjds) i) v) /\
    len_slicedata (ti_idxs (ti_setup day intv [] mjds) i) <> 0%nat.
Proof. exact (conj ti_len_nonzero ti_empty_not_seen). Qed.
Print Assumptions C60_empty_interval_masked_refuted.
