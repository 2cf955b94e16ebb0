(** Property theorems about vector metrics: C71, C72, C76. *)
From Verif Require Import Base Slicer_Model GapMetrics_Model GapMetrics_Spec StatMetrics_Model.
From Verif Require Import Vector_Model Vector_Spec Vector_Proofs.
From Coq Require Import QArith Sorted Lia.
Open Scope Z_scope.

(** C71, full statement (false of the code): the value of a bin is the number of visits at or before its
    right edge. *)
Theorem C71_accumulate_count_refuted : exists bins nights r k e,
  StronglySorted Z.le nights /\ accumulate_count_run bins nights = Ok r /\ nth_error bins (S k) = Some e /\
  countb (fun n => n <=? e) nights = 1%nat /\ nth_error r k = Some (Some 2%nat).
Proof.
  exists [0; 1; 10], [0; 5; 7]. eexists. exists 0%nat, 1. split; [repeat constructor; lia|].
  split; [reflexivity|]. repeat split.
Qed.
Print Assumptions C71_accumulate_count_refuted.
(** the exact law: one visit too many is counted until all visits are counted *)
Theorem C71_accumulate_count_partial : forall bins nights r, (2 <= length nights)%nat -> StronglySorted Z.le nights ->
  accumulate_count_run bins nights = Ok r ->
  length r = (length bins - 1)%nat /\
  forall k e, nth_error bins (S k) = Some e -> nth_error r k =
    Some (match countb (fun n => n <=? e) nights with
          | O => None
          | c => Some (Nat.min (S c) (length nights))
          end).
Proof. exact count_law. Qed.
Print Assumptions C71_accumulate_count_partial.
Example C71_case : accumulate_count_run [0; 1; 6; 10] [0; 5; 7] = Ok [Some 2%nat; Some 3%nat; Some 3%nat].
Proof. reflexivity. Qed.
(** a slice with a single visit is masked in all bins *)
Theorem C71_single_visit_refuted : forall bins n r, accumulate_count_run bins [n] = Ok r -> forall v, In v r -> v = None.
Proof. intros bins n r H. exact (accumulate_single _ _ _ _ _ H). Qed.
Print Assumptions C71_single_visit_refuted.

(** C72, full statement (false of the code): the accumulated value of a bin only depends on the visits at or
    before its right edge. *)
Theorem C72_accumulate_refuted : exists (op : Z -> Z -> Z) bins data data' r r' e,
  StronglySorted Z.le (map fst data) /\ StronglySorted Z.le (map fst data') /\ nth_error bins 1 = Some e /\
  upto e data = upto e data' /\ accumulate_run op bins data = Ok r /\ accumulate_run op bins data' = Ok r' /\
  nth_error r 0 <> nth_error r' 0.
Proof.
  exists Z.add, [0; 1], [(0, 5); (3, 7)], [(0, 5); (3, 8)]. do 2 eexists. exists 1.
  split; [repeat constructor; simpl; lia|]. split; [repeat constructor; simpl; lia|].
  split; [reflexivity|]. split; [reflexivity|]. split; [reflexivity|]. split; [reflexivity|]. discriminate.
Qed.
Print Assumptions C72_accumulate_refuted.
Theorem C72_accumulate_partial : forall (A : Type) (op : A -> A -> A) bins (data : list (Z * A)) r, (2 <= length data)%nat ->
  StronglySorted Z.le (map fst data) -> accumulate_run op bins data = Ok r ->
  length r = (length bins - 1)%nat /\
  forall k e, nth_error bins (S k) = Some e -> nth_error r k =
    Some (match upto e data with
          | [] => None
          | u => fold1 op (firstn (S (length u)) (map snd data))
          end).
Proof. intros A op. exact (accumulate_law op). Qed.
Print Assumptions C72_accumulate_partial.
Example C72_case : accumulate_run Z.max [0; 1; 6; 10] [(0, 4); (5, 9); (7, 2)] = Ok [Some 9; Some 9; Some 9].
Proof. reflexivity. Qed.

(** C76 *)
Theorem C76_accumulate_uniformity : forall bins nights r, (3 <= length bins)%nat -> nights <> [] ->
  accumulate_uniformity_run bins nights = Ok r ->
  length r = (length bins - 1)%nat /\
  (forall k v, nth_error r k = Some v -> exists q, v = Some q /\ (0 <= q <= 1)%Q) /\
  (forall k a b, nth_error r k = Some (Some a) -> nth_error r (S k) = Some (Some b) -> (a <= b)%Q).
Proof. exact accumulate_uniformity_bounds. Qed.
Print Assumptions C76_accumulate_uniformity.
Example C76_case : exists a b c, accumulate_uniformity_run [0; 10; 20; 30] [1; 2; 25; 28] = Ok [Some a; Some b; Some c] /\
  (a == 1 # 2)%Q /\ (c == 1 # 2)%Q.
Proof. do 3 eexists. split; [reflexivity|]. split; reflexivity. Qed.
