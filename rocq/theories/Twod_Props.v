(** C422-C424: the plots of two-dimensional metric values. *)
From Coq Require Import String.
From Verif Require Import Base Twod_Model.
From Coq Require Import Reals Lra Lia List Bool.
Import ListNotations.
Open Scope R_scope.

(** the number of entries with a value *)
Definition with_value (l : list entry) (k : nat) : nat := count_occ Nat.eq_dec (map fst l) k.
Lemma count_is p l k : (forall e, In e l -> (p e = true <-> fst e = k)) -> length (filter p l) = with_value l k.
Proof.
  unfold with_value. induction l as [|e l IH]; intros H; [reflexivity|]. cbn [filter map count_occ]. pose proof (H e (or_introl eq_refl)) as HE. specialize (IH (fun x X => H x (or_intror X))).
  destruct (Nat.eq_dec (fst e) k) as [E|N]; destruct (p e) eqn:P; cbn [length]; try (rewrite IH; reflexivity); [apply HE in E; discriminate|exfalso; apply N, HE; reflexivity].
Qed.
Lemma inside_is i v last : inside (1/2 + INR i) (1/2 + INR (S i)) last v = true <-> v = S i.
Proof.
  unfold inside. rewrite S_INR.
  assert (A : 1/2 + INR i <= INR v -> (i < v)%nat) by (intros H; apply INR_lt; lra).
  assert (B : INR v <= 1/2 + (INR i + 1) -> (v < S (S i))%nat) by (intros H; apply INR_lt; rewrite !S_INR; lra).
  split.
  - intros H. apply andb_true_iff in H. destruct H as (L & U). destruct (Rle_dec (1/2 + INR i) (INR v)) as [L'|]; [|discriminate]. specialize (A L').
    assert (V : (v < S (S i))%nat) by (destruct last; [destruct (Rle_dec _ _); [apply B; assumption|discriminate]|destruct (Rlt_dec _ _); [apply B; lra|discriminate]]). lia.
  - intros ->. rewrite S_INR. destruct (Rle_dec _ _) as [_|N]; [|lra]. cbn [andb]. destruct last; [destruct (Rle_dec _ _); [reflexivity|lra]|destruct (Rlt_dec _ _); [reflexivity|lra]].
Qed.
Lemma histogram_is l : forall n i, histogram (map (fun i => 1/2 + INR i) (seq i (S n))) l = map (fun k => (1/2 + INR k, 1/2 + INR (S k), with_value l (S k))) (seq i n).
Proof.
  induction n as [|n IH]; intros i; [reflexivity|]. specialize (IH (S i)). remember (S n) as q. cbn [seq map]. subst q. cbn [seq map] in *. cbn [histogram].
  cbn [histogram] in IH. rewrite IH. f_equal. f_equal. apply count_is. intros e _. apply inside_is.
Qed.
Lemma bars_is l : bars l = map (fun k => (INR k, INR (with_value l k) * INR k)) (seq 1 (max_val l - 1)).
Proof.
  unfold bars, edges. destruct (max_val l) as [|n]; [reflexivity|]. rewrite histogram_is, map_map. replace (S n - 1)%nat with n by lia. rewrite <- (seq_shift n 0), map_map. apply map_ext. intros k. cbn [fst snd].
  replace ((1/2 + INR k + (1/2 + INR (S k))) / 2) with (INR (S k)) by (rewrite S_INR; field). reflexivity.
Qed.
Lemma max_is l : (forall e, In e l -> snd e = false -> (fst e <= max_val l)%nat) /\ (max_val l = 0%nat \/ exists e, In e l /\ snd e = false /\ fst e = max_val l).
Proof.
  assert (F : forall t x, (x <= fold_left Nat.max t x)%nat /\ (forall y, In y t -> (y <= fold_left Nat.max t x)%nat) /\ (fold_left Nat.max t x = x \/ In (fold_left Nat.max t x) t)).
  { induction t as [|y t IH]; intros x; cbn [fold_left]; [split; [lia|split; [contradiction|left; reflexivity]]|]. destruct (IH (Nat.max x y)) as (A & B & C). split; [lia|]. split; [intros z [<-|Z]; [lia|apply B, Z]|].
    destruct C as [C|C]; [|right; right; exact C]. rewrite C. destruct (Nat.max_spec x y) as [(_ & ->)|(_ & ->)]; [right; left; reflexivity|left; reflexivity]. }
  unfold max_val. destruct (F (map fst (filter (fun e => negb (snd e)) l)) 0%nat) as (_ & B & C). split.
  - intros e I M. apply B. apply in_map, filter_In. split; [exact I|rewrite M; reflexivity].
  - destruct C as [C|C]; [left; exact C|right]. apply in_map_iff in C. destruct C as (e & E & I). apply filter_In in I. destruct I as (I & M). exists e. split; [exact I|]. split; [apply negb_true_iff, M|exact E].
Qed.

(** *** C422: the bar at [k] has the visits in groups of [k] *)
Theorem C422_bar : forall l x h, In (x, h) (bars l) -> exists k, (1 <= k < max_val l)%nat /\ x = INR k /\ h = INR (k * count_occ Nat.eq_dec (map fst l) k).
Proof.
  intros l x h I. rewrite bars_is in I. apply in_map_iff in I. destruct I as (k & E & K). injection E as <- <-. apply in_seq in K. exists k. split; [lia|]. split; [reflexivity|]. rewrite mult_INR. unfold with_value. ring.
Qed.
Print Assumptions C422_bar.
Theorem C422_all_below : forall l k, (1 <= k < max_val l)%nat -> In (INR k, INR (k * count_occ Nat.eq_dec (map fst l) k)) (bars l).
Proof.
  intros l k K. rewrite bars_is. apply in_map_iff. exists k. split; [f_equal; rewrite mult_INR; unfold with_value; ring|]. apply in_seq. lia.
Qed.
Print Assumptions C422_all_below.
(** the heights add up to the visits that are not in the largest groups *)
Lemma sum_split : forall (t : list nat) n, (forall v, In v t -> (v <= n)%nat) ->
  list_sum t = list_sum (map (fun k => k * count_occ Nat.eq_dec t k)%nat (seq 1 n)).
Proof.
  assert (Z : forall (f g h : nat -> nat) s, (forall k, f k = g k + h k)%nat -> list_sum (map f s) = (list_sum (map g s) + list_sum (map h s))%nat).
  { intros f g h s E. induction s as [|k s IH]; [reflexivity|]. cbn [map list_sum fold_right]. change (fold_right Nat.add 0%nat) with list_sum. rewrite IH, E. lia. }
  assert (O : forall v n, (v <= n)%nat -> list_sum (map (fun k => if Nat.eq_dec v k then k else 0%nat) (seq 1 n)) = v).
  { intros v n. induction n as [|n IH]; intros L; [cbn; lia|]. rewrite seq_S, map_app, list_sum_app. cbn [map list_sum fold_right]. destruct (Nat.eq_dec v (1 + n)) as [->|N].
    - replace (list_sum (map (fun k => if Nat.eq_dec (1 + n) k then k else 0%nat) (seq 1 n))) with 0%nat; [lia|]. symmetry.
      assert (W : forall s, (forall k, In k s -> k <> 1 + n)%nat -> list_sum (map (fun k => if Nat.eq_dec (1 + n) k then k else 0%nat) s) = 0%nat).
      { induction s as [|k s IHs]; intros D; [reflexivity|]. cbn [map list_sum fold_right]. change (fold_right Nat.add 0%nat) with list_sum. rewrite IHs by (intros; apply D; right; assumption). destruct (Nat.eq_dec (1 + n) k) as [E|]; [exfalso; apply (D k (or_introl eq_refl)); symmetry; exact E|reflexivity]. }
      apply W. intros k K. apply in_seq in K. lia.
    - rewrite IH by lia. lia. }
  induction t as [|v t IH]; intros n H.
  - cbn [list_sum fold_right count_occ]. induction (seq 1 n) as [|k s IHs]; [reflexivity|]. cbn [map list_sum fold_right]. change (fold_right Nat.add 0%nat) with list_sum. rewrite <- IHs. lia.
  - rewrite (Z _ (fun k => if Nat.eq_dec v k then k else 0%nat) (fun k => k * count_occ Nat.eq_dec t k)%nat) by (intros k; cbn [count_occ]; destruct (Nat.eq_dec v k); lia).
    rewrite O by (apply H; left; reflexivity). rewrite <- IH by (intros; apply H; right; assumption). reflexivity.
Qed.
Theorem C422_total_partial : forall l, (forall e, In e l -> snd e = false) ->
  fold_right Rplus 0 (map snd (bars l)) + INR (max_val l * count_occ Nat.eq_dec (map fst l) (max_val l)) = INR (list_sum (map fst l)).
Proof.
  intros l M. rewrite (sum_split (map fst l) (max_val l)) by (intros v V; apply in_map_iff in V; destruct V as (e & <- & I); apply (max_is l); auto).
  rewrite bars_is, map_map. cbn [snd]. assert (H : forall s, fold_right Rplus 0 (map (fun k => INR (with_value l k) * INR k) s) = INR (list_sum (map (fun k => k * count_occ Nat.eq_dec (map fst l) k)%nat s))).
  { induction s as [|k s IH]; [reflexivity|]. cbn [map fold_right list_sum]. change (fold_right Nat.add 0%nat) with list_sum. rewrite IH, plus_INR, mult_INR. unfold with_value. ring. }
  rewrite H, <- plus_INR. f_equal. destruct (max_val l) as [|n]; [reflexivity|]. replace (S n - 1)%nat with n by lia. rewrite seq_S, map_app, list_sum_app. cbn [map list_sum fold_right]. replace (1 + n)%nat with (S n) by lia. lia.
Qed.
Print Assumptions C422_total_partial.
(** the visits in the largest groups are left out.  Full statement: each entry that is not masked and not 0 has a bar. *)
Theorem C422_largest_refuted : forall l e, In e l -> snd e = false -> (forall e', In e' l -> snd e' = false -> (fst e' <= fst e)%nat) -> forall h, ~ In (INR (fst e), h) (bars l).
Proof.
  intros l e I M Mx h B. apply C422_bar in B. destruct B as (k & (K1 & K2) & E & _). apply INR_eq in E. subst k.
  destruct (max_is l) as (_ & [Z|(e' & I' & M' & E')]); [lia|]. specialize (Mx e' I' M'). lia.
Qed.
Print Assumptions C422_largest_refuted.
(** masked entries are counted *)
Theorem C422_masked_refuted : exists l k h, (forall e, In e l -> fst e = k -> snd e = true) /\ In (INR k, h) (bars l) /\ 0 < h.
Proof.
  exists [(1%nat, true); (3%nat, false)], 1%nat, (INR (1 * 1)). split; [|split].
  - intros e [<-|[<-|[]]]; [reflexivity|discriminate].
  - apply (C422_all_below [(1%nat, true); (3%nat, false)] 1). cbn. lia.
  - cbn. lra.
Qed.
Print Assumptions C422_masked_refuted.

(** *** C423: plotting leaves the metric values alone *)
Theorem C423_unchanged_partial : forall has s u dflt a d a' lab, two_d_map has s u None dflt a = Ok (d, a', lab) -> a' = a.
Proof. intros has s u dflt a d a' lab H. cbn in H. injection H as _ <- _. reflexivity. Qed.
Print Assumptions C423_unchanged_partial.
(** with a color minimum, exactly the values below it are masked in addition, in the array of the caller *)
Theorem C423_masked_partial : forall has s u c dflt data m d a' lab, length m = length data ->
  two_d_map has s u (Some c) dflt {| a_data := data; a_mask := Some m |} = Ok (d, a', lab) ->
  a_data a' = data /\ exists m', a_mask a' = Some m' /\ length m' = length data /\
    forall i, (i < length data)%nat -> (nth i m' false = true <-> nth i m false = true \/ nth i data 0 < c).
Proof.
  intros has s u c dflt data m d a' lab L H. cbn in H. injection H as _ <- _. split; [reflexivity|]. eexists. split; [reflexivity|]. split; [rewrite map_length, combine_length; lia|].
  intros i I. set (f := fun p : R * bool => (snd p || (if Rlt_dec (fst p) c then true else false))%bool).
  assert (N : nth_error (map f (combine data m)) i = Some (f (nth i data 0, nth i m false))).
  { rewrite nth_error_map, (nth_error_nth' _ (0, false)) by (rewrite combine_length; lia). rewrite combine_nth by lia. reflexivity. }
  rewrite (nth_error_nth _ _ _ N). unfold f. cbn [fst snd]. rewrite orb_true_iff. destruct (Rlt_dec (nth i data 0) c) as [Q|Q]; intuition congruence.
Qed.
Print Assumptions C423_masked_partial.
Theorem C423_refuted : exists has s u c dflt a d a' lab, two_d_map has s u (Some c) dflt a = Ok (d, a', lab) /\ a' <> a.
Proof.
  exists (fun _ _ => false), "OneDSlicer"%string, None, 2, None, {| a_data := [1; 3]; a_mask := Some [false; false] |}. do 3 eexists. split; [reflexivity|].
  cbn. destruct (Rlt_dec 1 2) as [_|N]; [|lra]. intros E. injection E. discriminate.
Qed.
Print Assumptions C423_refuted.
Theorem C423_nomask_refuted : forall has s u c dflt data, two_d_map has s u (Some c) dflt {| a_data := data; a_mask := None |} = Err TypeError.
Proof. reflexivity. Qed.
Print Assumptions C423_nomask_refuted.

(** *** C424: the label of the image *)
Theorem C424_user : forall has s u cmin dflt a d a' lab, two_d_map has s (Some u) cmin dflt a = Ok (d, a', lab) -> lab = Some u.
Proof. intros has s u cmin dflt a d a' lab H. unfold two_d_map in H. destruct (mask_low cmin a); [|discriminate]. cbn in H. injection H as _ _ <-. reflexivity. Qed.
Print Assumptions C424_user.
Theorem C424_kind : forall (has : string -> string -> bool) s cmin dflt a d a' lab, two_d_map has s None cmin dflt a = Ok (d, a', lab) ->
  (has s "Healpix"%string = true -> lab = Some "Healpix ID"%string) /\ (has s "Healpix"%string = false -> has s "User"%string = true -> lab = Some "User Field ID"%string) /\
  (has s "Healpix"%string = false -> has s "User"%string = false -> lab = dflt).
Proof.
  intros has s cmin dflt a d a' lab H. unfold two_d_map in H. destruct (mask_low cmin a); [|discriminate]. cbn [bind label] in H. unfold default_label in H.
  destruct (has s "Healpix"%string), (has s "User"%string); injection H as _ _ <-; repeat split; congruence.
Qed.
Print Assumptions C424_kind.
(** a plotter that is used again keeps the label of the slicer before.  Full statement: the label is that of a new plotter. *)
Theorem C424_again_refuted : forall (has : string -> string -> bool) s s' cmin cmin' a a' d b lab d' b' lab' e c lab0, has s "Healpix"%string = true -> has s' "Healpix"%string = false -> has s' "User"%string = false ->
  two_d_map has s None cmin None a = Ok (d, b, lab) -> two_d_map has s' None cmin' d a' = Ok (d', b', lab') -> two_d_map has s' None cmin' None a' = Ok (e, c, lab0) ->
  lab' = Some "Healpix ID"%string /\ lab0 = None.
Proof.
  intros has s s' cmin cmin' a a' d b lab d' b' lab' e c lab0 A B C H1 H2 H0. unfold two_d_map in *. destruct (mask_low cmin a); [|discriminate]. destruct (mask_low cmin' a'); [|discriminate].
  cbn [bind label] in *. unfold default_label in *. rewrite A in H1. rewrite B, C in H2, H0. injection H1 as <- _ _. injection H2 as _ _ <-. injection H0 as _ _ <-. auto.
Qed.
Print Assumptions C424_again_refuted.
Example C422_case : In (INR 2, INR (2 * 1)) (bars [(2%nat, false); (4%nat, false); (1%nat, false)]) /\ forall h, ~ In (INR 4, h) (bars [(2%nat, false); (4%nat, false); (1%nat, false)]).
Proof.
  split; [apply (C422_all_below [(2%nat, false); (4%nat, false); (1%nat, false)] 2); cbn; lia|].
  apply (C422_largest_refuted [(2%nat, false); (4%nat, false); (1%nat, false)] (4%nat, false)); [cbn; tauto|reflexivity|]. intros e' [<-|[<-|[<-|[]]]] _; cbn; lia.
Qed.
Example C423_case : exists r, two_d_map (fun _ _ => false) "OneDSlicer" None (Some 2) None {| a_data := [1; 3]; a_mask := Some [false; true] |} = Ok r.
Proof. eexists. reflexivity. Qed.
Example C424_case : exists d a, two_d_map (fun s k => String.eqb k "Healpix") "HealpixSlicer" None None None {| a_data := [1]; a_mask := None |} = Ok (d, a, Some "Healpix ID"%string).
Proof. do 2 eexists. reflexivity. Qed.
