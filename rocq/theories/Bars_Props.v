(** C417-C421: the plots of binned data. *)
From Coq Require Import String.
From Verif Require Import Base Bars_Model Bars_Spec.
From Coq Require Import Reals Lra Lia List Bool.
Import ListNotations.
Open Scope R_scope.

Lemma lefts_nth bins i : (S i < length bins)%nat -> nth_error (lefts bins) i = Some (nth i bins 0).
Proof.
  unfold lefts. revert i. induction bins as [|a bins IH]; intros i L; [cbn in L; lia|]. destruct bins as [|b t]; [cbn in L; lia|].
  destruct i as [|i]; [reflexivity|]. cbn [removelast nth_error nth]. change (nth i (b :: t) 0) with (nth i (b :: t) 0). apply IH. cbn [length] in *. lia.
Qed.
Lemma widths_nth bins i : (S i < length bins)%nat -> nth_error (widths bins) i = Some (nth (S i) bins 0 - nth i bins 0).
Proof.
  revert i. induction bins as [|a bins IH]; intros i L; [cbn in L; lia|]. destruct bins as [|b t]; [cbn in L; lia|].
  destruct i as [|i]; [reflexivity|]. cbn [widths nth_error]. rewrite IH by (cbn [length] in *; lia). reflexivity.
Qed.
Lemma at_each_is {A} (l : list A) (f : nat -> A) ix : (forall i, In i ix -> nth_error l i = Some (f i)) -> at_each l ix = Ok (map f ix).
Proof.
  induction ix as [|i ix IH]; intros H; [reflexivity|]. cbn [at_each map]. unfold arr_get at 1. rewrite (H i) by (left; reflexivity). cbn [bind].
  rewrite IH by (intros j J; apply H; right; exact J). reflexivity.
Qed.
Lemma adds_map (f g : nat -> R) ix : adds (map f ix) (map g ix) = map (fun i => f i + g i) ix.
Proof. unfold adds. induction ix as [|i ix IH]; [reflexivity|]. cbn [map combine]. rewrite IH. reflexivity. Qed.
Lemma ravel_map (f g : nat -> R) ix : ravel (map f ix) (map g ix) = concat (map (fun i => [f i; g i]) ix).
Proof. unfold ravel. induction ix as [|i ix IH]; [reflexivity|]. cbn [map combine flat_map concat]. rewrite IH. reflexivity. Qed.
Lemma steps_at bins a ix : (forall i, In i ix -> (S i < length bins)%nat /\ (i < length (a_data a))%nat) -> good a = ix ->
  exists l, line_of bins false a = Ok l /\ Steps bins (fun i => nth i (a_data a) 0) ix (fst l) (snd l).
Proof.
  intros H G. unfold line_of. rewrite G.
  rewrite (at_each_is _ (fun i => nth i bins 0)) by (intros i I; apply lefts_nth, H, I). cbn [bind].
  rewrite (at_each_is _ (fun i => nth (S i) bins 0 - nth i bins 0)) by (intros i I; apply widths_nth, H, I). cbn [bind].
  rewrite (at_each_is _ (fun i => nth i (a_data a) 0)) by (intros i I; apply nth_error_nth', H, I). cbn [bind].
  eexists. split; [reflexivity|]. cbn [fst snd]. rewrite adds_map, !ravel_map. split; [|reflexivity]. f_equal. apply map_ext. intros i. f_equal. f_equal. ring.
Qed.
Lemma filter_seq n k p : Bins (k + n) (fun i => (k <= i)%nat /\ p i = true) (filter p (seq k n)).
Proof.
  revert k. induction n as [|n IH]; intros k; cbn [seq filter].
  - split; [intros i; split; [intros []|lia]|]. intros a b i j _ E. destruct a; discriminate.
  - destruct (IH (S k)) as (A & B). assert (M : forall i, In i (filter p (seq (S k) n)) <-> (i < k + S n)%nat /\ (S k <= i)%nat /\ p i = true) by (intros i; rewrite A; intuition lia).
    destruct (p k) eqn:P.
    + split.
      * intros i. cbn [In]. rewrite M. split; [intros [<-|H]; [repeat split; try lia; exact P|intuition lia]|]. intros (L & K & Q). destruct (Nat.eq_dec k i) as [E|N]; [left; exact E|right; repeat split; try lia; exact Q].
      * intros a b i j L E F. destruct b as [|b]; [lia|]. cbn [nth_error] in F. destruct a as [|a]; cbn [nth_error] in E; [injection E as <-; apply nth_error_In, M in F; lia|apply (B a b); [lia|exact E|exact F]].
    + split; [|exact B]. intros i. rewrite M. split; [intuition lia|]. intros (L & K & Q). destruct (Nat.eq_dec k i) as [E|N]; [congruence|repeat split; try lia; exact Q].
Qed.
Lemma binned_line clip s b o a d : binned_data clip s (Some b) o a = Ok d -> s = "OneDSlicer"%string /\ o_color o = true /\ line_of b (o_filled o) a = Ok (d_x d, d_y d) /\
  limits clip o a = Ok (d_bottom d, d_top d).
Proof.
  unfold binned_data. destruct (String.eqb_spec s "OneDSlicer") as [E|N]; [|discriminate]. cbn [negb]. destruct (line_of b (o_filled o) a) as [l|]; [|discriminate]. cbn [bind].
  destruct (o_color o); [|discriminate]. cbn [negb]. destruct (length (fst l) =? length (snd l))%nat; [|discriminate]. cbn [negb].
  destruct (limits clip o a) as [lim|]; [|discriminate]. cbn [bind]. intros H. injection H as <-. cbn. destruct l, lim. auto.
Qed.

(** *** C417: the line *)
Theorem C417_unmasked : forall clip s bins o a m d, length bins = S (length (a_data a)) -> a_mask a = Some m -> length m = length (a_data a) -> o_filled o = false ->
  binned_data clip s (Some bins) o a = Ok d ->
  exists ix, Bins (length (a_data a)) (fun i => nth i m false = false) ix /\ Steps bins (fun i => nth i (a_data a) 0) ix (d_x d) (d_y d).
Proof.
  intros clip s bins o a m d LB M LM F H. destruct (binned_line _ _ _ _ _ _ H) as (_ & _ & L & _). rewrite F in L.
  pose proof (filter_seq (length m) 0 (fun i => negb (nth i m false))) as FS. cbn [plus] in FS. rewrite LM in FS.
  exists (filter (fun i => negb (nth i m false)) (seq 0 (length (a_data a)))). split.
  - destruct FS as (A & B). split; [|exact B]. intros i. rewrite A, negb_true_iff. intuition lia.
  - destruct (steps_at bins a (filter (fun i => negb (nth i m false)) (seq 0 (length (a_data a))))) as (l & E & S).
    + intros i I. apply FS in I. lia.
    + unfold good. rewrite M, LM. reflexivity.
    + rewrite E in L. injection L as ->. exact S.
Qed.
Print Assumptions C417_unmasked.
Lemma filled_map a : filled a = map (fun i => if masked a i then a_fill a else nth i (a_data a) 0) (seq 0 (length (a_data a))).
Proof. reflexivity. Qed.
Lemma lefts_map bins n : length bins = S n -> lefts bins = map (fun i => nth i bins 0) (seq 0 n).
Proof.
  intros L. assert (K : length (lefts bins) = n).
  { unfold lefts. destruct bins as [|a t]; [discriminate|]. rewrite (app_removelast_last 0) in L by discriminate. rewrite app_length in L. cbn in L. cbn. lia. }
  apply (nth_ext _ _ 0 0); [rewrite map_length, seq_length; exact K|]. intros i I. rewrite K in I. rewrite (nth_error_nth _ _ _ (lefts_nth bins i ltac:(lia))).
  symmetry. apply nth_error_nth. rewrite nth_error_map, (nth_error_nth' _ 0%nat) by (rewrite seq_length; lia). rewrite seq_nth by lia. reflexivity.
Qed.
Lemma widths_map bins n : length bins = S n -> widths bins = map (fun i => nth (S i) bins 0 - nth i bins 0) (seq 0 n).
Proof.
  intros L. assert (K : forall l, length (widths l) = (length l - 1)%nat).
  { induction l as [|a l IH]; [reflexivity|]. destruct l as [|b t]; [reflexivity|]. cbn [widths length] in *. rewrite IH. lia. }
  apply (nth_ext _ _ 0 0); [rewrite map_length, seq_length, K; lia|]. intros i I. rewrite K in I. rewrite (nth_error_nth _ _ _ (widths_nth bins i ltac:(lia))).
  symmetry. apply nth_error_nth. rewrite nth_error_map, (nth_error_nth' _ 0%nat) by (rewrite seq_length; lia). rewrite seq_nth by lia. reflexivity.
Qed.
Theorem C417_filled : forall clip s bins o a m d, length bins = S (length (a_data a)) -> a_mask a = Some m -> o_filled o = true ->
  binned_data clip s (Some bins) o a = Ok d ->
  Steps bins (fun i => if nth i m false then a_fill a else nth i (a_data a) 0) (seq 0 (length (a_data a))) (d_x d) (d_y d).
Proof.
  intros clip s bins o a m d LB M F H. destruct (binned_line _ _ _ _ _ _ H) as (_ & _ & L & _). rewrite F in L. unfold line_of in L.
  rewrite (lefts_map bins _ LB), (widths_map bins _ LB), filled_map, adds_map, !ravel_map in L. injection L as <- <-. split; [f_equal; apply map_ext; intros i; f_equal; f_equal; ring|].
  f_equal. apply map_ext. intros i. unfold masked. rewrite M. reflexivity.
Qed.
Print Assumptions C417_filled.

(** *** C418: an array without a mask.  Full statement: all bins are drawn. *)
Theorem C418_refuted : forall clip s b0 b1 bins v vs fill o d, o_filled o = false ->
  binned_data clip s (Some (b0 :: b1 :: bins)) o {| a_data := v :: vs; a_mask := None; a_fill := fill |} = Ok d -> d_x d = [b0; b1] /\ d_y d = [v; v].
Proof.
  intros clip s b0 b1 bins v vs fill o d F H. destruct (binned_line _ _ _ _ _ _ H) as (_ & _ & L & _). rewrite F in L.
  destruct (steps_at (b0 :: b1 :: bins) {| a_data := v :: vs; a_mask := None; a_fill := fill |} [0%nat]) as (l & E & X & Y).
  - intros i [<-|[]]. cbn. lia.
  - reflexivity.
  - rewrite E in L. injection L as ->. cbn [fst snd] in X, Y. rewrite X, Y. auto.
Qed.
Print Assumptions C418_refuted.

(** *** C419: the limits: those given, else those of the percentiles, else 0 if that is the smallest value *)
Theorem C419_given : forall clip s bins o a d, binned_data clip s (Some bins) o a = Ok d ->
  (forall y, o_ymin o = Some y -> d_bottom d = Some y) /\ (forall y, o_ymax o = Some y -> d_top d = Some y).
Proof.
  intros clip s bins o a d H. destruct (binned_line _ _ _ _ _ _ H) as (_ & _ & _ & L). unfold limits in L.
  destruct (o_clip o) as [p|]; cbn [bind] in L.
  - destruct (clip (compressed a) p) as [c|]; [|discriminate]. cbn [bind fst snd] in L. split.
    + intros y E. rewrite E in L. cbn [keep] in L. injection L as <- _. reflexivity.
    + intros y E. rewrite E in L. destruct (o_ymin o); cbn [keep] in L; injection L as _ <-; reflexivity.
  - cbn [fst snd] in L. split.
    + intros y E. rewrite E in L. injection L as <- _. reflexivity.
    + intros y E. rewrite E in L. destruct (o_ymin o); [injection L as _ <-; reflexivity|]. destruct (filled a) as [|x t]; [discriminate|].
      destruct (Req_EM_T _ 0); injection L as _ <-; reflexivity.
Qed.
Print Assumptions C419_given.
Theorem C419_clip : forall clip s bins o a m d p lo hi, a_mask a = Some m -> o_clip o = Some p -> o_ymin o = None -> o_ymax o = None ->
  clip (map (fun i => nth i (a_data a) 0) (filter (fun i => negb (nth i m false)) (seq 0 (length (a_data a))))) p = Ok (lo, hi) ->
  binned_data clip s (Some bins) o a = Ok d -> d_bottom d = Some lo /\ d_top d = Some hi.
Proof.
  intros clip s bins o a m d p lo hi M C Y0 Y1 E H. destruct (binned_line _ _ _ _ _ _ H) as (_ & _ & _ & L). unfold limits in L. rewrite C, Y0, Y1 in L.
  replace (compressed a) with (map (fun i => nth i (a_data a) 0) (filter (fun i => negb (nth i m false)) (seq 0 (length (a_data a))))) in L.
  - rewrite E in L. cbn [bind fst snd keep] in L. injection L as <- <-. auto.
  - unfold compressed, pos_in, masked. rewrite M. reflexivity.
Qed.
Print Assumptions C419_clip.
(** without given limits the axis starts at 0 only if masked bins count as their fill value *)
Theorem C419_zero_refuted : exists clip s bins o a m d, a_mask a = Some m /\ o_ymin o = None /\ o_clip o = None /\
  (forall i, (i < length (a_data a))%nat -> nth i m false = false -> nth i (a_data a) 0 = 0) /\ (exists i, nth i m false = false /\ (i < length (a_data a))%nat) /\
  binned_data clip s (Some bins) o a = Ok d /\ d_bottom d = None.
Proof.
  exists (fun _ _ => Err ValueError), "OneDSlicer"%string, [0; 1; 2], {| o_color := true; o_filled := false; o_clip := None; o_ymin := None; o_ymax := None |},
    {| a_data := [0; 5]; a_mask := Some [false; true]; a_fill := -666 |}, [false; true], {| d_x := [0; 0 + (1 - 0)]; d_y := [0; 0]; d_bottom := None; d_top := None |}.
  split; [reflexivity|]. split; [reflexivity|]. split; [reflexivity|]. split; [|split; [exists 0%nat; split; [reflexivity|cbn; lia]|split; [|reflexivity]]].
  - intros i L E. destruct i as [|[|i]]; [reflexivity|discriminate E|cbn in L; lia].
  - assert (FM : Rmin 0 (-666) = -666) by (apply Rmin_right; lra).
    unfold binned_data. cbn [String.eqb Ascii.eqb Bool.eqb negb line_of o_filled good a_mask length seq filter nth at_each arr_get nth_error bind lefts removelast widths a_data ravel adds combine map flat_map fst snd app o_color Nat.eqb].
    unfold limits. cbn [o_clip bind fst snd o_ymin o_ymax filled pos_in a_data length seq map masked a_mask nth a_fill fold_left]. rewrite FM.
    destruct (Req_EM_T (-666) 0) as [Q|Q]; [lra|]. reflexivity.
Qed.
Print Assumptions C419_zero_refuted.
Theorem C419_zero_partial : forall clip s bins o a d, o_ymin o = None -> o_clip o = None -> a_mask a = Some (repeat false (length (a_data a))) -> (exists i, (i < length (a_data a))%nat /\ nth i (a_data a) 0 = 0) ->
  (forall i, (i < length (a_data a))%nat -> 0 <= nth i (a_data a) 0) -> binned_data clip s (Some bins) o a = Ok d -> d_bottom d = Some 0.
Proof.
  intros clip s bins o a d Y C M (i0 & L0 & Z) P H. destruct (binned_line _ _ _ _ _ _ H) as (_ & _ & _ & L). unfold limits in L. rewrite C, Y in L. cbn [bind fst snd] in L.
  assert (FE : forall x, In x (filled a) <-> exists i, (i < length (a_data a))%nat /\ x = nth i (a_data a) 0).
  { intros x. rewrite filled_map, in_map_iff. split; [intros (i & <- & I)|intros (i & I & ->)]; [|exists i]; [apply in_seq in I; exists i|split; [|apply in_seq; lia]]; [split; [lia|]|];
      unfold masked; rewrite M; destruct (nth i (repeat false (length (a_data a))) false) eqn:E; try reflexivity;
      pose proof (nth_In (repeat false (length (a_data a))) false (n := i)) as NI; rewrite repeat_length in NI; specialize (NI ltac:(lia)); rewrite E in NI; apply repeat_spec in NI; discriminate. }
  destruct (filled a) as [|x t] eqn:F; [discriminate|]. destruct (Req_EM_T (fold_left Rmin t x) 0) as [E|N]; [injection L as <- _; reflexivity|]. exfalso. apply N.
  assert (FM : forall l y, (forall z, In z (y :: l) -> 0 <= z) -> In 0 (y :: l) -> fold_left Rmin l y = 0).
  { induction l as [|z l IH]; intros y Q I; [destruct I as [I|[]]; exact I|]. cbn [fold_left]. pose proof (Q y (or_introl eq_refl)). pose proof (Q z (or_intror (or_introl eq_refl))). apply IH.
    - intros w [<-|W]; [unfold Rmin; destruct (Rle_dec y z); assumption|apply Q; right; right; exact W].
    - destruct I as [->|[->|I]]; [left; apply Rmin_left; assumption|left; apply Rmin_right; assumption|right; exact I]. }
  apply FM; [intros z Zi; apply FE in Zi; destruct Zi as (i & I & ->); apply P, I|apply FE; exists i0; auto].
Qed.
Print Assumptions C419_zero_partial.

(** *** C420: what raises *)
Theorem C420_inputs : forall clip s bins o a, s <> "OneDSlicer"%string \/ bins = None -> binned_data clip s bins o a = Err ValueError.
Proof. intros clip s bins o a H. unfold binned_data. destruct (String.eqb_spec s "OneDSlicer") as [E|N]; [destruct H as [H| ->]; [contradiction|reflexivity]|reflexivity]. Qed.
Print Assumptions C420_inputs.
(** the colour has no default: without one the plot raises, although all options are optional *)
Theorem C420_colour_refuted : forall clip bins o a, o_color o = false -> o_filled o = true -> binned_data clip "OneDSlicer" (Some bins) o a = Err KeyError.
Proof. intros clip bins o a C F. unfold binned_data, line_of. rewrite F, C. reflexivity. Qed.
Print Assumptions C420_colour_refuted.

(** *** C421: plots of an NDSlicer always raise *)
Theorem C421_refuted : forall A (rest : result A) nbins n d,
  (forall s, exists e, two_d rest nd_attrs s nbins n d = Err e) /\ (forall s, exists e, one_d rest nd_attrs s nbins n d = Err e) /\
  (fold_right Nat.mul 1%nat (rev nbins) = n -> has_key d "xaxis" = true -> has_key d "yaxis" = true -> two_d rest nd_attrs "NDSlicer" nbins n d = Err AttributeError) /\
  (fold_right Nat.mul 1%nat (rev nbins) = n -> has_key d "axis" = true -> one_d rest nd_attrs "NDSlicer" nbins n d = Err AttributeError).
Proof.
  intros A rest nbins n d.
  assert (G : forall keys s, exists e, subset_data keys rest nd_attrs s nbins n d = Err e).
  { intros keys s. unfold subset_data. destruct (String.eqb s "NDSlicer"); [|eexists; reflexivity]. cbn [negb]. destruct (forallb (has_key d) keys); [|eexists; reflexivity]. cbn [negb].
    change (attr nd_attrs "bins") with (@Ok unit tt). cbn [bind]. destruct (reshape (rev nbins) n) as [[]|e]; [|eexists; reflexivity]. cbn [bind]. change (attr nd_attrs "nD") with (@Err unit AttributeError). eexists; reflexivity. }
  split; [intros s; apply G|]. split; [intros s; apply G|]. split.
  - intros E X Y. unfold two_d, subset_data. cbn [forallb]. rewrite X, Y. unfold reshape. rewrite E, Nat.eqb_refl. reflexivity.
  - intros E X. unfold one_d, subset_data. cbn [forallb]. rewrite X. unfold reshape. rewrite E, Nat.eqb_refl. reflexivity.
Qed.
Print Assumptions C421_refuted.
Theorem C421_inputs : forall A (rest : result A) attrs s nbins n d, s <> "NDSlicer"%string \/ has_key d "xaxis" = false \/ has_key d "yaxis" = false -> two_d rest attrs s nbins n d = Err ValueError.
Proof.
  intros A rest attrs s nbins n d H. unfold two_d, subset_data. destruct (String.eqb_spec s "NDSlicer") as [E|N]; [|reflexivity]. cbn [negb forallb]. destruct H as [H|[H|H]]; [contradiction| |]; rewrite H; [reflexivity|].
  destruct (has_key d "xaxis"); reflexivity.
Qed.
Print Assumptions C421_inputs.
Definition plain := {| o_color := true; o_filled := false; o_clip := None; o_ymin := Some 0; o_ymax := None |}.
Example C417_case : exists d, binned_data (fun _ _ => Err ValueError) "OneDSlicer" (Some [0; 1; 2; 3]) plain {| a_data := [4; 5; 6]; a_mask := Some [false; true; false]; a_fill := -666 |} = Ok d.
Proof. eexists. reflexivity. Qed.
Example C418_case : exists d, binned_data (fun _ _ => Err ValueError) "OneDSlicer" (Some [0; 1; 2; 3]) plain {| a_data := [4; 5; 6]; a_mask := None; a_fill := -666 |} = Ok d.
Proof. eexists. reflexivity. Qed.
Example C421_case : @two_d unit (Ok tt) nd_attrs "NDSlicer" [2%nat; 3%nat] 6 [("xaxis"%string, 0%nat); ("yaxis"%string, 1%nat)] = Err AttributeError.
Proof. reflexivity. Qed.
Example C419_case : exists d, binned_data (fun _ _ => Ok (1, 2)) "OneDSlicer" (Some [0; 1; 2]) {| o_color := true; o_filled := false; o_clip := Some 95; o_ymin := None; o_ymax := Some 7 |}
  {| a_data := [4; 5]; a_mask := Some [false; true]; a_fill := -666 |} = Ok d /\ d_bottom d = Some 1 /\ d_top d = Some 7.
Proof. eexists. split; [reflexivity|]. split; reflexivity. Qed.
Example C420_case : binned_data (fun _ _ => Err ValueError) "HealpixSlicer" (Some [0; 1]) plain {| a_data := [4]; a_mask := None; a_fill := 0 |} = Err ValueError.
Proof. apply C420_inputs. left. intros E. discriminate E. Qed.
