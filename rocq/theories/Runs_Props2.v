(** C334, continued: what the normalised numbers mean. *)
From Coq Require Import String Reals ZArith List Bool Lia Lra Permutation.
From Verif Require Import Base Depth_Model Depth_Proofs Template_Model Template_Spec Template_Proofs Runs_Spec Runs_Model Runs_Props.
Import ListNotations.
Open Scope R_scope.

Lemma at_unique : forall {A} (cells : list (list A)) i j v w, At cells i j v -> At cells i j w -> v = w.
Proof. intros A cells i j v w [r [P Q]] [r' [P' Q']]. congruence. Qed.

(** C334: normalising succeeds exactly when every run of the baseline is in the table; otherwise KeyError. *)
Theorem C334_errors : forall b f subsets, Labelled (f_iname f) (f_cname f) ->
  ((exists out, normalize b f subsets = Ok out) <-> (forall r, (match b with One r0 => r = r0 | Many rs => In r rs end) -> In r (f_index f)))
  /\ (forall e, normalize b f subsets = Err e -> e = KeyError).
Proof.
  intros b f subsets G. rewrite (normalize_labelled b f subsets G).
  destruct (forallb (fun r => mem r (f_index f)) (match b with One r => [r] | Many rs => rs end)) eqn:F.
  - rewrite forallb_forall in F. split; [|discriminate]. split; [|intros; eexists; reflexivity].
    intros _ r H. apply mem_in. apply F. destruct b; [left; auto|exact H].
  - split; [|congruence]. split; [intros [out H]; discriminate|]. intros H. exfalso.
    assert (forallb (fun r => mem r (f_index f)) (match b with One r => [r] | Many rs => rs end) = true) as T; [|congruence].
    apply forallb_forall. intros r R. apply mem_in. apply H. destruct b; [destruct R as [->|[]]; reflexivity|exact R].
Qed.
Print Assumptions C334_errors.

(** C334: the baseline run itself is 1 for every metric of which it has a value that is not zero (zero included for magnitudes). *)
Theorem C334_baseline : forall r f subsets out i j m x,
  Labelled (f_iname f) (f_cname f) -> normalize (One r) f subsets = Ok out ->
  nth_error (f_index out) i = Some r -> nth_error (f_cols out) j = Some m ->
  Stands (f_index f) (f_cols f) (f_cells f) r m (Some x) ->
  (x <> 0 \/ exists s fl, subsets = Some s /\ FlagsAre s m fl /\ snd fl = true) ->
  At (f_cells out) i j (Some 1).
Proof.
  intros r f subsets out i j m x G H A B S0 N.
  destruct (C334_value (One r) f subsets out G H) as [_ [_ V]].
  destruct (V i j r m A B) as [fl [bv [x' [v [F [S1 [S2 [C D]]]]]]]].
  rewrite <- (stands_unique _ _ _ _ _ _ _ S0 S1) in C. rewrite <- (stands_unique _ _ _ _ _ _ _ S0 S2) in C.
  replace (Some 1) with v; [exact D|]. destruct fl as [inv mag]. cbn [fst snd] in C.
  destruct mag.
  - unfold Compared in C. destruct inv; subst v; f_equal; lra.
  - assert (x <> 0) as X.
    { destruct N as [X|[s [[i' m'] [E [F' T]]]]]; [exact X|]. subst subsets. cbn in T. subst m'.
      destruct F as [k [P Q]], F' as [k' [P' Q']]. destruct (Nat.lt_trichotomy k k') as [L|[->|L]].
      - elim (Q' k (inv, false) L). exact P.
      - congruence.
      - elim (Q k' (i', true) L). exact P'. }
    unfold Compared in C. destruct inv; [destruct C as [_ C]; rewrite C by assumption|destruct C as [_ C]; rewrite C by assumption]; f_equal; field; exact X.
Qed.
Print Assumptions C334_baseline.

(** C334: with positive values, a number above 1 means that the run is better than the baseline -- a larger value, or a smaller one
    for an inverted metric -- a number below 1 that it is worse; magnitudes need not be positive. *)
Theorem C334_better : forall r0 f subsets out i j r m b x v,
  Labelled (f_iname f) (f_cname f) -> normalize (One r0) f subsets = Ok out ->
  nth_error (f_index out) i = Some r -> nth_error (f_cols out) j = Some m ->
  Stands (f_index f) (f_cols f) (f_cells f) r0 m (Some b) -> Stands (f_index f) (f_cols f) (f_cells f) r m (Some x) ->
  At (f_cells out) i j v ->
  forall fl, match subsets with None => fl = (false, false) | Some s => FlagsAre s m fl end ->
  (0 < b /\ 0 < x \/ snd fl = true) ->
  exists y, v = Some y /\ (if fst fl then (1 < y <-> x < b) /\ (y < 1 <-> b < x) else (1 < y <-> b < x) /\ (y < 1 <-> x < b)).
Proof.
  intros r0 f subsets out i j r m b x v G H A B S0 S1 V0 fl F N.
  destruct (C334_value (One r0) f subsets out G H) as [_ [_ V]].
  destruct (V i j r m A B) as [fl' [bv [x' [v' [F' [S1' [S2 [C D]]]]]]]].
  rewrite <- (stands_unique _ _ _ _ _ _ _ S1 S1') in C. rewrite <- (stands_unique _ _ _ _ _ _ _ S0 S2) in C.
  rewrite (at_unique _ _ _ _ _ V0 D). clear D V0 V.
  assert (fl' = fl) as ->.
  { destruct subsets as [s|]; [|congruence]. destruct F as [k [P Q]], F' as [k' [P' Q']]. destruct (Nat.lt_trichotomy k k') as [L|[->|L]].
    - elim (Q' k fl L). exact P.
    - congruence.
    - elim (Q k' fl' L). exact P'. }
  destruct fl as [inv mag]. cbn [fst snd] in *. unfold Compared in C. destruct mag.
  { destruct inv; subst v'; eexists; (split; [reflexivity|]); split; split; lra. }
  destruct N as [[Pb Px]|N]; [|discriminate].
  destruct inv; destruct C as [_ C]; rewrite C by lra; eexists; (split; [reflexivity|]).
  - assert (E : b = b / x * x) by (field; lra). set (q := b / x) in *. split; split; intros L; nra.
  - assert (E : x = x / b * b) by (field; lra). set (q := x / b) in *. split; split; intros L; nra.
Qed.
Print Assumptions C334_better.

Definition table1 (rs : list string) (vals : list (option R)) : frame :=
  {| f_iname := None; f_cname := None; f_index := rs; f_cols := ["m"%string]; f_cells := map (fun v => [v]) vals |}.
(** C334: with a negative baseline the sense is reversed: a run with the larger value is shown as worse. *)
Theorem C334_better_refuted : ~ (forall r0 f out i j r m b x y,
  Labelled (f_iname f) (f_cname f) -> normalize (One r0) f None = Ok out ->
  nth_error (f_index out) i = Some r -> nth_error (f_cols out) j = Some m ->
  Stands (f_index f) (f_cols f) (f_cells f) r0 m (Some b) -> Stands (f_index f) (f_cols f) (f_cells f) r m (Some x) ->
  At (f_cells out) i j (Some y) -> b < x -> 1 < y).
Proof.
  intros H.
  assert (G : Labelled (f_iname (table1 ["a"; "b"]%string [Some (-2); Some (-1)])) (f_cname (table1 ["a"; "b"]%string [Some (-2); Some (-1)]))) by (split; left; reflexivity).
  specialize (H "a"%string (table1 ["a"; "b"]%string [Some (-2); Some (-1)]) (normal_frame (One "a"%string) (table1 ["a"; "b"]%string [Some (-2); Some (-1)]) None) 1%nat 0%nat "b"%string "m"%string (-2) (-1) (1/2) G).
  rewrite (normalize_labelled _ _ _ G) in H. cbn [forallb mem existsb table1 f_index String.eqb Ascii.eqb Bool.eqb orb andb] in H.
  specialize (H eq_refl eq_refl eq_refl).
  assert (1 < 1 / 2); [|lra]. apply H; [| | |lra].
  - apply (stands_cell _ _ _ _ _ 0 0); try reflexivity; cbn; [repeat constructor; cbn; intuition congruence|repeat constructor; cbn; tauto|].
    eexists; split; reflexivity.
  - apply (stands_cell _ _ _ _ _ 1 0); try reflexivity; cbn; [repeat constructor; cbn; intuition congruence|repeat constructor; cbn; tauto|].
    eexists; split; reflexivity.
  - eexists. split; [reflexivity|]. cbn -[Req_EM_T norm_cell]. f_equal.
    pose proof (norm_compared false false (Some (-2)) (Some (-1))) as [_ E]. change (base_value _ _ _) with (Some (-2)). change (merged _ _ _) with (Some (-1)).
    rewrite E by lra. f_equal. field.
Qed.
Print Assumptions C334_better_refuted.

(** C334: a metric whose baseline value is zero is lost: the baseline run itself has no finite number there. *)
Theorem C334_zero_refuted : ~ (forall r f out i j m x,
  Labelled (f_iname f) (f_cname f) -> normalize (One r) f None = Ok out ->
  nth_error (f_index out) i = Some r -> nth_error (f_cols out) j = Some m ->
  Stands (f_index f) (f_cols f) (f_cells f) r m (Some x) -> At (f_cells out) i j (Some 1)).
Proof.
  intros H.
  assert (G : Labelled (f_iname (table1 ["a"]%string [Some 0])) (f_cname (table1 ["a"]%string [Some 0]))) by (split; left; reflexivity).
  specialize (H "a"%string (table1 ["a"]%string [Some 0]) (normal_frame (One "a"%string) (table1 ["a"]%string [Some 0]) None) 0%nat 0%nat "m"%string 0 G).
  rewrite (normalize_labelled _ _ _ G) in H. cbn [forallb mem existsb table1 f_index String.eqb Ascii.eqb Bool.eqb orb andb] in H.
  specialize (H eq_refl eq_refl eq_refl). destruct H as [row [P Q]].
  { apply (stands_cell _ _ _ _ _ 0 0); try reflexivity; cbn; [repeat constructor; cbn; tauto ..|]. eexists; split; reflexivity. }
  cbn -[norm_cell Req_EM_T] in P. injection P as <-. cbn -[norm_cell Req_EM_T] in Q. injection Q as Q.
  pose proof (norm_compared false false (Some 0) (Some 0)) as [E _]. rewrite E in Q by reflexivity. discriminate.
Qed.
Print Assumptions C334_zero_refuted.

(** Units: multiplying every value by a non-zero factor changes nothing unless a metric is in magnitudes; adding a constant to every
    value changes nothing if all metrics are in magnitudes. *)
Definition on_cells (h : R -> R) (f : frame) : frame :=
  {| f_iname := f_iname f; f_cname := f_cname f; f_index := f_index f; f_cols := f_cols f; f_cells := map (map (option_map h)) (f_cells f) |}.
Lemma first_some_map : forall {A} (h : R -> R) (g g' : A -> cell) l, (forall x, g' x = option_map h (g x)) -> first_some (map g' l) = option_map h (first_some (map g l)).
Proof. intros A h g g' l H. induction l as [|x t IH]; cbn; [reflexivity|]. rewrite H. destruct (g x); cbn; auto. Qed.
Lemma combine_map_r : forall {A B C} (h : B -> C) (l : list A) l', combine l (map h l') = map (fun p => (fst p, h (snd p))) (combine l l').
Proof. induction l as [|x t IH]; intros [|y l']; cbn; f_equal; auto. Qed.
Lemma filter_fst_map : forall {A B C} (q : A -> bool) (h : B -> C) (l : list (A * B)),
  filter (fun p => q (fst p)) (map (fun p => (fst p, h (snd p))) l) = map (fun p => (fst p, h (snd p))) (filter (fun p => q (fst p)) l).
Proof. induction l as [|[x y] t IH]; cbn; [reflexivity|]. destruct (q x); cbn; rewrite IH; reflexivity. Qed.
Lemma merged_row_map : forall h cols row m, merged_row cols (map (option_map h) row) m = option_map h (merged_row cols row m).
Proof.
  intros h cols row m. unfold merged_row. rewrite combine_map_r, (filter_fst_map (fun s => String.eqb s m)), map_map.
  apply first_some_map. reflexivity.
Qed.
Lemma merged_map : forall h f r m, merged (on_cells h f) r m = option_map h (merged f r m).
Proof.
  intros h f r m. unfold merged, on_cells. cbn [f_index f_cols f_cells].
  rewrite combine_map_r, (filter_fst_map (fun s => String.eqb s r)), map_map. apply first_some_map.
  intros [a row]. cbn [snd]. apply merged_row_map.
Qed.
Lemma normal_frame_ext : forall r f f' subsets, f_index f = f_index f' -> f_cols f = f_cols f' ->
  (forall m x, In m (f_cols f) -> let fl := match subsets with None => (false, false) | Some s => flags_of s m end in
     (match subsets with None => True | Some s => In m (map fst s) end) ->
     norm_cell (fst fl) (snd fl) (merged f r m) (merged f x m) = norm_cell (fst fl) (snd fl) (merged f' r m) (merged f' x m)) ->
  normal_frame (One r) f subsets = normal_frame (One r) f' subsets.
Proof.
  intros r f f' subsets I C H. unfold normal_frame. rewrite <- I, <- C. f_equal. apply map_ext. intros x. apply map_ext_in. intros m M.
  cbn [base_value]. destruct subsets as [s|].
  - apply filter_In in M. destruct M as [M1 M2]. apply (H m x M1). apply mem_in. exact M2.
  - apply (H m x M). trivial.
Qed.
Lemma norm_none_l : forall inv mag x, norm_cell inv mag None x = None.
Proof. intros inv mag x. pose proof (norm_compared inv mag None x) as H. exact H. Qed.
Lemma norm_none_r : forall inv mag b, norm_cell inv mag b None = None.
Proof. intros inv mag b. pose proof (norm_compared inv mag b None) as H. destruct b; exact H. Qed.
Theorem C334_units : forall r f subsets c, Labelled (f_iname f) (f_cname f) ->
  (c <> 0 -> (forall s m fl, subsets = Some s -> In (m, fl) s -> snd fl = false) ->
   normalize (One r) (on_cells (fun x => c * x) f) subsets = normalize (One r) f subsets)
  /\ (forall s, subsets = Some s -> (forall m fl, In (m, fl) s -> snd fl = true) ->
      normalize (One r) (on_cells (fun x => c + x) f) subsets = normalize (One r) f subsets).
Proof.
  intros r f subsets c G.
  assert (I : forall s m, In m (map fst s) -> exists fl, flags_of s m = fl /\ In (m, fl) s).
  { intros s m H. destruct (flags_first s m H) as [k [P _]]. exists (flags_of s m). split; [reflexivity|]. apply nth_error_In in P. exact P. }
  split.
  - intros N H. rewrite !normalize_labelled by exact G. cbn [on_cells f_index]. destruct (forallb _ _); [|reflexivity]. f_equal.
    apply normal_frame_ext; [reflexivity|reflexivity|]. cbv zeta. intros m x _ M.
    set (fl := match subsets with None => (false, false) | Some s => flags_of s m end).
    assert (snd fl = false) as E.
    { subst fl. destruct subsets as [s|]; [|reflexivity]. destruct (I s m M) as [fl [-> J]]. exact (H s m fl eq_refl J). }
    clearbody fl. destruct fl as [inv mag]. cbn [fst snd] in *. subst mag. rewrite !merged_map.
    destruct (merged f r m) as [b|], (merged f x m) as [y|];
      cbn [option_map]; rewrite ?norm_none_l, ?norm_none_r; try reflexivity.
    eapply compared_unique; [apply norm_compared|]. cbn [option_map].
    pose proof (norm_compared inv false (Some b) (Some y)) as C. unfold Compared in *. destruct inv; destruct C as [C1 C2].
    + split.
      * intros [Z|Z]; apply C1; [left|right]; (apply Rmult_integral in Z; destruct Z; [contradiction|assumption]).
      * intros Z Z'. assert (b <> 0) by (intros Q; apply Z; rewrite Q; ring). assert (y <> 0) by (intros Q; apply Z'; rewrite Q; ring).
        rewrite C2 by assumption. f_equal. field. auto.
    + split.
      * intros Z. apply C1. apply Rmult_integral in Z; destruct Z; [contradiction|assumption].
      * intros Z. assert (b <> 0) by (intros Q; apply Z; rewrite Q; ring). rewrite C2 by assumption. f_equal. field. auto.
  - intros s -> H. rewrite !normalize_labelled by exact G. cbn [on_cells f_index]. destruct (forallb _ _); [|reflexivity]. f_equal.
    apply normal_frame_ext; [reflexivity|reflexivity|]. cbv zeta. intros m x _ M.
    destruct (I s m M) as [[inv mag] [-> J]]. specialize (H m _ J). cbn [fst snd] in *. subst mag. rewrite !merged_map.
    destruct (merged f r m) as [b|], (merged f x m) as [y|];
      cbn [option_map]; rewrite ?norm_none_l, ?norm_none_r; try reflexivity.
    eapply compared_unique; [apply norm_compared|]. cbn [option_map].
    pose proof (norm_compared inv true (Some b) (Some y)) as C. unfold Compared in *. destruct inv; rewrite C; f_equal; ring.
Qed.
Print Assumptions C334_units.
