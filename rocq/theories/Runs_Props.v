(** C334: normalising the summary statistics of runs by a baseline. *)
From Coq Require Import String Reals ZArith List Bool Lia Lra Permutation.
From Verif Require Import Base Depth_Model Depth_Proofs Template_Model Template_Spec Template_Proofs Runs_Spec Runs_Model.
Import ListNotations.
Open Scope R_scope.

Lemma mem_in : forall x l, mem x l = true <-> In x l.
Proof.
  intros x l. unfold mem. rewrite existsb_exists. split.
  - intros [y [A B]]. apply String.eqb_eq in B. subst. exact A.
  - intros A. exists x. split; [exact A|apply String.eqb_refl].
Qed.
Lemma mem_not : forall x l, mem x l = false <-> ~ In x l.
Proof. intros x l. rewrite <- mem_in. destruct (mem x l); split; congruence. Qed.

Lemma first_pick : forall {B} (g : B -> cell) x labels vals,
  match first_some (map (fun p => g (snd p)) (filter (fun p => String.eqb (fst p) x) (combine labels vals))) with
  | Some v => exists k b, nth_error labels k = Some x /\ nth_error vals k = Some b /\ g b = Some v
              /\ forall k' b', (k' < k)%nat -> nth_error labels k' = Some x -> nth_error vals k' = Some b' -> g b' = None
  | None => forall k b, nth_error labels k = Some x -> nth_error vals k = Some b -> g b = None
  end.
Proof.
  intros B g x. induction labels as [|a labels IH]; intros vals; [cbn; intros [|k] b H; discriminate|].
  destruct vals as [|w vals]; [cbn; intros [|k] b _ H; discriminate|].
  cbn [combine filter fst]. destruct (String.eqb_spec a x) as [->|N].
  - cbn [map first_some snd]. destruct (g w) as [v|] eqn:G.
    + exists 0%nat, w. repeat split; auto. intros k' b' L. lia.
    + specialize (IH vals).
      destruct (first_some (map (fun p => g (snd p)) (filter (fun p => String.eqb (fst p) x) (combine labels vals)))) as [v|].
      * destruct IH as [k [b [P [Q [S1 T]]]]]. exists (S k), b. repeat split; auto.
        intros [|k'] b' L P' Q'; [cbn in Q'; injection Q' as <-; exact G|cbn in P', Q'; apply (T k' b'); auto; lia].
      * intros [|k] b P Q; cbn in P, Q; [injection Q as <-; exact G|apply (IH k b P Q)].
  - specialize (IH vals).
    destruct (first_some (map (fun p => g (snd p)) (filter (fun p => String.eqb (fst p) x) (combine labels vals)))) as [v|].
    + destruct IH as [k [b [P [Q [S1 T]]]]]. exists (S k), b. repeat split; auto.
      intros [|k'] b' L P' Q'; [cbn in P'; congruence|cbn in P', Q'; apply (T k' b'); auto; lia].
    + intros [|k] b P Q; cbn in P, Q; [congruence|apply (IH k b P Q)].
Qed.

Lemma row_pick : forall cols row m,
  match merged_row cols row m with
  | Some v => exists k b, nth_error cols k = Some m /\ nth_error row k = Some b /\ b = Some v
              /\ forall k' b', (k' < k)%nat -> nth_error cols k' = Some m -> nth_error row k' = Some b' -> b' = None
  | None => forall k b, nth_error cols k = Some m -> nth_error row k = Some b -> b = None
  end.
Proof. intros cols row m. exact (first_pick (fun c : cell => c) m cols row). Qed.

Lemma merged_stands : forall f r m, Stands (f_index f) (f_cols f) (f_cells f) r m (merged f r m).
Proof.
  intros f r m. unfold Stands, merged.
  pose proof (first_pick (fun row => merged_row (f_cols f) row m) r (f_index f) (f_cells f)) as H.
  destruct (first_some _) as [x|].
  - destruct H as [i [row [A [B [C D]]]]]. cbv beta in C.
    pose proof (row_pick (f_cols f) row m) as H. rewrite C in H.
    destruct H as [j [b [E [F [G I]]]]]. subst b. exists i, j. split; [exact A|split; [exact E|split; [exists row; auto|split]]].
    + intros j' L M v' [row' [R1 R2]]. unfold cell in *. rewrite B in R1. injection R1 as <-. exact (I j' v' L M R2).
    + intros i' L M j' v' N [row' [R1 R2]]. specialize (D i' row' L M R1). cbv beta in D.
      pose proof (row_pick (f_cols f) row' m) as H. rewrite D in H. exact (H j' v' N R2).
  - intros i j v' A B [row [C D]]. specialize (H i row A C). cbv beta in H.
    pose proof (row_pick (f_cols f) row m) as K. rewrite H in K. exact (K j v' B D).
Qed.
(** the value that stands is unique *)
Lemma stands_unique : forall index cols cells r m v w, Stands index cols cells r m v -> Stands index cols cells r m w -> v = w.
Proof.
  intros index cols cells r m [x|] [y|] A B; cbn in A, B; auto.
  - destruct A as [i [j [A1 [A2 [A3 [A4 A5]]]]]], B as [i' [j' [B1 [B2 [B3 [B4 B5]]]]]].
    destruct (Nat.lt_trichotomy i i') as [L|[->|L]].
    + specialize (B5 i L A1 j (Some x) A2 A3). discriminate.
    + destruct (Nat.lt_trichotomy j j') as [L|[->|L]].
      * specialize (B4 j L A2 (Some x) A3). discriminate.
      * destruct A3 as [row [P Q]], B3 as [row' [P' Q']]. congruence.
      * specialize (A4 j' L B2 (Some y) B3). discriminate.
    + specialize (A5 i' L B1 j' (Some y) B2 B3). discriminate.
  - destruct A as [i [j [A1 [A2 [A3 _]]]]]. specialize (B i j (Some x) A1 A2 A3). discriminate.
  - destruct B as [i [j [A1 [A2 [A3 _]]]]]. specialize (A i j (Some y) A1 A2 A3). discriminate.
Qed.
(** with distinct labels it is the cell *)
Lemma stands_cell : forall index cols cells r m i j v, NoDup index -> NoDup cols -> nth_error index i = Some r -> nth_error cols j = Some m -> At cells i j v ->
  Stands index cols cells r m v.
Proof.
  intros index cols cells r m i j v N1 N2 A B C.
  assert (U1 : forall i', nth_error index i' = Some r -> i' = i).
  { intros i' H. apply (proj1 (NoDup_nth_error index) N1); [apply nth_error_Some; congruence|congruence]. }
  assert (U2 : forall j', nth_error cols j' = Some m -> j' = j).
  { intros j' H. apply (proj1 (NoDup_nth_error cols) N2); [apply nth_error_Some; congruence|congruence]. }
  destruct v as [x|]; cbn.
  - exists i, j. repeat split; auto.
    + intros j' L M. specialize (U2 _ M). lia.
    + intros i' L M. specialize (U1 _ M). lia.
  - intros i' j' v' P Q R. rewrite (U1 _ P), (U2 _ Q) in R. destruct R as [row [R1 R2]], C as [row' [C1 C2]]. congruence.
Qed.

Lemma norm_compared : forall inv mag b x, Compared inv mag b x (norm_cell inv mag b x).
Proof.
  intros inv mag [b|] [x|]; unfold Compared, norm_cell, prepared;
    [|destruct inv, mag; cbn; try reflexivity; repeat (destruct (Req_EM_T _ _); cbn); reflexivity ..].
  destruct inv, mag; cbn [andb c_sub c_add c_div].
  - destruct (Req_EM_T (1 - (b - b)) 0) as [E|E]; [lra|]. f_equal. field. exact E.
  - destruct (Req_EM_T x 0) as [X|X], (Req_EM_T b 0) as [B|B]; cbn; try (split; [reflexivity|intros; congruence]).
    destruct (Req_EM_T (1 / b) 0) as [E|E].
    + exfalso. pose proof (Rinv_neq_0_compat b B) as H. unfold Rdiv in E. lra.
    + split; [tauto|]. intros _ _. f_equal. field. auto.
  - destruct (Req_EM_T (1 + (b - b)) 0) as [E|E]; [lra|]. f_equal. field. exact E.
  - destruct (Req_EM_T b 0) as [B|B]; cbn; (split; [|]); intros; try congruence; try reflexivity. f_equal. field. exact B.
Qed.
Lemma compared_unique : forall inv mag b x v w, Compared inv mag b x v -> Compared inv mag b x w -> v = w.
Proof.
  intros inv mag [b|] [x|] v w; unfold Compared; [|congruence..]. destruct inv, mag; intros A B; try congruence.
  - destruct A as [A1 A2], B as [B1 B2]. destruct (Req_EM_T b 0) as [E|E]; [rewrite A1, B1 by auto; reflexivity|].
    destruct (Req_EM_T x 0) as [E'|E']; [rewrite A1, B1 by auto; reflexivity|]. rewrite A2, B2 by auto. reflexivity.
  - destruct A as [A1 A2], B as [B1 B2]. destruct (Req_EM_T b 0) as [E|E]; [rewrite A1, B1 by auto|rewrite A2, B2 by auto]; reflexivity.
Qed.

Lemma filter_sub : forall {A} (f : A -> bool) (P : A -> Prop) l, (forall x, f x = true <-> P x) -> Sub P l (filter f l).
Proof.
  intros A f P l H. induction l as [|x t IH]; cbn; [constructor|]. destruct (f x) eqn:E; constructor; auto.
  - apply H. exact E.
  - intros Q. apply H in Q. congruence.
Qed.
Lemma sub_all : forall {A} (P : A -> Prop) l, (forall x, In x l -> P x) -> Sub P l l.
Proof. induction l as [|x t IH]; intros H; constructor; [apply H; left; reflexivity|apply IH; intros; apply H; right; assumption]. Qed.

Lemma nth_error_map' : forall {A B} (g : A -> B) l k, nth_error (map g l) k = option_map g (nth_error l k).
Proof. induction l as [|x t IH]; intros [|k]; cbn; auto. Qed.

Lemma flags_first : forall s m, In m (map fst s) -> FlagsAre s m (flags_of s m).
Proof.
  intros s m. unfold flags_of, FlagsAre. induction s as [|[a fl] t IH]; cbn [map fst In dget]; intros H; [contradiction|].
  destruct (String.eqb_spec m a) as [->|N].
  - exists 0%nat. split; [reflexivity|]. intros j fl' L. lia.
  - destruct H as [E|H]; [congruence|]. destruct (IH H) as [k [P Q]]. exists (S k). split; [exact P|].
    intros [|j] fl' L; cbn; [congruence|apply Q; lia].
Qed.

Definition normal_frame (b : baseline) (f : frame) (subsets : option (list (string * (bool * bool)))) : frame :=
  let used := match subsets with None => f_cols f | Some s => filter (fun m => mem m (map fst s)) (f_cols f) end in
  {| f_iname := Some "run"%string; f_cname := Some "metric"%string; f_index := f_index f; f_cols := used;
     f_cells := map (fun r => map (fun m => let fl := match subsets with None => (false, false) | Some s => flags_of s m end in
                                            norm_cell (fst fl) (snd fl) (base_value f b m) (merged f r m)) used) (f_index f) |}.
Lemma normalize_labelled : forall b f subsets, Labelled (f_iname f) (f_cname f) ->
  normalize b f subsets =
  if forallb (fun r => mem r (f_index f)) (match b with One r => [r] | Many rs => rs end) then Ok (normal_frame b f subsets) else Err KeyError.
Proof.
  intros b f subsets [C I]. unfold normalize.
  assert (O : oriented f = f) by (unfold oriented; destruct C as [->| ->], I as [->|[->|[->| ->]]]; reflexivity).
  rewrite O. destruct C as [->| ->], I as [->|[->|[->| ->]]]; reflexivity.
Qed.

(** C334: the table returned has the runs of the table given in their order and those of its metrics that the subsets list (all of
    them without subsets), and each cell compares the value that stands for its run and metric with the baseline's, in the way the
    first row of the subsets about the metric says (a plain ratio without subsets). *)
Section Value.
Variables (b : baseline) (summary : frame) (subsets : option (list (string * (bool * bool)))) (out : frame).
Theorem C334_value :
  Labelled (f_iname summary) (f_cname summary) ->
  normalize b summary subsets = Ok out ->
  f_index out = f_index summary
  /\ Sub (fun m => match subsets with None => True | Some s => In m (map fst s) end) (f_cols summary) (f_cols out)
  /\ forall i j r m, nth_error (f_index out) i = Some r -> nth_error (f_cols out) j = Some m ->
       exists fl bv x v, match subsets with None => fl = (false, false) | Some s => FlagsAre s m fl end
         /\ Stands (f_index summary) (f_cols summary) (f_cells summary) r m x
         /\ match b with
            | One r0 => Stands (f_index summary) (f_cols summary) (f_cells summary) r0 m bv
            | Many rs => exists vs, Forall2 (fun r0 w => Stands (f_index summary) (f_cols summary) (f_cells summary) r0 m w) rs vs
                         /\ match bv with
                            | Some y => exists ys, ys <> [] /\ Permutation vs (map Some ys ++ repeat None (length vs - length ys)) /\ Percentile 50 ys y
                            | None => forall w, In w vs -> w = None
                            end
            end
         /\ Compared (fst fl) (snd fl) bv x v /\ At (f_cells out) i j v.
Proof.
  intros G H. rewrite (normalize_labelled b summary subsets G) in H.
  destruct (forallb _ _); [|discriminate]. injection H as <-. unfold normal_frame. cbn [f_index f_cols f_cells].
  split; [reflexivity|]. split.
  { destruct subsets as [s|]; [apply filter_sub; intros x; apply mem_in|apply sub_all; trivial]. }
  intros i j r m A B.
  set (fl := match subsets with None => (false, false) | Some s => flags_of s m end).
  exists fl, (base_value summary b m), (merged summary r m), (norm_cell (fst fl) (snd fl) (base_value summary b m) (merged summary r m)).
  split; [|split; [apply merged_stands|split; [|split; [apply norm_compared|]]]].
  - subst fl. destruct subsets as [s|]; [|reflexivity]. apply flags_first.
    apply nth_error_In in B. apply filter_In in B. apply mem_in. apply B.
  - unfold base_value. destruct b as [r0|rs]; [apply merged_stands|].
    exists (map (fun r0 => merged summary r0 m) rs). split.
    { clear. induction rs as [|r0 t IH]; cbn; constructor; [apply merged_stands|exact IH]. }
    set (vs := map (fun r0 => merged summary r0 m) rs). clearbody vs. clear.
    assert (P : Permutation vs (map Some (numbers vs) ++ repeat None (length vs - length (numbers vs))) /\ (length (numbers vs) <= length vs)%nat).
    { induction vs as [|[y|] t [IH L]]; cbn [numbers flat_map app map length].
      - split; [constructor|lia].
      - fold (numbers t). cbn [Nat.sub]. split; [apply perm_skip; exact IH|lia].
      - fold (numbers t). rewrite Nat.sub_succ_l by exact L. cbn [repeat]. split; [|lia]. apply Permutation_cons_app. exact IH. }
    destruct P as [P L]. destruct (numbers vs) as [|y ys] eqn:E.
    + intros w W. pose proof (Permutation_in _ P W) as Q. cbn in Q. apply repeat_spec in Q. exact Q.
    + exists (y :: ys). split; [discriminate|]. split; [exact P|]. apply percentile_is; [discriminate|lra].
  - exists (map (fun m0 => let fl0 := match subsets with None => (false, false) | Some s => flags_of s m0 end in
                           norm_cell (fst fl0) (snd fl0) (base_value summary b m0) (merged summary r m0))
                (match subsets with None => f_cols summary | Some s => filter (fun m0 => mem m0 (map fst s)) (f_cols summary) end)).
    split.
    + rewrite nth_error_map', A. reflexivity.
    + rewrite nth_error_map', B. reflexivity.
Qed.
End Value.
Print Assumptions C334_value.
