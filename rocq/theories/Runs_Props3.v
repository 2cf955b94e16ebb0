(** C334, continued: orientation, renormalising, baselines that are lists.  C335: normalize_for_radar. *)
From Coq Require Import String Reals ZArith List Bool Lia Lra Permutation.
From Verif Require Import Base Depth_Model Depth_Proofs Template_Model Template_Spec Template_Proofs Runs_Spec Runs_Model Runs_Props Runs_Props2.
Import ListNotations.
Open Scope R_scope.

(** a rectangular table *)
Definition Rect (f : frame) : Prop := length (f_cells f) = length (f_index f) /\ forall row, In row (f_cells f) -> length row = length (f_cols f).
Lemma seq_nth_list : forall {A} (l : list A) d, map (fun j => nth j l d) (seq 0 (length l)) = l.
Proof.
  intros A l d. apply nth_ext with (d := d) (d' := d); rewrite map_length, seq_length; [reflexivity|].
  intros n L. rewrite (nth_indep _ d (nth 0 l d)) by (rewrite map_length, seq_length; exact L).
  change (nth 0 l d) with ((fun j => nth j l d) 0%nat). rewrite map_nth. rewrite seq_nth by exact L. reflexivity.
Qed.
Lemma transpose_twice : forall f, Rect f -> transpose (length (f_index f)) (transpose (length (f_cols f)) (f_cells f)) = f_cells f.
Proof.
  intros f [L W]. unfold transpose. rewrite <- L.
  transitivity (map (fun i => nth i (f_cells f) []) (seq 0 (length (f_cells f)))); [|apply seq_nth_list].
  apply map_ext_in. intros i I. apply in_seq in I. rewrite map_map.
  assert (R1 : In (nth i (f_cells f) []) (f_cells f)) by (apply nth_In; lia).
  transitivity (map (fun j => nth j (nth i (f_cells f) []) None) (seq 0 (length (f_cols f)))).
  - apply map_ext. intros j. rewrite (nth_indep (map (fun row : list cell => nth j row None) (f_cells f)) None (nth j [] None)) by (rewrite map_length; lia).
    exact (map_nth (fun row : list cell => nth j row None) (f_cells f) [] i).
  - rewrite <- (W _ R1). apply seq_nth_list.
Qed.
(** C334: a table with metrics as rows and runs as columns gives the same result, provided that one of its axes is labelled. *)
Theorem C334_transposed : forall b f g subsets, Labelled (f_iname f) (f_cname f) -> Rect f ->
  (f_iname f <> None \/ f_cname f <> None) ->
  f_iname g = f_cname f -> f_cname g = f_iname f -> f_index g = f_cols f -> f_cols g = f_index f ->
  length (f_cells g) = length (f_index g) -> (forall row, In row (f_cells g) -> length row = length (f_cols g)) ->
  (forall i j v, At (f_cells g) j i v <-> At (f_cells f) i j v) ->
  normalize b g subsets = normalize b f subsets.
Proof.
  intros b f g subsets G Rf N E1 E2 E3 E4 Lg Wg T.
  assert (C : f_cells g = transpose (length (f_cols f)) (f_cells f)).
  { unfold transpose. apply nth_ext with (d := []) (d' := []); [rewrite map_length, seq_length; congruence|].
    intros j L. rewrite (nth_indep (map _ _) [] (map (fun row : list cell => nth 0 row None) (f_cells f))) by (rewrite map_length, seq_length; congruence).
    pose proof (map_nth (fun j0 => map (fun row : list cell => nth j0 row None) (f_cells f)) (seq 0 (length (f_cols f))) 0%nat j) as M. cbv beta in M.
    etransitivity; [|symmetry; exact M]. rewrite seq_nth by congruence. cbn [Nat.add].
    assert (R1 : In (nth j (f_cells g) []) (f_cells g)) by (apply nth_In; exact L).
    destruct Rf as [Lf Wf].
    apply nth_ext with (d := None) (d' := None); [rewrite map_length, (Wg _ R1); congruence|].
    intros i Li. rewrite (Wg _ R1), E4 in Li.
    pose proof (map_nth (fun row : list cell => nth j row None) (f_cells f) [] i) as M'. cbv beta in M'.
    pose proof (nth_indep (map (fun row : list cell => nth j row None) (f_cells f)) None (nth j [] None) (n := i)) as M2.
    rewrite map_length in M2. etransitivity; [|symmetry; etransitivity; [apply M2; lia|exact M']].
    assert (A : At (f_cells g) j i (nth i (nth j (f_cells g) []) None)).
    { exists (nth j (f_cells g) []). split; [apply nth_error_nth'; exact L|apply nth_error_nth'; rewrite (Wg _ R1); congruence]. }
    apply T in A. destruct A as [row [P Q]]. rewrite (nth_error_nth (f_cells f) i [] P). symmetry. exact (nth_error_nth row j None Q). }
  assert (F : g = flip_frame f).
  { unfold flip_frame. destruct g as [a c d e h]. cbn in *. congruence. }
  assert (O : oriented g = oriented f).
  { transitivity f.
    - unfold oriented. rewrite E1, E2.
      assert (named (f_iname f) run_col_names || named (f_cname f) metric_col_names = true) as ->.
      { destruct G as [[A|A] [B|[B|[B|B]]]]; rewrite A, B; try reflexivity. destruct N as [N|N]; congruence. }
      rewrite F. unfold flip_frame. cbn [f_iname f_cname f_index f_cols f_cells]. rewrite (transpose_twice f Rf). destruct f; reflexivity.
    - unfold oriented. destruct G as [[->| ->] [->|[->|[->| ->]]]]; reflexivity. }
  unfold normalize. rewrite O. reflexivity.
Qed.
Print Assumptions C334_transposed.

Lemma first_some_const : forall {A} (g : A -> cell) l v, l <> [] -> (forall x, In x l -> g x = v) -> first_some (map g l) = v.
Proof.
  intros A g l v N H. induction l as [|x t IH]; [congruence|]. cbn. rewrite (H x (or_introl eq_refl)).
  destruct v as [y|]; [reflexivity|]. destruct t as [|z t]; [reflexivity|]. apply IH; [discriminate|]. intros w W. apply H. right. exact W.
Qed.
Lemma table_merged : forall i c (g : string -> string -> cell) index cols r m, In r index -> In m cols ->
  merged {| f_iname := i; f_cname := c; f_index := index; f_cols := cols; f_cells := map (fun r => map (g r) cols) index |} r m = g r m.
Proof.
  intros i c g index cols r m R M. unfold merged. cbn [f_index f_cols f_cells].
  assert (Q : forall {B} (k : string -> B) l, combine l (map k l) = map (fun x => (x, k x)) l) by (intros B k l; induction l as [|x t IH]; cbn; f_equal; auto).
  rewrite Q. apply first_some_const.
  - intros E. assert (In (r, map (g r) cols) []) as []. rewrite <- E. apply filter_In. split; [apply (in_map (fun x => (x, map (g x) cols))); exact R|apply String.eqb_refl].
  - intros [a row] P. apply filter_In in P. destruct P as [P1 P2]. apply in_map_iff in P1. destruct P1 as [a' [P1 _]]. injection P1 as -> <-.
    cbn in P2. apply String.eqb_eq in P2. subst a. cbn [snd]. unfold merged_row. rewrite Q. apply first_some_const.
    + intros E. assert (In (m, g r m) []) as []. rewrite <- E. apply filter_In. split; [apply (in_map (fun x => (x, g r x))); exact M|apply String.eqb_refl].
    + intros [a v] P. apply filter_In in P. destruct P as [P1 P3]. apply in_map_iff in P1. destruct P1 as [a' [P1 _]]. injection P1 as -> <-.
      cbn in P3. apply String.eqb_eq in P3. subst a. reflexivity.
Qed.
(** C334: the result is already normalised: taking it as a table and normalising it by the same run changes nothing. *)
Theorem C334_again : forall r f subsets out, Labelled (f_iname f) (f_cname f) -> normalize (One r) f subsets = Ok out -> normalize (One r) out None = Ok out.
Proof.
  intros r f subsets out G H. rewrite (normalize_labelled _ _ _ G) in H. destruct (forallb _ _) eqn:F; [|discriminate]. injection H as <-.
  rewrite normalize_labelled by (split; [right; reflexivity|right; left; reflexivity]).
  change (f_index (normal_frame (One r) f subsets)) with (f_index f). rewrite F. f_equal.
  cbn [forallb] in F. rewrite andb_true_r in F. apply mem_in in F.
  set (used := match subsets with None => f_cols f | Some s => filter (fun m => mem m (map fst s)) (f_cols f) end).
  set (g := fun x m => let fl := match subsets with None => (false, false) | Some s => flags_of s m end in
                       norm_cell (fst fl) (snd fl) (base_value f (One r) m) (merged f x m)).
  assert (E : normal_frame (One r) f subsets = {| f_iname := Some "run"%string; f_cname := Some "metric"%string; f_index := f_index f; f_cols := used;
                                                 f_cells := map (fun x => map (g x) used) (f_index f) |}) by reflexivity.
  rewrite E. unfold normal_frame at 1. cbn [f_index f_cols]. f_equal.
  apply map_ext_in. intros x X. apply map_ext_in. intros m M. cbv zeta. cbn [fst snd base_value].
  rewrite !table_merged by assumption. subst g. cbv beta zeta. cbn [base_value].
  set (fl := match subsets with None => (false, false) | Some s => flags_of s m end). clearbody fl. destruct fl as [inv mag]. cbn [fst snd]. clear.
  destruct (merged f r m) as [b|]; [|rewrite !norm_none_l; reflexivity].
  destruct (merged f x m) as [y|]; [|rewrite !norm_none_r; reflexivity].
  pose proof (norm_compared inv mag (Some b) (Some b)) as A. pose proof (norm_compared inv mag (Some b) (Some y)) as B. unfold Compared in A, B.
  assert (Q : forall v, norm_cell false false (Some 1) (Some v) = Some v).
  { intros v. pose proof (norm_compared false false (Some 1) (Some v)) as [_ C]. rewrite C by lra. f_equal. field. }
  destruct inv, mag.
  - rewrite A, B. replace (1 - (b - b)) with 1 by ring. apply Q.
  - destruct A as [A1 A2], B as [B1 B2]. destruct (Req_EM_T b 0) as [Z|Z].
    + rewrite A1, B1 by auto. rewrite norm_none_l. reflexivity.
    + rewrite A2 by assumption. destruct (Req_EM_T y 0) as [Z'|Z']; [rewrite B1 by auto; rewrite norm_none_r; reflexivity|].
      rewrite B2 by assumption. replace (b / b) with 1 by (field; exact Z). apply Q.
  - rewrite A, B. replace (1 + (b - b)) with 1 by ring. apply Q.
  - destruct A as [A1 A2], B as [B1 B2]. destruct (Req_EM_T b 0) as [Z|Z].
    + rewrite A1, B1 by auto. rewrite norm_none_l. reflexivity.
    + rewrite A2, B2 by assumption. replace (b / b) with 1 by (field; exact Z). apply Q.
Qed.
Print Assumptions C334_again.

Lemma percentile_one : forall x p, 0 <= p <= 100 -> percentile [x] p = x.
Proof.
  intros x p P. apply (percentile_unique p [x]); [apply percentile_is; [discriminate|exact P]|].
  exists [x], 0%nat, 0, x, x. cbn [length Nat.sub INR nth_error]. repeat split; auto; try lra. repeat constructor.
Qed.
Lemma numbers_perm : forall l m, Permutation l m -> Permutation (numbers l) (numbers m).
Proof. intros l m P. unfold numbers. apply Permutation_flat_map. exact P. Qed.
(** C334: a baseline of one run in a list is that run, and the order of a list does not matter. *)
Theorem C334_list : forall f subsets r rs rs', Labelled (f_iname f) (f_cname f) ->
  normalize (Many [r]) f subsets = normalize (One r) f subsets
  /\ (Permutation rs rs' -> normalize (Many rs) f subsets = normalize (Many rs') f subsets).
Proof.
  intros f subsets r rs rs' G.
  assert (X : forall b b', (forall m, base_value f b m = base_value f b' m) -> normal_frame b f subsets = normal_frame b' f subsets).
  { intros b b' H. unfold normal_frame. f_equal. apply map_ext. intros x. apply map_ext. intros m. cbv zeta. rewrite H. reflexivity. }
  split.
  - rewrite !normalize_labelled by exact G. destruct (forallb _ _); [|reflexivity]. f_equal. apply X. intros m. cbn [base_value map].
    destruct (merged f r m) as [x|]; cbn [numbers flat_map app]; [|reflexivity]. f_equal. apply percentile_one. lra.
  - intros P. rewrite !normalize_labelled by exact G.
    replace (forallb (fun x => mem x (f_index f)) rs') with (forallb (fun x => mem x (f_index f)) rs).
    + destruct (forallb _ _); [|reflexivity]. f_equal. apply X. intros m. cbn [base_value].
      pose proof (numbers_perm _ _ (Permutation_map (fun r => merged f r m) P)) as Q.
      destruct (numbers (map (fun r0 => merged f r0 m) rs)) as [|a l] eqn:E.
      * apply Permutation_nil in Q. rewrite Q. reflexivity.
      * destruct (numbers (map (fun r0 => merged f r0 m) rs')) as [|a' l'] eqn:E'; [symmetry in Q; apply Permutation_nil in Q; discriminate|].
        f_equal. apply percentile_perm. exact Q.
    + destruct (forallb (fun x => mem x (f_index f)) rs') eqn:A.
      * rewrite forallb_forall in A. apply forallb_forall. intros x I. apply A. apply (Permutation_in _ P I).
      * destruct (forallb (fun x => mem x (f_index f)) rs) eqn:B; [|reflexivity]. rewrite forallb_forall in B.
        rewrite <- A. symmetry. apply forallb_forall. intros x I. apply B. apply (Permutation_in _ (Permutation_sym P) I).
Qed.
Print Assumptions C334_list.

(** depth (magnitudes), uncertainty (inverted) and a count, of a baseline and another run; the count occurs twice, first without a value *)
Definition ex_table : frame :=
  {| f_iname := Some "OpsimRun"%string; f_cname := None; f_index := ["base"; "v2"]%string; f_cols := ["count"; "depth"; "sigma"; "count"]%string;
     f_cells := [[None; Some 26; Some 4; Some 10]; [Some 12; Some (261/10); Some 2; Some 99]] |}.
Example C334_case : Labelled (f_iname ex_table) (f_cname ex_table) /\ Rect ex_table
  /\ Stands (f_index ex_table) (f_cols ex_table) (f_cells ex_table) "base"%string "count"%string (Some 10)
  /\ Stands (f_index ex_table) (f_cols ex_table) (f_cells ex_table) "v2"%string "count"%string (Some 12)
  /\ Compared false false (Some 10) (Some 12) (Some (12/10)) /\ Compared true false (Some 4) (Some 2) (Some 2) /\ Compared false true (Some 26) (Some (261/10)) (Some (11/10)).
Proof.
  split; [split; [left; reflexivity|right; right; left; reflexivity]|]. split; [split; [reflexivity|]; cbn; intros row [<-|[<-|[]]]; reflexivity|].
  split; [exact (merged_stands ex_table "base" "count")|]. split; [exact (merged_stands ex_table "v2" "count")|].
  split; [split; [lra|reflexivity]|]. split; [split; [lra|intros; f_equal; lra]|]. cbn. f_equal. lra.
Qed.
