(** Lemmas on the model of the uniformity of the self-calibration. *)
From Coq Require Import String.
From Verif Require Import Base Uniform_Model Uniform_Spec.
From Verif Require Plane_Spec Template_Spec Template_Model Template_Proofs Small_Model Small_Proofs.
From Coq Require Import Reals Lra Lia List Permutation Sorted.
Import ListNotations.
Open Scope R_scope.

(** *** matching *)
Lemma search_before s x j : (j < searchsorted s x)%nat -> exists y, nth_error s j = Some y /\ (y < x)%Z.
Proof.
  revert j. induction s as [|y s IH]; intros j H; cbn in H; [lia|]. destruct (Z.ltb_spec y x) as [L|L]; [|lia].
  destruct j as [|j]; cbn; [exists y; auto|]. apply IH. lia.
Qed.
Lemma search_le s x : (searchsorted s x <= length s)%nat.
Proof. induction s as [|y s IH]; cbn; [lia|]. destruct (y <? x)%Z; lia. Qed.
Lemma search_at s x y : nth_error s (searchsorted s x) = Some y -> (x <= y)%Z.
Proof. induction s as [|z s IH]; cbn; [discriminate|]. destruct (Z.ltb_spec z x) as [L|L]; cbn; [exact IH|]. intros H. injection H as <-. exact L. Qed.
Lemma sorted_nth s i j a b : StronglySorted Z.le s -> (i <= j)%nat -> nth_error s i = Some a -> nth_error s j = Some b -> (a <= b)%Z.
Proof.
  intros S. revert i j. induction S as [|x s S IH F]; intros i j L A B; [destruct i; discriminate|].
  destruct i as [|i], j as [|j]; cbn in A, B; try lia.
  - injection A as <-. injection B as <-. lia.
  - injection A as <-. apply nth_error_In in B. rewrite Forall_forall in F. apply F, B.
  - apply (IH i j); [lia|exact A|exact B].
Qed.
Lemma search_found s x : StronglySorted Z.le s -> In x s -> nth_error s (searchsorted s x) = Some x.
Proof.
  intros S I. apply In_nth_error in I. destruct I as (j & J).
  assert (K : (searchsorted s x <= j)%nat).
  { destruct (Nat.le_gt_cases (searchsorted s x) j) as [L|L]; [exact L|]. destruct (search_before s x j L) as (y & Y & C). rewrite Y in J. injection J as ->. lia. }
  assert (LT : (searchsorted s x < length s)%nat) by (eapply Nat.le_lt_trans; [exact K|]; apply nth_error_Some; congruence).
  destruct (nth_error s (searchsorted s x)) as [y|] eqn:E; [|apply nth_error_None in E; lia].
  f_equal. apply Z.le_antisymm; [apply (sorted_nth s (searchsorted s x) j); assumption|]. eapply search_at, E.
Qed.
Lemma argsort_in a st x : Argsort a st -> In x (map (fun i => nth i a 0%Z) st) <-> In x a.
Proof.
  intros (P & _). rewrite in_map_iff. split.
  - intros (i & <- & I). apply (Permutation_in _ P) in I. apply in_seq in I. apply nth_In. lia.
  - intros I. apply (In_nth _ _ 0%Z) in I. destruct I as (i & L & E). exists i. split; [exact E|]. apply (Permutation_in _ (Permutation_sym P)), in_seq. lia.
Qed.
Lemma zmax_ge l m : zmax l = Ok m -> In m l /\ forall x, In x l -> (x <= m)%Z.
Proof.
  destruct l as [|h t]; [discriminate|]. cbn. intros H. injection H as <-. revert h. induction t as [|y t IH]; intros h; cbn.
  - split; [left; reflexivity|]. intros x [<-|[]]; lia.
  - destruct (IH (Z.max h y)) as (A & B). split.
    + destruct A as [A|A]; [|right; right; exact A]. rewrite <- A. destruct (Z.max_spec h y) as [[_ ->]|[_ ->]]; [right; left|left]; reflexivity.
    + intros x [<-|[<-|X]]; [|  |apply B; right; exact X]; (etransitivity; [|apply B; left; reflexivity]); lia.
Qed.
Lemma place_spec a st clamp x : Argsort a st -> a <> [] -> (clamp = false -> exists y, In y a /\ (x <= y)%Z) ->
  exists p, place a st clamp x = Ok p /\ match p with Some i => nth_error a i = Some x | None => ~ In x a end.
Proof.
  intros AS NE C. unfold place. set (s := map (fun i => nth i a 0%Z) st). set (k0 := searchsorted s x).
  assert (LS : length st = length a) by (destruct AS as (P & _); rewrite (Permutation_length P), seq_length; reflexivity).
  assert (LSS : length s = length a) by (unfold s; rewrite map_length; exact LS).
  assert (LA : (0 < length a)%nat) by (destruct a; [congruence|cbn; lia]).
  set (k := if clamp && (k0 =? length a)%nat then (length a - 1)%nat else k0).
  assert (LK : (k < length a)%nat).
  { unfold k. pose proof (search_le s x) as L. fold k0 in L. rewrite LSS in L. destruct (Nat.eqb_spec k0 (length a)) as [E|E].
    - destruct clamp; cbn [andb]; [lia|]. destruct (C eq_refl) as (y & IY & LY). exfalso.
      apply (argsort_in a st y AS) in IY. apply In_nth_error in IY. destruct IY as (j & J).
      assert (JL : (j < k0)%nat) by (rewrite E, <- LSS; apply nth_error_Some; unfold s; congruence).
      destruct (search_before s x j JL) as (z & Z1 & Z2). unfold s in Z1. rewrite J in Z1. injection Z1 as <-. lia.
    - rewrite Bool.andb_false_r. lia. }
  destruct (nth_error st k) as [i|] eqn:NI; [|apply nth_error_None in NI; lia].
  assert (GI : arr_get st k = Ok i) by (unfold arr_get; rewrite NI; reflexivity). rewrite GI. cbn [bind].
  assert (LI : (i < length a)%nat).
  { destruct AS as (P & _). apply nth_error_In in NI. apply (Permutation_in _ P), in_seq in NI. lia. }
  destruct (nth_error a i) as [y|] eqn:NA; [|apply nth_error_None in NA; lia].
  assert (GA : arr_get a i = Ok y) by (unfold arr_get; rewrite NA; reflexivity). rewrite GA. cbn [bind].
  eexists. split; [reflexivity|]. destruct (Z.eqb_spec y x) as [->|NX]; [exact NA|]. intros IX.
  apply (argsort_in a st x AS) in IX. pose proof (search_found s x (proj2 AS) IX) as F. fold k0 in F.
  assert (K : k = k0).
  { unfold k. assert (L : (k0 < length a)%nat) by (rewrite <- LSS; apply nth_error_Some; congruence).
    destruct (Nat.eqb_spec k0 (length a)); [lia|]. rewrite Bool.andb_false_r. reflexivity. }
  rewrite K in NI. unfold s in F. rewrite nth_error_map, NI in F. cbn in F. injection F as F. apply NX. rewrite <- F. symmetry. apply nth_error_nth, NA.
Qed.
Lemma matches_spec a st clamp : Argsort a st -> a <> [] -> forall l from, (clamp = false -> exists y, In y a /\ forall x, In x l -> (x <= y)%Z) ->
  exists r, matches a st clamp from l = Ok r /\
    (forall i j, In (i, j) r -> (from <= j)%nat /\ exists x, nth_error a i = Some x /\ nth_error l (j - from) = Some x) /\
    (forall j x, nth_error l j = Some x -> In x a -> exists i, In (i, from + j)%nat r) /\ StronglySorted lt (map snd r).
Proof.
  intros AS NE. induction l as [|x l IH]; intros from C.
  - exists []. split; [reflexivity|]. split; [contradiction|]. split; [intros [|j]; discriminate|constructor].
  - cbn [matches]. destruct (place_spec a st clamp x AS NE) as (p & E & P).
    { intros F. destruct (C F) as (y & IY & L). exists y. split; [exact IY|]. apply L. left; reflexivity. }
    rewrite E. cbn [bind]. destruct (IH (S from)) as (r & R & A & B & SS).
    { intros F. destruct (C F) as (y & IY & L). exists y. split; [exact IY|]. intros z Z. apply L. right; exact Z. }
    rewrite R. cbn [bind]. eexists. split; [reflexivity|].
    assert (A' : forall i j, In (i, j) r -> (from <= j)%nat /\ exists x0, nth_error a i = Some x0 /\ nth_error (x :: l) (j - from) = Some x0).
    { intros i j I. destruct (A i j I) as (L & y & Y & Z). split; [lia|]. exists y. split; [exact Y|]. replace (j - from)%nat with (S (j - S from)) by lia. exact Z. }
    assert (B' : forall j y, nth_error l j = Some y -> In y a -> exists i, In (i, from + S j)%nat r).
    { intros j y J I. destruct (B j y J I) as (i & II). exists i. replace (from + S j)%nat with (S from + j)%nat by lia. exact II. }
    destruct p as [i|]; (split; [|split]).
    + intros i' j [I|I]; [|apply A', I]. injection I as <- <-. split; [lia|]. exists x. rewrite Nat.sub_diag. split; [exact P|reflexivity].
    + intros [|j] y J I; [exists i; left; f_equal; lia|]. destruct (B' j y J I) as (i' & II). exists i'. right. exact II.
    + cbn [map snd]. constructor; [exact SS|]. apply Forall_forall. intros j J. apply in_map_iff in J. destruct J as ((i' & j') & <- & J). cbn. apply A in J. lia.
    + exact A'.
    + intros [|j] y J I; [|apply B' with (y := y); assumption]. cbn in J. injection J as <-. contradiction.
    + exact SS.
Qed.

(** *** medians *)
Lemma med_is l : l <> [] -> Median l (med l).
Proof. intros N. apply Template_Proofs.percentile_is; [exact N|lra]. Qed.
Lemma median_unique l a b : Median l a -> Median l b -> a = b.
Proof. apply Template_Proofs.percentile_unique. Qed.
Lemma sorted_affine a c s : 0 < a -> StronglySorted Rle s -> StronglySorted Rle (map (fun x => a * x + c) s).
Proof.
  intros PA S. induction S as [|x s S IH F]; [constructor|]. cbn. constructor; [exact IH|]. rewrite Forall_forall in *. intros y Y.
  apply in_map_iff in Y. destruct Y as (z & <- & Z). specialize (F z Z). apply Rplus_le_compat_r, Rmult_le_compat_l; lra.
Qed.
Lemma median_affine a c l m : 0 < a -> Median l m -> Median (map (fun x => a * x + c) l) (a * m + c).
Proof.
  intros PA (s & i & f & u & v & P & S & E & F & U & V & ->).
  exists (map (fun x => a * x + c) s), i, f, (a * u + c), (a * v + c).
  split; [apply Permutation_map, P|]. split; [apply sorted_affine; assumption|]. rewrite map_length. split; [exact E|]. split; [exact F|].
  split; [rewrite nth_error_map, U; reflexivity|]. split; [|ring].
  destruct V as [V|[Z ->]]; [left; rewrite nth_error_map, V; reflexivity|right; auto].
Qed.
Lemma med_affine a c l : 0 < a -> l <> [] -> med (map (fun x => a * x + c) l) = a * med l + c.
Proof.
  intros PA N. eapply median_unique; [apply med_is; destruct l; [congruence|discriminate]|]. apply median_affine; [exact PA|apply med_is, N].
Qed.
