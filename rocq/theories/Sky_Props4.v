(** C300-C301: identifiers and helper functions of the sky brightness model. *)
From Coq Require Import String Reals ZArith Lra Lia Psatz List Permutation Sorted.
From Verif Require Import Base Depth_Model Depth_Proofs Template_Model Template_Spec Template_Proofs Sky_Model Sky_Spec Sky_Proofs.
From Verif Require Small_Model Small_Proofs.
Import ListNotations.
Open Scope R_scope.

(** ** C300: identifiers *)
Lemma zinsert_in x l y : In y (zinsert x l) <-> y = x \/ In y l.
Proof.
  induction l as [|z t IH]; cbn; [intuition|]. destruct (Z.ltb_spec x z); [cbn; intuition|]. destruct (Z.eqb_spec x z); [subst; cbn; intuition|].
  cbn. rewrite IH. intuition.
Qed.
Lemma zinsert_sorted x l : StronglySorted Z.lt l -> StronglySorted Z.lt (zinsert x l).
Proof.
  induction 1 as [|z t S IH F]; cbn; [repeat constructor|]. destruct (Z.ltb_spec x z).
  - constructor; [now constructor|]. constructor; [assumption|]. eapply Forall_impl; [|exact F]. intros; lia.
  - destruct (Z.eqb_spec x z); [now constructor|]. constructor; [exact IH|]. rewrite Forall_forall in *. intros y I. apply zinsert_in in I as [->|I]; [lia|auto].
Qed.
Lemma unique_sorted l : StronglySorted Z.lt (unique l).
Proof. induction l; cbn; [constructor|]. now apply zinsert_sorted. Qed.
Lemma unique_in l y : In y (unique l) <-> In y l.
Proof. induction l as [|x t IH]; cbn; [tauto|]. rewrite zinsert_in, IH. intuition. Qed.
Lemma zsorted_nodup l : StronglySorted Z.lt l -> NoDup l.
Proof. induction 1 as [|z t S IH F]; constructor; [|exact IH]. intro I. rewrite Forall_forall in F. pose proof (F z I). lia. Qed.
Lemma zsearch_at l x : StronglySorted Z.lt l -> In x l -> nth_error l (zsearch l x) = Some x.
Proof.
  induction 1 as [|z t S IH F]; intros I; [destruct I|]. cbn. destruct (Z.ltb_spec z x).
  - cbn. apply IH. destruct I as [->|I]; [lia|exact I].
  - destruct I as [->|I]; [reflexivity|]. rewrite Forall_forall in F. pose proof (F x I). lia.
Qed.

(** The integers are positions in the sorted list of the distinct identifiers; equal integers mean equal identifiers; and
    converting back gives the identifiers. *)
Theorem C300_round_trip ids : exists ints uids uints, id2intid ids = (ints, uids, uints)
  /\ StronglySorted Z.lt uids /\ (forall x, In x uids <-> In x ids) /\ uints = seq 0 (length uids)
  /\ Forall2 (fun x i => nth_error uids i = Some x) ids ints
  /\ intid2id (map Z.of_nat ints) (map Z.of_nat uints) uids = ids.
Proof.
  unfold id2intid. eexists _, _, _. split; [reflexivity|]. pose proof (unique_sorted ids) as S. split; [exact S|]. split; [apply unique_in|]. split; [reflexivity|].
  assert (P : forall x, In x ids -> nth_error (unique ids) (zsearch (unique ids) x) = Some x) by (intros x I; apply zsearch_at; [exact S|now apply unique_in]).
  set (u := unique ids) in *. clearbody u. split.
  - induction ids as [|x t IH]; [constructor|]. cbn. constructor; [apply P; now left|]. apply IH. intros; apply P; now right.
  - unfold intid2id. rewrite !map_map. rewrite <- (map_id ids) at 2. apply map_ext_in. intros x I.
    apply (fold_find (Z.of_nat (zsearch u x)) (map Z.of_nat (seq 0 (length u))) u 0%Z (zsearch u x) x).
    + apply FinFun.Injective_map_NoDup; [intros a b E; lia|apply seq_NoDup].
    + assert (L : (zsearch u x < length u)%nat) by (apply nth_error_Some; rewrite (P x I); discriminate).
      rewrite nth_error_map, (nth_error_nth' _ O) by now rewrite seq_length. now rewrite seq_nth by exact L.
    + now apply P.
Qed.
Print Assumptions C300_round_trip.
Example C300_case : id2intid [30; 10; 30; 20]%Z = ([2; 0; 2; 1]%nat, [10; 20; 30]%Z, [0; 1; 2]%nat).
Proof. reflexivity. Qed.
(** Converting back, an integer that is in the table gives its identifier (the integers of the table being distinct). *)
Theorem C300_back uintids uids i j x v : NoDup uintids -> nth_error uintids j = Some x -> nth_error uids j = Some v ->
  forall intids, nth_error intids i = Some x -> nth_error (intid2id intids uintids uids) i = Some v /\ length (intid2id intids uintids uids) = length intids.
Proof.
  intros ND E F intids I. unfold intid2id. split; [|apply map_length]. rewrite nth_error_map, I. cbn [option_map]. f_equal. now apply (fold_find x uintids uids 0%Z j v).
Qed.
Print Assumptions C300_back.
(** An integer that is not in the table is not noticed: it comes back as 0, like a real identifier 0. *)
Theorem C300_unknown_refuted : ~ (forall intids uintids uids i x v, nth_error intids i = Some x -> nth_error (intid2id intids uintids uids) i = Some v ->
  In v uids -> In x uintids).
Proof. intro H. specialize (H [5]%Z [1; 2]%Z [0; 7]%Z O 5%Z 0%Z eq_refl eq_refl (or_introl eq_refl)). cbn in H. lia. Qed.
Print Assumptions C300_unknown_refuted.

(** ** C301: helper functions *)
(** With data of the last pixel present, the parameters are: slope, one magnitude per pixel, one constant per pixel. *)
Lemma max_le (l : list nat) n : (forall x, In x l -> (x < S n)%nat) -> In n l -> fold_right Nat.max O l = n.
Proof.
  intros B I. assert (U : forall m, (forall x, In x m -> (x < S n)%nat) -> (fold_right Nat.max O m <= n)%nat).
  { induction m as [|x m IH]; intro H; cbn; [lia|]. pose proof (H x (or_introl eq_refl)). pose proof (IH (fun y J => H y (or_intror J))). lia. }
  assert (V : forall m, In n m -> (n <= fold_right Nat.max O m)%nat) by (induction m as [|x m IH]; intro J; [destruct J|]; cbn; destruct J as [->|J]; [lia|]; pose proof (IH J); lia).
  pose proof (U l B). pose proof (V l I). lia.
Qed.
Theorem C301_layout_partial slope mags consts data n : length mags = S n -> length consts = S n ->
  (forall d, In d data -> (fst d < S n)%nat) -> (exists alt, In (n, alt) data) ->
  simple_twi (slope :: mags ++ consts) data = Ok (map (fun d => nth (fst d) mags 0 * exp (snd d * slope) + nth (fst d) consts 0) data).
Proof.
  intros Lm Lc B [alt I]. unfold simple_twi. destruct data as [|d0 t]; [destruct I|]. set (data := d0 :: t) in *.
  assert (M : fold_right Nat.max O (map fst data) = n).
  { apply max_le; [intros x J; apply in_map_iff in J as (d & <- & J); now apply B|]. apply in_map_iff. now exists (n, alt). }
  rewrite M. replace (existsb _ data) with false.
  2:{ symmetry. apply not_true_iff_false. intro E. apply existsb_exists in E as (d & J & E). apply Nat.leb_le in E. cbn in E. rewrite app_length in E. pose proof (B d J). lia. }
  f_equal. apply map_ext_in. intros d J. pose proof (B d J) as Ld. f_equal.
  - f_equal. replace (fst d + 1)%nat with (S (fst d)) by lia. cbn [nth]. now rewrite app_nth1 by lia.
  - replace (fst d + 2 + n)%nat with (S (fst d + S n)) by lia. cbn [nth]. rewrite app_nth2 by lia. f_equal. lia.
Qed.
Print Assumptions C301_layout_partial.
Example C301_layout_case : simple_twi [0; 1; 2; 10; 20] [(0%nat, 0); (1%nat, 0)] = Ok [1 * exp (0 * 0) + 10; 2 * exp (0 * 0) + 20].
Proof.
  apply (C301_layout_partial 0 [1; 2] [10; 20] [(0%nat, 0); (1%nat, 0)] 1); try reflexivity; [|exists 0; cbn; tauto].
  intros d [<-|[<-|[]]]; cbn; lia.
Qed.
(** Without data of the last pixel the magnitude of another pixel is taken for the constant: the model of one pixel depends on
    which other pixels have data. *)
Theorem C301_pixels_refuted : ~ (forall args d data v w, simple_twi args [d] = Ok [v] -> simple_twi args (d :: data) = Ok w -> nth_error w 0 = Some v).
Proof.
  intro H. specialize (H [0; 1; 2; 10; 20] (0%nat, 0) [(1%nat, 0)] (1 * exp (0 * 0) + 2) [1 * exp (0 * 0) + 10; 2 * exp (0 * 0) + 20] eq_refl eq_refl).
  cbn in H. injection H as H. lra.
Qed.
Print Assumptions C301_pixels_refuted.

Lemma percentile_le p q l x y : 0 <= p -> p <= q -> Percentile p l x -> Percentile q l y -> x <= y.
Proof.
  intros P0 L (s & i & f & a & b & P & S & E & F & Ha & Hb & ->) (s' & i' & f' & a' & b' & P' & S' & E' & F' & Ha' & Hb' & ->).
  assert (s = s') by (apply Small_Proofs.sorted_unique; auto; rewrite <- P; exact P'). subst s'.
  assert (LE : INR i + f <= INR i' + f').
  { rewrite <- E, <- E'. apply Rmult_le_compat_r; [apply pos_INR|lra]. }
  assert (I : (i <= i')%nat) by (assert (i < i' + 1)%nat; [apply INR_lt; rewrite plus_INR; cbn [INR]; lra|lia]).
  assert (A' : a' <= a' + f' * (b' - a')).
  { destruct Hb' as [Hb'|[-> ->]]; [|lra]. pose proof (sorted_nth_le s S i' (Datatypes.S i') a' b' ltac:(lia) Ha' Hb'). nra. }
  destruct (Nat.eq_dec i i') as [->|N].
  - rewrite Ha in Ha'. injection Ha' as <-. destruct Hb as [Hb|[Hf ->]]; [|rewrite Hf; lra].
    destruct Hb' as [Hb'|[Hf' ->]].
    + rewrite Hb in Hb'. injection Hb' as <-. pose proof (sorted_nth_le s S i' (Datatypes.S i') a b ltac:(lia) Ha Hb). nra.
    + assert (f = 0) by lra. subst f. lra.
  - destruct Hb as [Hb|[-> ->]].
    + pose proof (sorted_nth_le s S i (Datatypes.S i) a b ltac:(lia) Ha Hb). pose proof (sorted_nth_le s S (Datatypes.S i) i' b a' ltac:(lia) Hb Ha').
      assert (a + f * (b - a) <= b) by nra. lra.
    + pose proof (sorted_nth_le s S i i' a a' ltac:(lia) Ha Ha'). lra.
Qed.
Lemma percentile_affine p l x c d : 0 < c -> Percentile p l x -> Percentile p (map (fun v => c * v + d) l) (c * x + d).
Proof.
  intros Pc (s & i & f & a & b & P & S & E & F & Ha & Hb & ->).
  exists (map (fun v => c * v + d) s), i, f, (c * a + d), (c * b + d). rewrite map_length.
  split; [now apply Permutation_map|]. split.
  { induction S as [|z t S' IH Fz] in Pc |- *; cbn; constructor; [now apply IH|]. rewrite Forall_forall in *. intros y I. apply in_map_iff in I as (w & <- & I).
    pose proof (Fz w I). nra. }
  split; [exact E|]. split; [exact F|]. rewrite !nth_error_map, Ha. split; [reflexivity|]. split.
  - destruct Hb as [Hb|[Hf ->]]; [left; now rewrite Hb|right; split; [exact Hf|reflexivity]].
  - ring.
Qed.

(** The robust rms of at least two values is the distance of the quartiles over 1.349: it is not negative, does not depend on the
    order, does not change if a number is added to all values, and scales with them; fewer values give the missing value. *)
Theorem C301_rms_partial missing l : (2 <= length l)%nat -> (exists q1 q3, Percentile 25 l q1 /\ Percentile 75 l q3 /\ robust_rms missing l * 1.349 = q3 - q1)
  /\ 0 <= robust_rms missing l
  /\ (forall m, Permutation l m -> robust_rms missing m = robust_rms missing l)
  /\ (forall c d, 0 < c -> robust_rms missing (map (fun v => c * v + d) l) = c * robust_rms missing l).
Proof.
  intro L. assert (N : l <> []) by (intros ->; cbn in L; lia).
  assert (R2 : forall m, (2 <= length m)%nat -> robust_rms missing m = (percentile m 75 - percentile m 25) / 1.349).
  { intros m Lm. unfold robust_rms. rewrite (proj2 (Nat.ltb_ge _ _)) by exact Lm. reflexivity. }
  pose proof (percentile_is 25 l N ltac:(lra)) as Q1. pose proof (percentile_is 75 l N ltac:(lra)) as Q3.
  pose proof (percentile_le 25 75 l _ _ ltac:(lra) ltac:(lra) Q1 Q3) as LE.
  split; [|split; [|split]].
  - exists (percentile l 25), (percentile l 75). split; [exact Q1|]. split; [exact Q3|]. rewrite R2 by exact L. lra.
  - rewrite R2 by exact L. lra.
  - intros m P. rewrite !R2; [|exact L|now rewrite <- (Permutation_length P)]. now rewrite !(percentile_perm l m) by exact P.
  - intros c d Pc. rewrite !R2; [|exact L|now rewrite map_length].
    assert (N' : map (fun v => c * v + d) l <> []) by (destruct l; [now elim N|discriminate]).
    assert (A : forall p, 0 <= p <= 100 -> percentile (map (fun v => c * v + d) l) p = c * percentile l p + d).
    { intros p Bp. eapply percentile_unique; [now apply percentile_is|]. apply percentile_affine; [exact Pc|]. now apply percentile_is. }
    rewrite !A by lra. unfold Rdiv. ring.
Qed.
Print Assumptions C301_rms_partial.
Theorem C301_missing missing l : (length l < 2)%nat -> robust_rms missing l = missing.
Proof. intro L. unfold robust_rms. now rewrite (proj2 (Nat.ltb_lt _ _) L). Qed.
Print Assumptions C301_missing.
Example C301_rms_case : robust_rms 0 [0; 4; 8; 12; 16] * 1.349 = 8.
Proof.
  destruct (C301_rms_partial 0 [0; 4; 8; 12; 16]) as ((q1 & q3 & Q1 & Q3 & E) & _); [cbn; lia|].
  assert (S : StronglySorted Rle [0; 4; 8; 12; 16]) by (repeat (constructor; [|repeat (constructor; [lra|]); constructor]); constructor).
  rewrite E. rewrite (percentile_unique 25 _ q1 4 Q1), (percentile_unique 75 _ q3 12 Q3); [lra| |].
  - exists [0; 4; 8; 12; 16], 3%nat, 0, 12, 16. cbn. repeat split; try lra; auto.
  - exists [0; 4; 8; 12; 16], 1%nat, 0, 4, 8. cbn. repeat split; try lra; auto.
Qed.
