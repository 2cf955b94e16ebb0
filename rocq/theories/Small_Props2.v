(** C269-C273: cumulative counts, Kuiper statistic, SNR weighting, age, chip vendors. *)
From Coq Require Import Reals ZArith Lra Lia List Permutation Sorted Ascii.
From Verif Require Import Base Small_Model Small_Spec Small_Proofs Small_Proofs2.
Open Scope R_scope.

Lemma Forall2_impl {A B} (P Q : A -> B -> Prop) l m : (forall x y, P x y -> Q x y) -> Forall2 P l m -> Forall2 Q l m.
Proof. intros H F. induction F; constructor; auto. Qed.

Lemma Forall2_length {A B} (P : A -> B -> Prop) l m : Forall2 P l m -> length l = length m.
Proof. induction 1; cbn; congruence. Qed.

(** ** C269 CumulativeMetric *)
(** Full statement: the value at a point is the number of visits up to it.  What
    holds, for nights that do not decrease with time and points from the first
    night on: the value is within one of it, exact on nights with visits and after
    the last night.  Missing: nights without visits, and points before the first. *)
Theorem C269_count_partial points visits ys :
  (forall v w, In v visits -> In w visits -> fst v <= fst w -> (snd v <= snd w)%Z) ->
  visits <> [] -> cumulative points visits = Ok ys ->
  Forall2 (fun x y =>
    (exists v, In v visits /\ IZR (snd v) <= x) ->
    exists c, CountIs (fun v => IZR (snd v) <= x) visits c
      /\ INR c <= y < INR c + 1
      /\ ((exists v, In v visits /\ IZR (snd v) = x) -> y = INR c)
      /\ ((forall v, In v visits -> IZR (snd v) <= x) -> y = INR c)) points ys.
Proof.
  intros MO NE E. apply all_results_map in E.
  eapply Forall2_impl; [|exact E]. intros x y Hy EX.
  destruct (interp_cumulative visits x NE MO) as (r & R1 & R2 & _).
  assert (r = y) by congruence. subst r.
  exists (length (filter (fun v => if Rle_dec (IZR (snd v)) x then true else false) visits)).
  split; [apply count_filter; intros; apply Rle_b|]. exact (R2 EX).
Qed.
Print Assumptions C269_count_partial.

(** The default points, every night from the first to the last, satisfy this. *)
Theorem C269_default_partial visits ys :
  (forall v w, In v visits -> In w visits -> fst v <= fst w -> (snd v <= snd w)%Z) ->
  cumulative_default visits = Ok ys ->
  exists lo, (exists v, In v visits /\ snd v = lo) /\ (forall v, In v visits -> (lo <= snd v <= lo + Z.of_nat (length ys) - 1)%Z)
  /\ forall i y, nth_error ys i = Some y ->
     exists c, CountIs (fun v => (snd v <= lo + Z.of_nat i)%Z) visits c
      /\ INR c <= y < INR c + 1
      /\ ((exists v, In v visits /\ (snd v = lo + Z.of_nat i)%Z) -> y = INR c).
Proof.
  intros MO E. unfold cumulative_default in E.
  destruct (map snd visits) as [|n t] eqn:M; [discriminate|]. cbv zeta in E.
  assert (NE : visits <> []) by (intro Z; subst; discriminate).
  assert (MN : forall l a, (zmin a l <= a)%Z /\ (forall x, In x l -> (zmin a l <= x)%Z) /\ In (zmin a l) (a :: l)).
  { unfold zmin. induction l as [|b l IH]; intro a; cbn [fold_left]; [repeat split; [lia|easy|now left]|].
    destruct (IH (Z.min a b)) as (A & B & C). repeat split.
    - lia.
    - intros x [<-|I]; [lia|auto].
    - destruct C as [C|C]; [|now right; right]. rewrite <- C. destruct (Z.min_spec a b) as [[_ ->]|[_ ->]]; cbn; auto. }
  assert (MX : forall l a, (a <= zmax a l)%Z /\ (forall x, In x l -> (x <= zmax a l)%Z)).
  { unfold zmax. induction l as [|b l IH]; intro a; cbn [fold_left]; [split; [lia|easy]|].
    destruct (IH (Z.max a b)) as (A & B). split.
    - lia.
    - intros x [<-|I]; [lia|auto]. }
  destruct (MN t n) as (A & B & C). destruct (MX t n) as (A' & B').
  set (lo := zmin n t) in *. set (hi := zmax n t) in *.
  assert (IV : forall v, In v visits -> (lo <= snd v <= hi)%Z).
  { intros v I. assert (J : In (snd v) (n :: t)) by (rewrite <- M; now apply in_map). destruct J as [<-|J]; auto. }
  pose proof E as E0. apply C269_count_partial in E0; [|exact MO|exact NE].
  assert (LE : length ys = Z.to_nat (hi + 1 - lo)).
  { apply all_results_map in E. apply Forall2_length in E. rewrite map_length, seq_length in E. congruence. }
  exists lo. split; [|split].
  - rewrite <- M in C. apply in_map_iff in C as (v & Q & I). eauto.
  - intros v I. specialize (IV v I). rewrite LE. lia.
  - intros i y Hi.
    assert (Li : (i < length ys)%nat) by (apply nth_error_Some; congruence).
    assert (Q : nth_error (map (fun i => IZR (lo + Z.of_nat i)) (seq 0 (Z.to_nat (hi + 1 - lo)))) i = Some (IZR (lo + Z.of_nat i))).
    { rewrite nth_error_map. rewrite (nth_error_nth' _ 0%nat) by (rewrite seq_length; lia). rewrite seq_nth by lia. reflexivity. }
    assert (F2 : forall (P : R -> R -> Prop) l m j a b, Forall2 P l m -> nth_error l j = Some a -> nth_error m j = Some b -> P a b).
    { clear. intros P l m j a b H. revert j. induction H; intros [|j] X Y; cbn in *; try discriminate; [congruence|eauto]. }
    pose proof (F2 _ _ _ _ _ _ E0 Q Hi) as G. cbn beta in G.
    destruct G as (c & G1 & G2 & G3 & _).
    { rewrite <- M in C. apply in_map_iff in C as (v & K & I). exists v. split; [exact I|]. apply IZR_le. lia. }
    exists c. split; [|split; [exact G2|]].
    + eapply count_ext; [|exact G1]. intros v _. cbn beta. split; [apply le_IZR|apply IZR_le].
    + intros (v & I & K). apply G3. exists v. split; [exact I|]. now rewrite K.
Qed.
Print Assumptions C269_default_partial.

(** Before the first visit the count is given as one. *)
Theorem C269_before_refuted points visits ys :
  (forall v w, In v visits -> In w visits -> fst v <= fst w -> (snd v <= snd w)%Z) ->
  visits <> [] -> cumulative points visits = Ok ys ->
  Forall2 (fun x y => (forall v, In v visits -> x < IZR (snd v)) -> CountIs (fun v => IZR (snd v) <= x) visits 0 /\ y = 1) points ys.
Proof.
  intros MO NE E. apply all_results_map in E.
  eapply Forall2_impl; [|exact E]. intros x y Hy EX.
  destruct (interp_cumulative visits x NE MO) as (r & R1 & _ & R2).
  assert (r = y) by congruence. subst r. split; [|auto].
  clear - EX. induction visits as [|v t IH]; [constructor|].
  apply count_no; [specialize (EX v (or_introl eq_refl)); lra|]. apply IH. intros; apply EX; now right.
Qed.
Print Assumptions C269_before_refuted.

(** Between two visited nights the value is not a count: one visit on night 0, one
    on night 2, night 1 gives one and a half. *)
Theorem C269_between_refuted :
  exists ys, cumulative_default [(0, 0%Z); (2, 2%Z)] = Ok ys /\ nth 1 ys 0 = 3 / 2.
Proof.
  unfold cumulative_default. cbn [map snd]. change (zmin 0 [2%Z]) with 0%Z. change (zmax 0 [2%Z]) with 2%Z. cbv zeta.
  change (Z.to_nat (2 + 1 - 0)) with 3%nat. cbn [seq map].
  assert (T : cumulative_pts [(0, 0%Z); (2, 2%Z)] = [(0, INR 0 + 1); (2, INR 1 + 1)]).
  { unfold cumulative_pts, tsort. cbn [fold_right tinsert fst]. destruct (Rle_dec 0 2); [|lra]. reflexivity. }
  unfold cumulative. cbn [map all_results]. rewrite T.
  change (IZR (0 + Z.of_nat 0)) with 0. change (IZR (0 + Z.of_nat 1)) with 1. change (IZR (0 + Z.of_nat 2)) with 2.
  unfold interp, bind. eexists. split; [reflexivity|]. cbn [nth interp_from].
  destruct (Rlt_dec 1 0); [lra|]. destruct (Rle_dec 2 1); [lra|]. destruct (Req_EM_T 0 1); [lra|]. cbn [INR]. lra.
Qed.
Print Assumptions C269_between_refuted.

Example C269_case : (forall v w, In v [(0, 0%Z); (1 / 2, 0%Z); (2, 2%Z)] -> In w [(0, 0%Z); (1 / 2, 0%Z); (2, 2%Z)] -> fst v <= fst w -> (snd v <= snd w)%Z)
  /\ exists v, In v [(0, 0%Z); (1 / 2, 0%Z); (2, 2%Z)] /\ IZR (snd v) <= 1.
Proof.
  split.
  - intros v w [<-|[<-|[<-|[]]]] [<-|[<-|[<-|[]]]]; cbn; intro; try lia; lra.
  - exists (0, 0%Z). split; [now left|cbn; lra].
Qed.

(** ** C270 KuiperMetric *)
(** Only the angles matter, not their order or whole turns, nor the zero point. *)
Theorem C270_invariant data data' d :
  (exists m, Permutation data m /\ Forall2 (fun x y => same_angle (x + d) y) m data') -> kuiper data' = kuiper data.
Proof.
  intros (m & P & F).
  rewrite <- (kuiper_rotate d data).
  assert (E : map mod360 (map (fun x => x + d) m) = map mod360 data').
  { clear P. induction F as [|x y l l' S F IH]; [reflexivity|]. cbn. f_equal; [now apply mod360_eq|exact IH]. }
  unfold kuiper. rewrite <- E. rewrite (rsort_perm_eq _ (map mod360 (map (fun x => x + d) data))); [reflexivity|].
  now rewrite P.
Qed.
Print Assumptions C270_invariant.

Lemma offsets_in data x : In x (offsets (rsort (map mod360 data))) <->
  exists i, (i < length data)%nat /\ x = nth i (rsort (map mod360 data)) 0 / 360 - (INR i + 1) / INR (length data).
Proof.
  set (s := rsort (map mod360 data)).
  assert (L : length s = length data) by (unfold s; rewrite (Permutation_length (rsort_perm _)), map_length; reflexivity).
  rewrite offsets_offs. split.
  - intro I. apply In_nth with (d := 0) in I as (i & Hi & <-). rewrite offs_length in Hi.
    exists i. split; [lia|]. rewrite offs_nth by lia. now rewrite L.
  - intros (i & Hi & ->). rewrite <- L in Hi |- *.
    replace (nth i s 0 / 360 - (INR i + 1) / INR (length s)) with (nth i (offs (length s) 0 s) 0) by (now rewrite offs_nth by lia).
    apply nth_In. now rewrite offs_length.
Qed.
Lemma sorted_nth l : StronglySorted Rle l -> forall i j, (i <= j < length l)%nat -> nth i l 0 <= nth j l 0.
Proof.
  induction 1 as [|a t S IH F]; intros i j H; [cbn in H; lia|].
  destruct i, j; cbn in *; try lra; try lia.
  - rewrite Forall_forall in F. apply F, nth_In. lia.
  - apply IH. lia.
Qed.
Lemma sorted_bound data i : (i < length data)%nat -> 0 <= nth i (rsort (map mod360 data)) 0 < 360.
Proof.
  intro H. set (s := rsort (map mod360 data)).
  assert (L : length s = length data) by (unfold s; rewrite (Permutation_length (rsort_perm _)), map_length; reflexivity).
  assert (I : In (nth i s 0) s) by (apply nth_In; lia).
  apply (Permutation_in _ (rsort_perm _)) in I. apply in_map_iff in I as (y & <- & _). apply mod360_bounds.
Qed.

(** Between 0 and 1 - 1/n for n angles. *)
Lemma kuiper_values data v : kuiper data = Ok v ->
  exists i j, (i < length data)%nat /\ (j < length data)%nat /\
    v = (nth i (rsort (map mod360 data)) 0 - nth j (rsort (map mod360 data)) 0) / 360 - (INR i - INR j) / INR (length data)
  /\ (forall i' j', (i' < length data)%nat -> (j' < length data)%nat ->
       (nth i' (rsort (map mod360 data)) 0 - nth j' (rsort (map mod360 data)) 0) / 360 - (INR i' - INR j') / INR (length data) <= v).
Proof.
  rewrite kuiper_spread. intro H. apply spread_is in H as (a & b & [A1 A2] & [B1 B2] & ->).
  apply offsets_in in A1 as (i & Hi & EA). apply offsets_in in B1 as (j & Hj & EB).
  assert (N : INR (length data) <> 0) by (apply not_0_INR; lia).
  exists i, j. split; [exact Hi|]. split; [exact Hj|]. split.
  - rewrite EA, EB. field. exact N.
  - intros i' j' Hi' Hj'.
    assert (P : nth i' (rsort (map mod360 data)) 0 / 360 - (INR i' + 1) / INR (length data) <= a) by (apply A2, offsets_in; eauto).
    assert (Q : b <= nth j' (rsort (map mod360 data)) 0 / 360 - (INR j' + 1) / INR (length data)) by (apply B2, offsets_in; eauto).
    replace ((nth i' (rsort (map mod360 data)) 0 - nth j' (rsort (map mod360 data)) 0) / 360 - (INR i' - INR j') / INR (length data))
      with ((nth i' (rsort (map mod360 data)) 0 / 360 - (INR i' + 1) / INR (length data)) - (nth j' (rsort (map mod360 data)) 0 / 360 - (INR j' + 1) / INR (length data)))
      by (field; exact N). lra.
Qed.
Lemma frac_le (a b n : nat) : (0 < n)%nat -> (a <= b)%nat -> INR a / INR n <= INR b / INR n.
Proof.
  intros H L. apply Rmult_le_compat_r; [|now apply le_INR]. left. apply Rinv_0_lt_compat, lt_0_INR. exact H.
Qed.

Theorem C270_range data v : kuiper data = Ok v -> 0 <= v <= 1 - / INR (length data).
Proof.
  intro H. destruct (kuiper_values data v H) as (i & j & Hi & Hj & E & G).
  assert (Hn : (0 < length data)%nat) by lia.
  assert (N : 0 < INR (length data)) by (apply lt_0_INR; lia).
  split.
  - specialize (G i i Hi Hi). replace ((nth i (rsort (map mod360 data)) 0 - nth i (rsort (map mod360 data)) 0) / 360 - (INR i - INR i) / INR (length data)) with 0 in G by (field; lra). exact G.
  - pose proof (sorted_bound data i Hi). pose proof (sorted_bound data j Hj).
    set (n := length data) in *. set (s := rsort (map mod360 data)) in *.
    assert (L : length s = n) by (unfold s; rewrite (Permutation_length (rsort_perm _)), map_length; reflexivity).
    assert (IN : / INR n <= 1).
    { rewrite <- Rinv_1. apply Rinv_le_contravar; [lra|]. change 1 with (INR 1). apply le_INR. lia. }
    destruct (Nat.lt_trichotomy i j) as [O|[O|O]].
    + assert (nth i s 0 <= nth j s 0) by (apply sorted_nth; [apply rsort_sorted|lia]).
      pose proof (frac_le (j - i) (n - 1) n Hn ltac:(lia)) as F.
      rewrite !minus_INR in F by lia. cbn [INR] in F.
      replace ((INR n - 1) / INR n) with (1 - / INR n) in F by (field; lra).
      replace ((INR i - INR j) / INR n) with (- ((INR j - INR i) / INR n)) in E by (field; lra). lra.
    + subst j. replace ((INR i - INR i) / INR n) with 0 in E by (field; lra). lra.
    + pose proof (frac_le 1 (i - j) n Hn ltac:(lia)) as F. rewrite minus_INR in F by lia. cbn [INR] in F.
      replace (1 / INR n) with (/ INR n) in F by (field; lra). lra.
Qed.
Print Assumptions C270_range.

(** "1 means delta function" is not so: all angles equal gives 1 - 1/n, the largest
    value possible, and nothing else gives it. *)
Theorem C270_delta data v : kuiper data = Ok v ->
  (v = 1 - / INR (length data) <-> forall x y, In x data -> In y data -> same_angle x y).
Proof.
  intro H. destruct (kuiper_values data v H) as (i & j & Hi & Hj & E & G).
  assert (Hn : (0 < length data)%nat) by lia.
  assert (N : 0 < INR (length data)) by (apply lt_0_INR; lia).
  pose proof (sorted_bound data i Hi). pose proof (sorted_bound data j Hj).
  set (n := length data) in *. set (s := rsort (map mod360 data)) in *.
  assert (P : Permutation s (map mod360 data)) by apply rsort_perm.
  assert (L : length s = n) by (unfold s; rewrite (Permutation_length (rsort_perm _)), map_length; reflexivity).
  assert (SA : (forall x y, In x data -> In y data -> same_angle x y) <-> nth 0 s 0 = nth (n - 1) s 0).
  { split.
    - intro Q. assert (C : forall u w, In u s -> In w s -> u = w).
      { intros u w I J. apply (Permutation_in _ P) in I, J. apply in_map_iff in I as (x & <- & I). apply in_map_iff in J as (y & <- & J).
        apply mod360_eq. auto. }
      apply C; apply nth_In; lia.
    - intros Q x y I J. apply mod360_eq.
      assert (C : forall u, In u s -> u = nth 0 s 0).
      { intros u K. apply In_nth with (d := 0) in K as (k & Hk & <-).
        assert (nth 0 s 0 <= nth k s 0) by (apply sorted_nth; [apply rsort_sorted|lia]).
        assert (nth k s 0 <= nth (n - 1) s 0) by (apply sorted_nth; [apply rsort_sorted|lia]). lra. }
      rewrite (C (mod360 x)), (C (mod360 y)); [reflexivity| |];
        (eapply Permutation_in; [symmetry; exact P|now apply in_map]). }
  rewrite SA. split.
  - intro V. destruct (Nat.lt_trichotomy i j) as [O|[O|O]].
    + assert (O1 : nth i s 0 <= nth j s 0) by (apply sorted_nth; [apply rsort_sorted|lia]).
      assert (F : INR (j - i) / INR n <= (INR n - 1) / INR n).
      { replace (INR n - 1) with (INR (n - 1)) by (rewrite minus_INR by lia; reflexivity). apply frac_le; lia. }
      replace ((INR n - 1) / INR n) with (1 - / INR n) in F by (field; lra).
      rewrite minus_INR in F by lia.
      replace ((INR i - INR j) / INR n) with (- ((INR j - INR i) / INR n)) in E by (field; lra).
      assert (Q : (INR j - INR i) / INR n = 1 - / INR n) by lra.
      assert (R1 : INR j - INR i = INR n - 1).
      { replace (INR j - INR i) with ((INR j - INR i) / INR n * INR n) by (field; lra). rewrite Q. field. lra. }
      assert (R2 : (j = i + (n - 1))%nat).
      { apply INR_eq. rewrite plus_INR, minus_INR by lia. cbn [INR]. lra. }
      assert (i = 0)%nat by lia. subst i. replace (n - 1)%nat with j by lia. lra.
    + subst j. replace ((INR i - INR i) / INR n) with 0 in E by (field; lra).
      assert (/ INR n = 1) by lra. assert (INR n = 1) by (rewrite <- (Rinv_involutive (INR n)) by lra; rewrite H2; apply Rinv_1).
      assert (n = 1)%nat by (apply INR_eq; cbn; lra). replace (n - 1)%nat with 0%nat by lia. reflexivity.
    + assert (F : INR 1 / INR n <= INR (i - j) / INR n) by (apply frac_le; lia).
      rewrite minus_INR in F by lia. cbn [INR] in F. replace (1 / INR n) with (/ INR n) in F by (field; lra). lra.
  - intro Q. apply Rle_antisym; [now apply (C270_range data v)|].
    specialize (G 0%nat (n - 1)%nat Hn ltac:(lia)). rewrite Q in G. rewrite minus_INR in G by lia. cbn [INR] in G.
    replace ((nth (n - 1) s 0 - nth (n - 1) s 0) / 360 - (0 - (INR n - 1)) / INR n) with (1 - / INR n) in G by (field; lra). exact G.
Qed.
Print Assumptions C270_delta.

Theorem C270_one_refuted : ~ (forall data v, data <> [] -> (forall x y, In x data -> In y data -> same_angle x y) -> kuiper data = Ok v -> v = 1).
Proof.
  intro H.
  assert (S : forall x y, In x [0; 0] -> In y [0; 0] -> same_angle x y).
  { intros x y [<-|[<-|[]]] [<-|[<-|[]]]; exists 0%Z; lra. }
  destruct (spread_some (offsets (rsort (map mod360 [0; 0])))) as [v V].
  { cbn [map]. intro E. assert (L := f_equal (@length R) E). rewrite offsets_offs, offs_length, (Permutation_length (rsort_perm _)) in L. discriminate. }
  rewrite <- kuiper_spread in V.
  pose proof (H [0; 0] v ltac:(discriminate) S V) as E1. pose proof (C270_range _ _ V) as [_ R]. cbn [length INR] in R.
  assert (0 < / (1 + 1)) by (apply Rinv_0_lt_compat; lra). lra.
Qed.
Print Assumptions C270_one_refuted.

(** "Value of 0 means perfectly uniform": zero exactly for evenly spread angles. *)
Theorem C270_uniform data v : kuiper data = Ok v -> (v = 0 <-> evenly_spread data).
Proof.
  intro H.
  assert (NE : data <> []) by (intro Z; subst; discriminate).
  assert (Hn : (0 < length data)%nat) by (destruct data; [easy|cbn; lia]).
  assert (N : 0 < INR (length data)) by now apply lt_0_INR.
  split.
  - intro V. destruct (kuiper_values data v H) as (i & j & Hi & Hj & E & G).
    set (n := length data) in *. set (s := rsort (map mod360 data)) in *.
    assert (L : length s = n) by (unfold s; rewrite (Permutation_length (rsort_perm _)), map_length; reflexivity).
    exists (nth 0 s 0), (map mod360 data). split.
    + transitivity s; [symmetry; apply rsort_perm|].
      assert (Q : s = map (fun i => nth 0 s 0 + 360 * (INR i / INR n)) (seq 0 n)).
      { apply nth_ext with (d := 0) (d' := nth 0 s 0 + 360 * (INR 0 / INR n)); [now rewrite map_length, seq_length|].
        intros k Hk. rewrite (map_nth (fun i => nth 0 s 0 + 360 * (INR i / INR n))), seq_nth by lia. cbn [Nat.add].
        pose proof (G k 0%nat ltac:(lia) Hn) as G1. pose proof (G 0%nat k Hn ltac:(lia)) as G2. rewrite V in G1, G2. cbn [INR] in G1, G2.
        replace ((INR k - 0) / INR n) with (INR k / INR n) in G1 by (field; lra).
        replace ((0 - INR k) / INR n) with (- (INR k / INR n)) in G2 by (field; lra). lra. }
      exact (eq_ind s (fun l => Permutation s l) (Permutation_refl s) _ Q).
    + clear. induction data; constructor; [apply mod360_same|assumption].
  - intros (phi & m & P & F).
    set (n := length data) in *.
    set (grid := map (fun i => 360 * (INR i / INR n)) (seq 0 n)).
    assert (K : kuiper data = kuiper grid).
    { rewrite <- (kuiper_rotate phi grid).
      assert (E : map mod360 data = map mod360 m).
      { clear P. clearbody n. clear - F. induction F; [reflexivity|]. cbn. f_equal; [now apply mod360_eq|assumption]. }
      unfold kuiper. rewrite E. rewrite (rsort_perm_eq (map mod360 m) (map mod360 (map (fun x => x + phi) grid))); [reflexivity|].
      rewrite P. unfold grid. rewrite !map_map. erewrite map_ext; [reflexivity|]. intro i. cbn beta. f_equal. ring. }
    rewrite K in H. rewrite kuiper_spread in H.
    assert (S : rsort (map mod360 grid) = grid).
    { assert (M : map mod360 grid = grid).
      { unfold grid. rewrite map_map. apply map_ext_in. intros i I. apply in_seq in I.
        symmetry. apply angle_unique; [|apply mod360_bounds|apply mod360_same].
        assert (0 <= INR i / INR n) by (apply Rmult_le_pos; [apply pos_INR|left; now apply Rinv_0_lt_compat]).
        assert (INR i / INR n < 1).
        { apply Rmult_lt_reg_r with (INR n); [exact N|]. replace (INR i / INR n * INR n) with (INR i) by (field; lra).
          rewrite Rmult_1_l. apply lt_INR. lia. }
        lra. }
      rewrite M. apply sorted_unique; [apply rsort_sorted| |apply rsort_perm].
      unfold grid. clear - N Hn.
      assert (G : forall k st, StronglySorted Rle (map (fun i => 360 * (INR i / INR n)) (seq st k))).
      { induction k as [|k IH]; intro st; cbn; constructor; [apply IH|].
        rewrite Forall_forall. intros x I. apply in_map_iff in I as (i & <- & I). apply in_seq in I.
        pose proof (frac_le st i n Hn ltac:(lia)). lra. }
      apply G. }
    rewrite S in H. apply spread_is in H as (a & b & [A _] & [B _] & ->).
    assert (C : forall x, In x (offsets grid) -> x = - / INR n).
    { intros x I. rewrite offsets_offs in I. apply In_nth with (d := 0) in I as (i & Hi & <-).
      rewrite offs_length in Hi. rewrite offs_nth by exact Hi.
      assert (LG : length grid = n) by (unfold grid; now rewrite map_length, seq_length). rewrite LG in *.
      assert (NG : nth i grid 0 = 360 * (INR i / INR n)).
      { unfold grid. rewrite (nth_indep _ 0 ((fun i => 360 * (INR i / INR n)) 0%nat)) by (rewrite map_length, seq_length; lia).
        rewrite (map_nth (fun i => 360 * (INR i / INR n))), seq_nth by lia. reflexivity. }
      rewrite NG. cbn [Nat.add]. field. lra. }
    rewrite (C a A), (C b B). ring.
Qed.
Print Assumptions C270_uniform.

(** A value for every non-empty set of angles, an exception for the empty one. *)
Theorem C270_defined data : (kuiper data = Err ValueError <-> data = []) /\ (data <> [] -> exists v, kuiper data = Ok v).
Proof.
  rewrite kuiper_spread.
  assert (E : offsets (rsort (map mod360 data)) = [] <-> data = []).
  { split; [|intros ->; reflexivity]. intro E. assert (L := f_equal (@length R) E).
    rewrite offsets_offs, offs_length, (Permutation_length (rsort_perm _)), map_length in L. now destruct data. }
  split; [rewrite spread_empty; exact E|]. intro N. apply spread_some. rewrite E. exact N.
Qed.
Print Assumptions C270_defined.

Example C270_case : evenly_spread [90; 270] /\ ~ (forall x y, In x [90; 270] -> In y [90; 270] -> same_angle x y).
Proof.
  split.
  - exists 90, [90; 270]. split.
    + cbn [length seq map INR]. replace (90 + 360 * (0 / (1 + 1))) with 90 by lra. replace (90 + 360 * (1 / (1 + 1))) with 270 by lra. reflexivity.
    + constructor; [exists 0%Z; lra|]. constructor; [exists 0%Z; lra|constructor].
  - intro H. specialize (H 90 270 (or_introl eq_refl) (or_intror (or_introl eq_refl))).
    apply angle_unique in H; lra.
Qed.

(** ** C271 SnrWeightedMetric *)
Lemma rsum_scale {A} (c : R) (f : A -> R) l : rsum (map (fun v => c * f v) l) = c * rsum (map f l).
Proof. induction l; cbn; [lra|]. rewrite IHl. lra. Qed.
Lemma rsum_pos {A} (f : A -> R) l : (forall v, 0 < f v) -> l <> [] -> 0 < rsum (map f l).
Proof.
  intros H N. destruct l as [|x t]; [easy|]. cbn.
  assert (0 <= rsum (map f t)) by (clear - H; induction t; cbn; [lra|]; specialize (H a); lra). specialize (H x). lra.
Qed.
Lemma weight_split m m5 : m52snr m m5 = 5 * Rpower 10 (- (4 / 10) * m) * Rpower 10 (4 / 10 * m5).
Proof.
  unfold m52snr. rewrite Rmult_assoc, <- Rpower_plus. f_equal. f_equal. ring.
Qed.

(** The average with weights 10^(0.4 m5), whatever the reference magnitude. *)
Theorem C271_formula m visits v : snr_weighted_at m visits = Ok v ->
  v * rsum (map (fun p => Rpower 10 (0.4 * fst p)) visits) = rsum (map (fun p => Rpower 10 (0.4 * fst p) * snd p) visits).
Proof.
  unfold snr_weighted_at. destruct visits as [|p t] eqn:E; [discriminate|]. rewrite <- E. intro H. injection H as <-.
  set (k := 5 * Rpower 10 (- (4 / 10) * m)).
  assert (KP : 0 < k) by (unfold k; apply Rmult_lt_0_compat; [lra|apply exp_pos]).
  rewrite (map_ext (fun v => snd v * m52snr m (fst v)) (fun v => k * (Rpower 10 (0.4 * fst v) * snd v))).
  2:{ intro a. rewrite weight_split. fold k. replace (4 / 10) with 0.4 by lra. ring. }
  rewrite (map_ext (fun v => m52snr m (fst v)) (fun v => k * Rpower 10 (0.4 * fst v))).
  2:{ intro a. rewrite weight_split. fold k. replace (4 / 10) with 0.4 by lra. reflexivity. }
  rewrite !rsum_scale.
  assert (0 < rsum (map (fun v => Rpower 10 (0.4 * fst v)) visits)).
  { apply rsum_pos; [intro; apply exp_pos|now subst]. }
  field. lra.
Qed.
Print Assumptions C271_formula.

Theorem C271_reference m visits : snr_weighted_at m visits = snr_weighted visits.
Proof.
  unfold snr_weighted. destruct visits as [|p t] eqn:E; [reflexivity|]. rewrite <- E.
  assert (X : forall m, exists v, snr_weighted_at m visits = Ok v) by (intro; subst; cbn; eauto).
  destruct (X m) as [v V]. destruct (X 20) as [w W]. rewrite V, W. f_equal.
  apply C271_formula in V, W.
  assert (0 < rsum (map (fun v => Rpower 10 (0.4 * fst v)) visits)).
  { apply rsum_pos; [intro; apply exp_pos|now subst]. }
  apply Rmult_eq_reg_r with (rsum (map (fun p => Rpower 10 (0.4 * fst p)) visits)); [congruence|lra].
Qed.
Print Assumptions C271_reference.

(** It lies between the smallest and the largest value. *)
Theorem C271_between visits v lo hi : snr_weighted visits = Ok v ->
  (forall p, In p visits -> lo <= snd p <= hi) -> lo <= v <= hi.
Proof.
  intros H B. apply C271_formula in H as F.
  assert (NE : visits <> []) by (intro; subst; discriminate).
  assert (P : 0 < rsum (map (fun v => Rpower 10 (0.4 * fst v)) visits)) by (apply rsum_pos; [intro; apply exp_pos|exact NE]).
  assert (Q : lo * rsum (map (fun p => Rpower 10 (0.4 * fst p)) visits) <= rsum (map (fun p => Rpower 10 (0.4 * fst p) * snd p) visits)
            <= hi * rsum (map (fun p => Rpower 10 (0.4 * fst p)) visits)).
  { clear - B. induction visits as [|p t IH]; cbn; [lra|].
    assert (IHB : forall q, In q t -> lo <= snd q <= hi) by (intros; apply B; now right). specialize (IH IHB).
    specialize (B p (or_introl eq_refl)). set (w := Rpower 10 (0.4 * fst p)). assert (0 < w) by apply exp_pos.
    assert (lo * w <= w * snd p) by (rewrite Rmult_comm; apply Rmult_le_compat_l; lra).
    assert (w * snd p <= hi * w) by (rewrite (Rmult_comm hi); apply Rmult_le_compat_l; lra). lra. }
  rewrite <- F in Q. split; (apply Rmult_le_reg_r with (rsum (map (fun p => Rpower 10 (0.4 * fst p)) visits)); [exact P|lra]).
Qed.
Print Assumptions C271_between.

(** With equal depths it is the plain mean; no visits is an error. *)
Theorem C271_mean visits v d : (forall p, In p visits -> fst p = d) -> snr_weighted visits = Ok v ->
  v = rsum (map snd visits) / INR (length visits).
Proof.
  intros D H. apply C271_formula in H as F.
  assert (NE : visits <> []) by (intro; subst; discriminate).
  rewrite (map_ext_in (fun p => Rpower 10 (0.4 * fst p)) (fun p => Rpower 10 (0.4 * d) * 1)) in F by (intros p I; rewrite (D p I); ring).
  rewrite (map_ext_in (fun p => Rpower 10 (0.4 * fst p) * snd p) (fun p => Rpower 10 (0.4 * d) * snd p)) in F by (intros p I; rewrite (D p I); ring).
  rewrite !rsum_scale in F.
  assert (L : rsum (map (fun _ : R * R => 1) visits) = INR (length visits)).
  { clear. induction visits; [reflexivity|]. cbn [map rsum length]. rewrite IHvisits, S_INR. lra. }
  rewrite L in F. assert (0 < Rpower 10 (0.4 * d)) by apply exp_pos.
  assert (N : INR (length visits) <> 0) by (apply not_0_INR; destruct visits; [easy|discriminate]).
  apply Rmult_eq_reg_r with (INR (length visits)); [|exact N].
  replace (rsum (map snd visits) / INR (length visits) * INR (length visits)) with (rsum (map snd visits)) by (field; exact N).
  apply Rmult_eq_reg_l with (Rpower 10 (0.4 * d)); [lra|lra].
Qed.
Print Assumptions C271_mean.
Example C271_case : (exists v, snr_weighted [(24, 1); (25, 3)] = Ok v) /\ forall p, In p [(24, 1); (25, 3)] -> 1 <= snd p <= 3.
Proof. split; [cbn; eauto|]. intros p [<-|[<-|[]]]; cbn; lra. Qed.

(** ** C272 AgeMetric *)
(** When every visit is before the reference time: the time since the last one,
    masked exactly when longer than the limit. *)
Theorem C272_age_partial mjd limit times r :
  (forall t, In t times -> t <= mjd) -> age mjd limit times = Ok r ->
  exists last, In last times /\ (forall t, In t times -> t <= last)
    /\ (mjd - last <= limit -> r = Some (mjd - last)) /\ (limit < mjd - last -> r = None)
    /\ (forall a, r = Some a -> 0 <= a).
Proof.
  intros H E. unfold age in E. destruct (np_max times) as [m|] eqn:M; [|discriminate]. cbn in E.
  apply np_max_is in M as [I L]. exists m. split; [exact I|]. split; [exact L|]. specialize (H m I).
  destruct (Rlt_dec limit (mjd - m)) as [K|K]; injection E as <-; (split; [|split]).
  - intro; lra.
  - reflexivity.
  - discriminate.
  - reflexivity.
  - intro; lra.
  - intros a Q. injection Q as <-. lra.
Qed.
Print Assumptions C272_age_partial.

(** A visit after the reference time hides the previous one and makes the age negative. *)
Theorem C272_future_refuted mjd limit times m : 0 <= limit ->
  np_max times = Ok m -> mjd < m -> age mjd limit times = Ok (Some (mjd - m)) /\ mjd - m < 0.
Proof.
  intros HL M H. unfold age. rewrite M. cbn. destruct (Rlt_dec limit (mjd - m)); [lra|]. split; [reflexivity|lra].
Qed.
Print Assumptions C272_future_refuted.
Example C272_case : (forall t, In t [60000; 60003] -> t <= 60010) /\ exists r, age 60010 30 [60000; 60003] = Ok r.
Proof. split; [intros t [<-|[<-|[]]]; lra|]. cbn. eauto. Qed.
Example C272_future_case : np_max [60000; 60003] = Ok 60003 /\ 60001 < 60003.
Proof. split; [|lra]. apply np_max_is. split; [cbn; auto|]. intros x [<-|[<-|[]]]; lra. Qed.

(** ** C273 ChipVendorMetric *)
Lemma vendor_digit chip d : raft_digit chip d -> vendor_of chip = Ok (if Nat.even d then 1 else 2)%nat.
Proof.
  intros (c & G & N & L). unfold vendor_of, digit. rewrite G, N.
  assert (Q : (Nat.leb 48 (48 + d) && Nat.leb (48 + d) 57)%bool = true).
  { apply andb_true_iff. split; apply Nat.leb_le; lia. }
  rewrite Q. unfold bind. replace (48 + d - 48)%nat with d by lia. reflexivity.
Qed.
Lemma vendors_ok chips ds : Forall2 raft_digit chips ds ->
  all_results (map vendor_of chips) = Ok (map (fun d => if Nat.even d then 1 else 2)%nat ds).
Proof.
  induction 1 as [|c d l l' R F IH]; [reflexivity|]. cbn [map all_results]. rewrite (vendor_digit _ _ R). unfold bind at 1. rewrite IH. reflexivity.
Qed.
Lemma nodup_const (v : nat) l : l <> [] -> (forall x, In x l -> x = v) -> nodup Nat.eq_dec l = [v].
Proof.
  induction l as [|x t IH]; intros N H; [easy|]. cbn [nodup].
  assert (x = v) by (apply H; now left). subst x.
  destruct (in_dec Nat.eq_dec v t) as [I|I].
  - apply IH; [intro; subst; destruct I|]. intros; apply H; now right.
  - destruct t as [|y t]; [reflexivity|]. elim I. left. apply H. right. now left.
Qed.

(** 1 for visits on the first vendor's chips only, 2 for the second's, 3 for both. *)
Theorem C273_vendor_partial chips ds : Forall2 raft_digit chips ds -> chips <> [] ->
  exists r, chip_vendor (Some chips) = Ok r
  /\ (r = 1 <-> forall d, In d ds -> Nat.Even d)%nat
  /\ (r = 2 <-> forall d, In d ds -> Nat.Odd d)%nat
  /\ (r = 3 <-> (exists d, In d ds /\ Nat.Even d) /\ (exists d, In d ds /\ Nat.Odd d))%nat.
Proof.
  intros F NE. unfold chip_vendor. rewrite (vendors_ok _ _ F). unfold bind.
  assert (ND : ds <> []) by (intro; subst; inversion F; subst; auto).
  set (vs := map _ ds).
  assert (NV : vs <> []) by (unfold vs; intro E; apply map_eq_nil in E; auto).
  destruct (Forall_dec (fun d => Nat.even d = true) (fun d => Bool.bool_dec (Nat.even d) true) ds) as [AE|AE].
  - rewrite Forall_forall in AE.
    rewrite (nodup_const 1%nat vs NV).
    2:{ intros x I. unfold vs in I. apply in_map_iff in I as (d & <- & I). now rewrite (AE d I). }
    exists 1%nat. split; [reflexivity|].
    destruct ds as [|d0 t]; [easy|].
    assert (E0 : Nat.Even d0) by (apply Nat.even_spec, AE; now left).
    split; [|split].
    + split; [intros _ d I; now apply Nat.even_spec, AE|reflexivity].
    + split; [discriminate|]. intro Q. specialize (Q d0 (or_introl eq_refl)). exfalso. eapply Nat.Even_Odd_False; eauto.
    + split; [discriminate|]. intros [_ (d & I & O)]. exfalso. apply (Nat.Even_Odd_False d); [|exact O]. now apply Nat.even_spec, AE.
  - destruct (Forall_dec (fun d => Nat.even d = false) (fun d => Bool.bool_dec (Nat.even d) false) ds) as [AO|AO].
    + rewrite Forall_forall in AO.
      rewrite (nodup_const 2%nat vs NV).
      2:{ intros x I. unfold vs in I. apply in_map_iff in I as (d & <- & I). now rewrite (AO d I). }
      assert (OD : forall d, In d ds -> Nat.Odd d).
      { intros d I. apply Nat.odd_spec. unfold Nat.odd. now rewrite (AO d I). }
      exists 2%nat. split; [reflexivity|].
      destruct ds as [|d0 t]; [easy|]. split; [|split].
      * split; [discriminate|]. intro Q. exfalso. apply (Nat.Even_Odd_False d0); [apply Q|apply OD]; now left.
      * split; [intros _; exact OD|reflexivity].
      * split; [discriminate|]. intros [(d & I & O) _]. exfalso. apply (Nat.Even_Odd_False d); auto.
    + assert (EE : exists d, In d ds /\ Nat.even d = true).
      { apply neg_Forall_Exists_neg in AO; [|intro; apply Bool.bool_dec]. apply Exists_exists in AO as (d & I & Q). exists d. split; [exact I|]. destruct (Nat.even d); congruence. }
      assert (EO : exists d, In d ds /\ Nat.even d = false).
      { apply neg_Forall_Exists_neg in AE; [|intro; apply Bool.bool_dec]. apply Exists_exists in AE as (d & I & Q). exists d. split; [exact I|]. destruct (Nat.even d); congruence. }
      destruct EE as (de & Ie & Ee). destruct EO as (do_ & Io & Eo).
      assert (I1 : In 1%nat (nodup Nat.eq_dec vs)) by (apply nodup_In; unfold vs; apply in_map_iff; exists de; rewrite Ee; auto).
      assert (I2 : In 2%nat (nodup Nat.eq_dec vs)) by (apply nodup_In; unfold vs; apply in_map_iff; exists do_; rewrite Eo; auto).
      exists 3%nat. split.
      { destruct (nodup Nat.eq_dec vs) as [|a [|b t]]; [reflexivity| |reflexivity].
        destruct I1 as [->|[]]. destruct I2 as [E|[]]. discriminate. }
      apply Nat.even_spec in Ee. assert (Od : Nat.Odd do_) by (apply Nat.odd_spec; unfold Nat.odd; now rewrite Eo).
      split; [|split].
      * split; [discriminate|]. intro Q. exfalso. apply (Nat.Even_Odd_False do_); auto.
      * split; [discriminate|]. intro Q. exfalso. apply (Nat.Even_Odd_False de); auto.
      * split; [intros _; split; [exists de; auto|exists do_; auto]|reflexivity].
Qed.
Print Assumptions C273_vendor_partial.

(** A point on no chip at all is reported as seen by both vendors. *)
Theorem C273_none_refuted : chip_vendor (Some []) = Ok 3%nat.
Proof. reflexivity. Qed.
Print Assumptions C273_none_refuted.
Example C273_case : Forall2 raft_digit ["R:2,2 S:1,1"; "R:3,1 S:0,0"]%string [2; 3]%nat.
Proof.
  constructor; [exists "2"%char; split; [reflexivity|split; [reflexivity|lia]]|].
  constructor; [exists "3"%char; split; [reflexivity|split; [reflexivity|lia]]|constructor].
Qed.
