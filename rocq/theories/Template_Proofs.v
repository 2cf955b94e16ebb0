(** Lemmas for the template metric. *)
From Coq Require Import Reals ZArith Lra Lia Psatz List Permutation Sorted.
From Verif Require Import Base Depth_Model Depth_Proofs Template_Model Template_Spec Small_Spec.
From Verif Require Small_Model Small_Proofs.
Import ListNotations.
Open Scope R_scope.

(** ** Sorting by time *)
Definition vle (v w : visit) : Prop := tv_mjd v <= tv_mjd w.
Lemma vinsert_perm v l : Permutation (vinsert v l) (v :: l).
Proof.
  induction l as [|y t IH]; cbn [vinsert]; [reflexivity|].
  destruct (Rle_dec (tv_mjd v) (tv_mjd y)); [reflexivity|]. rewrite IH. apply perm_swap.
Qed.
Lemma vsort_perm l : Permutation (vsort l) l.
Proof. induction l as [|x t IH]; [reflexivity|]. cbn. rewrite vinsert_perm. now constructor. Qed.
Lemma vinsert_sorted v l : StronglySorted vle l -> StronglySorted vle (vinsert v l).
Proof.
  induction l as [|y t IH]; intro H; cbn [vinsert].
  - repeat constructor.
  - inversion H as [|? ? H1 H2]; subst. destruct (Rle_dec (tv_mjd v) (tv_mjd y)) as [L|L].
    + constructor; [assumption|]. constructor; [exact L|]. eapply Forall_impl; [|exact H2]. intros z Z. unfold vle in *. lra.
    + constructor; [now apply IH|]. rewrite Forall_forall in *. intros z Z.
      apply (Permutation_in _ (vinsert_perm v t)) in Z. destruct Z as [<-|Z]; [unfold vle; lra|now apply H2].
Qed.
Lemma vsort_sorted l : StronglySorted vle (vsort l).
Proof. induction l; cbn; [constructor|]. now apply vinsert_sorted. Qed.
Lemma vsort_length l : length (vsort l) = length l.
Proof. apply Permutation_length, vsort_perm. Qed.

Lemma vsorted_unique l : forall m, StronglySorted vle l -> StronglySorted vle m -> Permutation l m ->
  NoDup (map tv_mjd l) -> l = m.
Proof.
  induction l as [|x l IH]; intros m Sl Sm P ND.
  - apply Permutation_nil in P. now subst.
  - destruct m as [|y m]. { apply Permutation_sym, Permutation_nil in P. discriminate. }
    inversion Sl as [|? ? Sl' Fl]; subst. inversion Sm as [|? ? Sm' Fm]; subst.
    rewrite Forall_forall in Fl, Fm. cbn in ND. inversion ND as [|? ? NI ND']; subst.
    assert (E : x = y).
    { assert (Ix : In x (y :: m)) by (eapply Permutation_in; [exact P|now left]).
      assert (Iy : In y (x :: l)) by (eapply Permutation_in; [apply Permutation_sym, P|now left]).
      destruct Ix as [Ix|Ix]; [now symmetry|]. destruct Iy as [Iy|Iy]; [assumption|].
      pose proof (Fl _ Iy) as A. pose proof (Fm _ Ix) as B. unfold vle in A, B.
      exfalso. apply NI. replace (tv_mjd x) with (tv_mjd y) by lra. now apply in_map. }
    subst y. f_equal. apply IH; auto. eapply Permutation_cons_inv; eassumption.
Qed.
Lemma vsort_perm_eq l m : Permutation l m -> NoDup (map tv_mjd l) -> vsort l = vsort m.
Proof.
  intros P ND. apply vsorted_unique; auto using vsort_sorted.
  - rewrite vsort_perm, P. apply Permutation_sym, vsort_perm.
  - eapply Permutation_NoDup; [|exact ND]. apply Permutation_map, Permutation_sym, vsort_perm.
Qed.

(** ** Positions *)
Definition where_from (o : nat) (p : visit -> bool) (l : list visit) : list nat :=
  map fst (filter (fun iv => p (snd iv)) (combine (seq o (length l)) l)).
Lemma where_idx_from p l : where_idx p l = where_from 0 p l.
Proof. reflexivity. Qed.
Lemma where_from_cons o p v l : where_from o p (v :: l) = (if p v then [o] else []) ++ where_from (S o) p l.
Proof. unfold where_from. cbn [length seq combine filter snd]. destruct (p v); reflexivity. Qed.
Lemma where_from_app p a : forall o b, where_from o p (a ++ b) = where_from o p a ++ where_from (o + length a) p b.
Proof.
  induction a as [|v a IH]; intros o b.
  - cbn. now rewrite Nat.add_0_r.
  - cbn [app length]. rewrite !where_from_cons, IH, <- app_assoc. do 2 f_equal. f_equal. lia.
Qed.
Lemma where_from_length p l : forall o, length (where_from o p l) = length (filter p l).
Proof. induction l as [|v l IH]; intro o; [reflexivity|]. rewrite where_from_cons, app_length, IH. cbn [filter]. destruct (p v); reflexivity. Qed.

Definition at_idx (data : list visit) (i : nat) : list visit := match nth_error data i with Some v => [v] | None => [] end.
Lemma at_where p data b : forall a c, data = a ++ b ++ c -> flat_map (at_idx data) (where_from (length a) p b) = filter p b.
Proof.
  induction b as [|v b IH]; intros a c E; [reflexivity|].
  rewrite where_from_cons, flat_map_app. cbn [filter].
  assert (H : flat_map (at_idx data) (where_from (S (length a)) p b) = filter p b).
  { replace (S (length a)) with (length (a ++ [v])) by (rewrite app_length; cbn; lia).
    apply (IH (a ++ [v]) c). rewrite E, <- app_assoc. reflexivity. }
  rewrite H. destruct (p v); [|reflexivity]. cbn [flat_map app]. unfold at_idx.
  rewrite E, nth_error_app2, Nat.sub_diag by lia. reflexivity.
Qed.

Lemma split_at {A} (p : A -> bool) l : forall k, (k < length (filter p l))%nat ->
  exists pre c post, l = pre ++ c :: post /\ p c = true /\ length (filter p pre) = k.
Proof.
  induction l as [|v l IH]; intros k H; cbn [filter] in H; [cbn in H; lia|].
  destruct (p v) eqn:Pv.
  - destruct k as [|k].
    + exists [], v, l. auto.
    + cbn [length] in H. destruct (IH k) as (pre & c & post & E & Pc & L); [lia|].
      exists (v :: pre), c, post. rewrite E. cbn. rewrite Pv. cbn. auto.
  - destruct (IH k H) as (pre & c & post & E & Pc & L).
    exists (v :: pre), c, post. rewrite E. cbn. rewrite Pv. auto.
Qed.

Lemma firstn_where p k pre c post : p c = true -> length (filter p pre) = k ->
  firstn (S k) (where_idx p (pre ++ c :: post)) = where_from 0 p (pre ++ [c])
  /\ nth_error (where_idx p (pre ++ c :: post)) k = Some (length pre).
Proof.
  intros Pc L.
  replace (pre ++ c :: post) with ((pre ++ [c]) ++ post) by (now rewrite <- app_assoc).
  rewrite where_idx_from, where_from_app.
  assert (LW : length (where_from 0 p (pre ++ [c])) = S k).
  { rewrite where_from_length, filter_app, app_length, L. cbn. rewrite Pc. cbn. lia. }
  split.
  - rewrite firstn_app, LW, Nat.sub_diag, firstn_O, app_nil_r. apply firstn_all2. lia.
  - rewrite nth_error_app1 by lia. rewrite where_from_app, nth_error_app2 by (rewrite where_from_length; lia).
    rewrite where_from_length, L, Nat.sub_diag. cbn [plus]. rewrite where_from_cons, Pc. reflexivity.
Qed.

(** ** Selections *)
Lemma sel_filter {A} (P : A -> Prop) (p : A -> bool) l : (forall x, p x = true <-> P x) -> Sel P l (filter p l).
Proof.
  intro H. induction l as [|x l IH]; cbn [filter]; [constructor|].
  destruct (p x) eqn:E; [constructor; [now apply H|assumption]|].
  constructor; [|assumption]. intro C. apply H in C. congruence.
Qed.
Lemma sel_unique {A} (P : A -> Prop) l : forall m m', Sel P l m -> Sel P l m' -> m = m'.
Proof.
  induction l as [|x l IH]; intros m m' S S'; inversion S; inversion S'; subst; try reflexivity; try contradiction.
  - f_equal. now apply IH.
  - now apply IH.
Qed.
Lemma ok_visit_spec bs bm v : ok_visit bs bm v = true <-> tv_seeing v <= bs /\ bm <= tv_m5 v.
Proof. unfold ok_visit, rleb. rewrite Bool.andb_true_iff, !Small_Proofs.Rle_b. reflexivity. Qed.

(** ** The result *)
Definition template_of (cf : config) (bs bm : R) (pre : list visit) (c : visit) (post inputs : list visit) (r : template) : Prop :=
  te_bench_seeing r = bs /\ te_bench_m5 r = bm /\ te_night r = tv_night c /\ te_season r = cf_season cf (tv_mjd c)
  /\ te_until r = S (length pre)
  /\ (let later := filter (fun v => (tv_night c <? tv_night v)%Z) (pre ++ c :: post) in
      te_with r = length later
      /\ te_m5 r = template_m5 inputs /\ te_seeing r = template_seeing inputs
      /\ te_alerts r = rsum (map (fun v => n_alerts (diff_m5 (te_m5 r) v)) later)
      /\ te_input_m5s r = map tv_m5 inputs /\ te_input_seeing r = map tv_seeing inputs
      /\ te_better r = (match later with
                        | [] => None
                        | _ => Some (INR (length (filter (fun v => rltb (te_seeing r) (tv_seeing v)) later)) / INR (length later))
                        end)
      /\ te_lc r = map (fun v => {| lc_mjd := tv_mjd v; lc_night := tv_night v; lc_band := tv_band v;
                                    lc_diff := diff_m5 (te_m5 r) v; lc_m5 := tv_m5 v; lc_seeing := tv_seeing v;
                                    lc_alerts := n_alerts (diff_m5 (te_m5 r) v) |}) later).

Lemma run_some cf dec data r : run cf dec data = Ok (Some r) ->
  exists bs bm pre c post, benches cf dec (vsort data) = Ok (bs, bm)
    /\ (S (cf_k cf) <= length data)%nat
    /\ vsort data = pre ++ c :: post /\ ok_visit bs bm c = true /\ length (filter (ok_visit bs bm) pre) = cf_k cf
    /\ template_of cf bs bm pre c post (filter (ok_visit bs bm) (pre ++ [c])) r.
Proof.
  unfold run. destruct (Nat.ltb_spec (length data) (S (cf_k cf))) as [|GE]; [discriminate|].
  unfold bind. destruct (benches cf dec (vsort data)) as [[bs bm]|] eqn:B; [|discriminate].
  destruct (Nat.ltb_spec (length (where_idx (ok_visit bs bm) (vsort data))) (S (cf_k cf))) as [|GE2]; [discriminate|].
  rewrite where_idx_from, where_from_length in GE2.
  destruct (split_at (ok_visit bs bm) (vsort data) (cf_k cf)) as (pre & c & post & E & Pc & L); [lia|].
  rewrite E. destruct (firstn_where (ok_visit bs bm) _ pre c post Pc L) as [F N].
  unfold arr_get. rewrite N. rewrite nth_error_app2, Nat.sub_diag by lia. cbn [nth_error].
  rewrite F.
  pose proof (at_where (ok_visit bs bm) (pre ++ c :: post) (pre ++ [c]) [] post) as AW. cbn [app length] in AW.
  specialize (AW ltac:(now rewrite <- app_assoc)). unfold at_idx in AW. rewrite AW.
  intro H. injection H as <-. exists bs, bm, pre, c, post. rewrite Nat.add_1_r. unfold template_of. cbn. repeat (split; [now auto|]).
  repeat split.
Qed.
Lemma run_none cf dec data : run cf dec data = Ok None <->
  (length data < S (cf_k cf))%nat \/ exists bs bm, benches cf dec (vsort data) = Ok (bs, bm)
     /\ (length (filter (ok_visit bs bm) data) < S (cf_k cf))%nat.
Proof.
  unfold run. destruct (Nat.ltb_spec (length data) (S (cf_k cf))) as [LT|GE].
  { split; auto. }
  unfold bind. destruct (benches cf dec (vsort data)) as [[bs bm]|] eqn:B.
  2: { split; [discriminate|]. intros [C|(? & ? & C & _)]; [lia|discriminate]. }
  assert (EL : length (filter (ok_visit bs bm) data) = length (where_idx (ok_visit bs bm) (vsort data))).
  { rewrite where_idx_from, where_from_length. apply Small_Proofs.filter_length_perm, Permutation_sym, vsort_perm. }
  destruct (Nat.ltb_spec (length (where_idx (ok_visit bs bm) (vsort data))) (S (cf_k cf))) as [LT|GE2].
  { split; [|reflexivity]. intros _. right. exists bs, bm. split; [reflexivity|lia]. }
  split.
  - destruct (split_at (ok_visit bs bm) (vsort data) (cf_k cf)) as (pre & c & post & E & Pc & L);
      [rewrite where_idx_from, where_from_length in GE2; lia|].
    rewrite E. destruct (firstn_where (ok_visit bs bm) _ pre c post Pc L) as [_ N].
    unfold arr_get. rewrite N. rewrite nth_error_app2, Nat.sub_diag by lia. cbn [nth_error]. discriminate.
  - intros [C|(bs' & bm' & C & L)]; [lia|]. injection C as <- <-. lia.
Qed.
Lemma run_err cf dec data e : run cf dec data = Err e -> benches cf dec (vsort data) = Err e.
Proof.
  unfold run. destruct (Nat.ltb_spec (length data) (S (cf_k cf))) as [LT|GE]; [discriminate|].
  unfold bind. destruct (benches cf dec (vsort data)) as [[bs bm]|] eqn:B; [|intro H; injection H as ->; reflexivity].
  destruct (Nat.ltb_spec (length (where_idx (ok_visit bs bm) (vsort data))) (S (cf_k cf))) as [LT|GE2]; [discriminate|].
  destruct (split_at (ok_visit bs bm) (vsort data) (cf_k cf)) as (pre & c & post & E & Pc & L);
    [rewrite where_idx_from, where_from_length in GE2; lia|].
  rewrite E. destruct (firstn_where (ok_visit bs bm) _ pre c post Pc L) as [_ N].
  unfold arr_get. rewrite N. rewrite nth_error_app2, Nat.sub_diag by lia. cbn [nth_error]. discriminate.
Qed.

(** ** Percentiles *)
Lemma int_part_bounds x : IZR (Int_part x) <= x < IZR (Int_part x) + 1.
Proof. destruct (base_Int_part x). lra. Qed.
Lemma Int_part_nonneg x : 0 <= x -> (0 <= Int_part x)%Z.
Proof. intro H. destruct (int_part_bounds x) as [_ U]. apply le_IZR. assert (-1 < Int_part x)%Z; [apply lt_IZR; lra|]. apply IZR_le. lia. Qed.
Lemma percentile_is p l : l <> [] -> 0 <= p <= 100 -> Percentile p l (percentile l p).
Proof.
  intros NE Hp. unfold percentile.
  pose proof (Small_Proofs.rsort_perm l) as P. pose proof (Small_Proofs.rsort_sorted l) as S.
  pose proof (Permutation_length P) as LP. set (s := Small_Model.rsort l) in *.
  assert (Ln : (0 < length l)%nat) by (destruct l; [congruence|cbn; lia]).
  set (h := p / 100 * INR (length s - 1)).
  assert (Hh : 0 <= h <= INR (length s - 1)).
  { unfold h. pose proof (pos_INR (length s - 1)). split; [apply Rmult_le_pos; lra|]. rewrite <- (Rmult_1_l (INR _)) at 2. apply Rmult_le_compat_r; lra. }
  pose proof (int_part_bounds h) as IB. pose proof (Int_part_nonneg h (proj1 Hh)) as I0.
  set (i := Z.to_nat (Int_part h)).
  assert (Ii : INR i = IZR (Int_part h)). { unfold i. rewrite INR_IZR_INZ, Z2Nat.id by assumption. reflexivity. }
  assert (Li : (i <= length s - 1)%nat) by (apply INR_le; lra).
  exists s, i, (h - IZR (Int_part h)), (nth i s 0), (nth (Nat.min (Datatypes.S i) (length s - 1)) s 0).
  split; [now apply Permutation_sym|]. split; [assumption|]. split; [rewrite <- LP; fold h; rewrite Ii; lra|]. split; [lra|].
  split; [apply nth_error_nth'; lia|]. split; [|reflexivity].
  destruct (Nat.eq_dec i (length s - 1)) as [E|NEi].
  - right. assert (h - IZR (Int_part h) = 0). { rewrite <- Ii, E. apply Rle_antisym; [lra|]. rewrite <- E, Ii. lra. }
    split; [assumption|]. rewrite Nat.min_r by lia. now rewrite <- E.
  - left. rewrite Nat.min_l by lia. apply nth_error_nth'. lia.
Qed.

Lemma sorted_nth_le (s : list R) : StronglySorted Rle s -> forall i j x y, (i <= j)%nat -> nth_error s i = Some x -> nth_error s j = Some y -> x <= y.
Proof.
  induction 1 as [|a s S IH F]; intros i j x y L Hi Hj.
  - destruct i; discriminate.
  - rewrite Forall_forall in F. destruct i as [|i], j as [|j]; cbn in Hi, Hj.
    + injection Hi as <-. injection Hj as <-. lra.
    + injection Hi as <-. apply F. eapply nth_error_In; eassumption.
    + lia.
    + eapply IH; [|eassumption|eassumption]. lia.
Qed.
Lemma filter_firstn_all {A} (p : A -> bool) (l : list A) n : (n <= length l)%nat -> (forall i x, (i < n)%nat -> nth_error l i = Some x -> p x = true) ->
  (n <= length (filter p l))%nat.
Proof.
  intros L H. rewrite <- (firstn_skipn n l), filter_app, app_length.
  assert (E : filter p (firstn n l) = firstn n l).
  { assert (A0 : forall m, (forall x, In x m -> p x = true) -> filter p m = m).
    { clear. induction m as [|x m IH]; intro H; [reflexivity|]. cbn. rewrite H by (now left). f_equal. apply IH. intros. apply H. now right. }
    apply A0. intros x I. apply In_nth_error in I. destruct I as [i Hi].
    assert (Li : (i < n)%nat). { pose proof (proj1 (nth_error_Some (firstn n l) i) ltac:(congruence)) as Q. rewrite firstn_length in Q. lia. }
    apply (H i); [assumption|]. rewrite <- (firstn_skipn n l), nth_error_app1; [assumption|]. rewrite firstn_length. lia. }
  rewrite E, firstn_length. lia.
Qed.
Lemma filter_skipn_all {A} (p : A -> bool) (l : list A) n : (forall i x, (n <= i)%nat -> nth_error l i = Some x -> p x = true) ->
  (length l - n <= length (filter p l))%nat.
Proof.
  intros H. rewrite <- (firstn_skipn n l) at 2. rewrite filter_app, app_length.
  assert (E : filter p (skipn n l) = skipn n l).
  { assert (A0 : forall m, (forall x, In x m -> p x = true) -> filter p m = m).
    { clear. induction m as [|x m IH]; intro H; [reflexivity|]. cbn. rewrite H by (now left). f_equal. apply IH. intros. apply H. now right. }
    apply A0. intros x I. destruct (le_gt_dec n (length l)) as [Ln|G].
    2: { rewrite skipn_all2 in I by lia. destruct I. }
    apply In_nth_error in I. destruct I as [i Hi].
    apply (H (n + i)%nat); [lia|]. rewrite <- (firstn_skipn n l), nth_error_app2 by (rewrite firstn_length; lia).
    rewrite firstn_length, Nat.min_l by lia. replace (n + i - n)%nat with i by lia. assumption. }
  rewrite E, skipn_length. lia.
Qed.
Lemma percentile_below p l x : Percentile p l x -> (0 < length l)%nat ->
  forall q : R -> bool, (forall y, y <= x -> q y = true) -> p / 100 * INR (length l - 1) < INR (length (filter q l)).
Proof.
  intros (s & i & f & a & b & P & S & E & F & Ha & Hb & ->) Ln q Q.
  rewrite (Small_Proofs.filter_length_perm q _ _ P). pose proof (Permutation_length P) as LP.
  assert (AB : a <= a + f * (b - a)).
  { destruct Hb as [Hb|[-> ->]]; [|lra]. pose proof (sorted_nth_le s S i (Datatypes.S i) a b ltac:(lia) Ha Hb). nra. }
  assert (Li : (i < length s)%nat) by (apply nth_error_Some; congruence).
  assert (L : (Datatypes.S i <= length (filter q s))%nat).
  { apply filter_firstn_all; [lia|]. intros j y Lj Hj. apply Q. eapply Rle_trans; [|exact AB]. eapply sorted_nth_le; [exact S| |exact Hj|exact Ha]. lia. }
  apply le_INR in L. rewrite S_INR in L. lra.
Qed.
Lemma percentile_above p l x : Percentile p l x -> (0 < length l)%nat ->
  forall q : R -> bool, (forall y, x <= y -> q y = true) -> (100 - p) / 100 * INR (length l - 1) < INR (length (filter q l)).
Proof.
  intros (s & i & f & a & b & P & S & E & F & Ha & Hb & ->) Ln q Q.
  rewrite (Small_Proofs.filter_length_perm q _ _ P). pose proof (Permutation_length P) as LP.
  assert (Li : (i < length s)%nat) by (apply nth_error_Some; congruence).
  replace ((100 - p) / 100 * INR (length l - 1)) with (INR (length l - 1) - p / 100 * INR (length l - 1)) by field.
  rewrite E. rewrite minus_INR by lia. cbn [INR].
  destruct Hb as [Hb|[-> ->]].
  - assert (AB : a + f * (b - a) <= b).
    { pose proof (sorted_nth_le s S i (Datatypes.S i) a b ltac:(lia) Ha Hb). nra. }
    destruct (Req_dec f 0) as [->|NZ].
    + assert (L : (length s - i <= length (filter q s))%nat).
      { apply filter_skipn_all. intros j y Lj Hj. apply Q. replace (a + 0 * (b - a)) with a by ring. eapply sorted_nth_le; [exact S| |exact Ha|exact Hj]. lia. }
      apply le_INR in L. rewrite minus_INR in L by lia. rewrite LP. lra.
    + assert (L : (length s - Datatypes.S i <= length (filter q s))%nat).
      { apply filter_skipn_all. intros j y Lj Hj. apply Q. eapply Rle_trans; [exact AB|]. eapply sorted_nth_le; [exact S| |exact Hb|exact Hj]. lia. }
      apply le_INR in L. rewrite minus_INR in L by lia. rewrite S_INR in L. rewrite LP. lra.
  - assert (L : (length s - i <= length (filter q s))%nat).
    { apply filter_skipn_all. intros j y Lj Hj. apply Q. replace (a + 0 * (a - a)) with a by ring. eapply sorted_nth_le; [exact S| |exact Ha|exact Hj]. lia. }
    apply le_INR in L. rewrite minus_INR in L by lia. rewrite LP. lra.
Qed.

Lemma percentile_unique p l x y : Percentile p l x -> Percentile p l y -> x = y.
Proof.
  intros (s & i & f & a & b & P & S & E & F & Ha & Hb & ->) (s' & i' & f' & a' & b' & P' & S' & E' & F' & Ha' & Hb' & ->).
  assert (s = s') by (apply Small_Proofs.sorted_unique; auto; rewrite <- P; exact P'). subst s'.
  assert (I : i = i').
  { assert (i < i' + 1)%nat by (apply INR_lt; rewrite plus_INR; cbn [INR]; lra).
    assert (i' < i + 1)%nat by (apply INR_lt; rewrite plus_INR; cbn [INR]; lra). lia. }
  subst i'. assert (f = f') by lra. subst f'. rewrite Ha in Ha'. injection Ha' as <-.
  destruct Hb as [Hb|[-> ->]], Hb' as [Hb'|[F0 ->]]; try lra.
  - rewrite Hb in Hb'. injection Hb' as <-. reflexivity.
  - rewrite F0. lra.
Qed.
Lemma percentile_perm l m p : Permutation l m -> percentile l p = percentile m p.
Proof. intro P. unfold percentile. now rewrite (Small_Proofs.rsort_perm_eq l m P). Qed.
Lemma sorted_repeat2 a b n m : a <= b -> StronglySorted Rle (repeat a n ++ repeat b m).
Proof.
  intro L. assert (B : StronglySorted Rle (repeat b m)).
  { induction m; cbn; constructor; auto. apply Forall_forall. intros x I. apply repeat_spec in I. lra. }
  induction n; cbn; [assumption|]. constructor; [assumption|]. apply Forall_forall. intros x I. apply in_app_or in I.
  destruct I as [I|I]; apply repeat_spec in I; lra.
Qed.
