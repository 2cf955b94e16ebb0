(** Lemmas about the group model. *)
From Verif Require Import Base Group_Model Group_Spec Archive_Proofs.
From Coq Require Import Lia QArith Qround Lqa Permutation.
Open Scope Z_scope.

(** * Stackers on a shared table *)
Definition agree (cols : list string) (t t' : table) : Prop :=
  t_rows t = t_rows t' /\ forall c, In c cols -> column t c = column t' c.

Lemma stack_run_other : forall s cols c t, only_writes s cols -> ~ In c cols ->
  t_rows (stack_run true s t) = t_rows t /\ column (stack_run true s t) c = column t c.
Proof.
  intros s cols c t Hw Hc. unfold stack_run. destruct (Nat.eqb (t_rows t) 0); [split; reflexivity|].
  destruct (Hw t) as [Hr Ho]. split; [exact Hr | exact (Ho c Hc)].
Qed.
Lemma stack_run_rows : forall s cols t, only_writes s cols -> t_rows (stack_run true s t) = t_rows t.
Proof. intros s cols t Hw. unfold stack_run. destruct (Nat.eqb (t_rows t) 0); [reflexivity | exact (proj1 (Hw t))]. Qed.
Lemma agree_other : forall s cols have t t', only_writes s cols -> (forall c, In c have -> ~ In c cols) ->
  agree have t t' -> agree have (stack_run true s t) t'.
Proof.
  intros s cols have t t' Hw Hd [Hr Hc]. split; [rewrite (stack_run_rows _ _ _ Hw); exact Hr|]. intros c Hi.
  rewrite (proj2 (stack_run_other _ _ c t Hw (Hd c Hi))). exact (Hc c Hi).
Qed.
Lemma agree_pre : forall pre have t t', (forall s, In s pre -> exists cols, only_writes s cols /\ forall c, In c have -> ~ In c cols) ->
  agree have t t' -> agree have (run_stackers pre t) t'.
Proof.
  induction pre as [|s pre IH]; intros have t t' Hp Ha; [exact Ha|]. unfold run_stackers in *. cbn [fold_left]. apply IH.
  - intros s' Hs'. apply Hp. right. exact Hs'.
  - destruct (Hp s (or_introl eq_refl)) as (cols & Hw & Hd). apply agree_other with (cols := cols); assumption.
Qed.
Lemma agree_own : forall s req have t t', only_writes s (k_added s) -> determined_by s req -> (forall c, In c req -> In c have) ->
  agree have t t' -> t_rows t <> 0%nat -> agree (k_added s ++ have) (stack_run true s t) (stack_run true s t').
Proof.
  intros s req have t t' Hw Hdet Hreq [Hr Hc] Hnz. unfold stack_run. rewrite <- Hr.
  destruct (Nat.eqb_spec (t_rows t) 0) as [E|_]; [contradiction|]. split.
  - rewrite (proj1 (Hw t)), (proj1 (Hw t')). exact Hr.
  - intros c Hi. destruct (in_dec string_dec c (k_added s)) as [Hin|Hout].
    + apply (Hdet t t' Hr); [intros x Hx; exact (Hc x (Hreq x Hx)) | exact Hin].
    + rewrite (proj2 (Hw t) c Hout), (proj2 (Hw t') c Hout). apply Hc. apply in_app_or in Hi. destruct Hi as [Hi|Hi]; [contradiction | exact Hi].
Qed.
Definition all_added (own : list (stack * list string)) : list string := flat_map (fun p => k_added (fst p)) own.
Lemma agree_mix : forall stackers others merged, mix stackers others merged -> forall own have t t',
  map fst own = stackers ->
  (forall s req, In (s, req) own -> only_writes s (k_added s) /\ determined_by s req) -> reads_ok have own ->
  (forall s, In s others -> exists cols, only_writes s cols /\ forall c, In c have \/ In c (all_added own) -> ~ In c cols) ->
  agree have t t' -> t_rows t <> 0%nat ->
  agree (all_added own ++ have) (run_stackers merged t) (run_stackers stackers t').
Proof.
  intros stackers others merged H. induction H as [|s a b l H IH|s a b l H IH]; intros own have t t' E Hown Hreads Hoth Ha Hnz.
  - destruct own; [|discriminate]. exact Ha.
  - destruct own as [|[s' req] own]; [discriminate|]. cbn in E. injection E as -> E. destruct Hreads as [Hr Hreads].
    destruct (Hown s req (or_introl eq_refl)) as [Hw Hdet]. unfold run_stackers in *. cbn [fold_left].
    assert (agree (k_added s ++ have) (stack_run true s t) (stack_run true s t')) as Ha' by (apply agree_own with (req := req); assumption).
    pose proof (IH own (k_added s ++ have) (stack_run true s t) (stack_run true s t') E) as IH'.
    destruct IH' as [Hrow Hcol].
    + intros s0 r0 Hi. apply Hown. right. exact Hi.
    + exact Hreads.
    + intros s0 Hs0. destruct (Hoth s0 Hs0) as (cols & Hw0 & Hd0). exists cols. split; [exact Hw0|]. intros c Hc. apply Hd0.
      unfold all_added. cbn [flat_map fst]. rewrite in_app_iff. destruct Hc as [Hc|Hc]; [|right; right; exact Hc].
      apply in_app_or in Hc. tauto.
    + exact Ha'.
    + rewrite (stack_run_rows _ _ _ Hw). exact Hnz.
    + split; [exact Hrow|]. intros c Hc. apply Hcol. unfold all_added in *. cbn [flat_map fst] in Hc. rewrite !in_app_iff in *. tauto.
  - unfold run_stackers in *. cbn [fold_left]. destruct (Hoth s (or_introl eq_refl)) as (cols & Hw & Hd). apply IH; auto.
    + intros s0 Hs0. apply Hoth. right. exact Hs0.
    + apply agree_other with (cols := cols); [exact Hw | intros c Hc; apply Hd; left; exact Hc | exact Ha].
    + rewrite (stack_run_rows _ _ _ Hw). exact Hnz.
Qed.
Lemma run_empty : forall l t, t_rows t = 0%nat -> run_stackers l t = t.
Proof.
  induction l as [|s l IH]; intros t E; [reflexivity|]. unfold run_stackers in *. cbn [fold_left]. unfold stack_run at 2.
  rewrite E. cbn [Nat.eqb]. apply IH. exact E.
Qed.

(** * Reduced bundles *)
Section Dicts.
  Notation dict := (list (string * entry)).
  Definition has_entry (d : dict) (e : entry) : Prop := exists k, dget String.eqb d k = Some e.
  Lemma dget_dset_s : forall (d : dict) k v k', dget String.eqb (dset String.eqb d k v) k' = if String.eqb k' k then Some v else dget String.eqb d k'.
  Proof. intros. apply (dget_dset String.eqb String.eqb_eq). Qed.
  Lemma update_get : forall new (d : dict) k, NoDup (map fst new) ->
    dget String.eqb (dict_update d new) k = match dget String.eqb new k with Some v => Some v | None => dget String.eqb d k end.
  Proof.
    induction new as [|[k0 v0] new IH]; intros d k Hn; [reflexivity|]. inversion Hn as [|? ? Hk Hn']; subst. unfold dict_update in *.
    cbn [fold_left fst snd]. rewrite (IH _ _ Hn'), dget_dset_s. cbn [dget]. destruct (String.eqb_spec k k0) as [->|Hne]; [|reflexivity].
    destruct (dget String.eqb new k0) eqn:E; [|reflexivity].
    apply (dget_in_spec String.eqb String.eqb_eq) in E. apply in_map with (f := fst) in E. contradiction.
  Qed.
  (** the pairs that reduce_current assigns, in order *)
  Definition assigned (bd : dict) (current : list (string * rbundle)) : dict :=
    flat_map (fun kb => map (fun r => (reduce_key bd (snd kb) r, Reduced (fst kb) r)) (rb_reduce (snd kb))) current.
  Lemma reduce_fold : forall bd current d, fold_left (reduce_bundle bd) current d = dict_update d (assigned bd current).
  Proof.
    intros bd. induction current as [|[k b] t IH]; intros d; [reflexivity|]. cbn [fold_left]. rewrite IH.
    unfold dict_update, assigned. cbn [flat_map]. rewrite fold_left_app. f_equal. unfold reduce_bundle. cbn [fst snd].
    revert d. clear. induction (rb_reduce b) as [|r t IH]; intros d; [reflexivity|]. cbn [fold_left map fst snd]. apply IH.
  Qed.
  Lemma dset_new : forall (d : dict) k v, ~ In k (map fst d) -> dset String.eqb d k v = d ++ [(k, v)].
  Proof.
    induction d as [|[k0 v0] d IH]; intros k v H; [reflexivity|]. cbn [dset]. destruct (String.eqb_spec k k0) as [->|Hne].
    - destruct H. left. reflexivity.
    - cbn. f_equal. apply IH. intros Hi. apply H. right. exact Hi.
  Qed.
  Lemma update_fresh : forall new (d : dict), NoDup (map fst d ++ map fst new) -> dict_update d new = d ++ new.
  Proof.
    induction new as [|[k v] new IH]; intros d Hn; [rewrite app_nil_r; reflexivity|]. unfold dict_update in *. cbn [fold_left fst snd].
    cbn [map fst] in Hn. apply NoDup_remove in Hn as Hr. destruct Hr as [_ Hk].
    rewrite dset_new by (intros Hi; apply Hk; apply in_or_app; left; exact Hi). rewrite IH.
    - rewrite <- app_assoc. reflexivity.
    - rewrite map_app. cbn [map fst]. rewrite <- app_assoc. exact Hn.
  Qed.
End Dicts.

(** * Percentiles *)
Lemma qleb_iff : forall a b, qleb a b = true <-> (a <= b)%Q.
Proof. intros. apply Qle_bool_iff. Qed.
Lemma qleb_false : forall a b, qleb a b = false -> (b < a)%Q.
Proof. intros a b H. apply Qnot_le_lt. intros Hle. apply qleb_iff in Hle. congruence. Qed.
Lemma qltb_iff : forall a b, qltb a b = true <-> (a < b)%Q.
Proof.
  intros. unfold qltb. rewrite negb_true_iff. split; [intros H; apply qleb_false; exact H|]. intros H.
  destruct (Qle_bool b a) eqn:E; [|reflexivity]. apply Qle_bool_iff in E. lra.
Qed.
Lemma qltb_false : forall a b, qltb a b = false -> (b <= a)%Q.
Proof. intros a b H. unfold qltb in H. apply negb_false_iff, Qle_bool_iff in H. exact H. Qed.
Lemma qinsert_perm : forall x l, Permutation (qinsert x l) (x :: l).
Proof. intros x. induction l as [|y t IH]; [reflexivity|]. cbn. destruct (qleb x y); [reflexivity|]. rewrite IH. apply perm_swap. Qed.
Lemma qsort_perm : forall l, Permutation (qsort l) l.
Proof. induction l as [|x t IH]; [reflexivity|]. cbn. rewrite qinsert_perm, IH. reflexivity. Qed.
Definition qsorted (l : list Q) : Prop := forall i j, (i <= j < length l)%nat -> (nth i l 0 <= nth j l 0)%Q.
Lemma strong_qsorted : forall l, Sorted.StronglySorted Qle l -> qsorted l.
Proof.
  induction 1 as [|x l Hs IH Hf]; intros i j Hij; [cbn in Hij; lia|]. rewrite Forall_forall in Hf.
  destruct i as [|i], j as [|j]; cbn in *; try lia; [lra | apply Hf, nth_In; lia | apply IH; lia].
Qed.
Lemma qinsert_sorted : forall x l, Sorted.StronglySorted Qle l -> Sorted.StronglySorted Qle (qinsert x l).
Proof.
  intros x. induction l as [|y t IH]; intros Hs; [repeat constructor|]. inversion Hs as [|? ? Hst Hf]; subst. cbn.
  rewrite Forall_forall in Hf. destruct (qleb x y) eqn:E.
  - constructor; [exact Hs|]. apply qleb_iff in E. constructor; [exact E|]. rewrite Forall_forall. intros z Hz. specialize (Hf z Hz). lra.
  - constructor; [apply IH; exact Hst|]. rewrite Forall_forall. intros z Hz. apply Permutation_in with (l' := x :: t) in Hz; [|apply qinsert_perm].
    apply qleb_false in E. destruct Hz as [<-|Hz]; [lra | exact (Hf z Hz)].
Qed.
Lemma qsort_strong : forall l, Sorted.StronglySorted Qle (qsort l).
Proof. induction l as [|x t IH]; [constructor|]. cbn. apply qinsert_sorted. exact IH. Qed.
Lemma qsort_sorted : forall l, qsorted (qsort l).
Proof. intros. apply strong_qsorted, qsort_strong. Qed.
Lemma qsort_length : forall l, length (qsort l) = length l.
Proof. intros. apply Permutation_length, qsort_perm. Qed.

(** the interpolated value at position h *)
Definition interp (s : list Q) (h : Q) : Q :=
  let lo := Z.to_nat (Qfloor h) in
  (nth lo s 0 + (h - inject_Z (Qfloor h)) * (nth (Nat.min (S lo) (length s - 1)) s 0 - nth lo s 0))%Q.
Definition position (n : nat) (p : Q) : Q := (p / 100 * inject_Z (Z.of_nat n - 1))%Q.
Lemma percentile_interp : forall l p, percentile l p = interp (qsort l) (position (length (qsort l)) p).
Proof. reflexivity. Qed.
Lemma frac_range : forall h, (0 <= h - inject_Z (Qfloor h) < 1)%Q.
Proof.
  intros h. pose proof (Qfloor_le h). pose proof (Qlt_floor h). rewrite inject_Z_plus in H0. change (inject_Z 1) with 1%Q in H0. lra.
Qed.
Lemma floor_range : forall (s : list Q) h, (0 <= h <= inject_Z (Z.of_nat (length s) - 1))%Q -> 
  0 <= Qfloor h <= Z.of_nat (length s) - 1 /\ (Z.to_nat (Qfloor h) < length s)%nat.
Proof.
  intros s h [H0 H1]. assert (0 <= Qfloor h) by (change 0 with (Qfloor (inject_Z 0)); apply Qfloor_resp_le; exact H0).
  assert (Qfloor h <= Z.of_nat (length s) - 1) by (rewrite <- (Qfloor_Z (Z.of_nat (length s) - 1)); apply Qfloor_resp_le; exact H1).
  split; lia.
Qed.
Lemma interp_between : forall s h, qsorted s -> (0 <= h <= inject_Z (Z.of_nat (length s) - 1))%Q ->
  let lo := Z.to_nat (Qfloor h) in
  (nth lo s 0 <= interp s h <= nth (Nat.min (S lo) (length s - 1)) s 0)%Q.
Proof.
  intros s h Hs Hh lo. destruct (floor_range s h Hh) as [Hf Hlo]. unfold interp. fold lo.
  assert (nth lo s 0 <= nth (Nat.min (S lo) (length s - 1)) s 0)%Q as Hab by (apply Hs; unfold lo in *; lia).
  pose proof (frac_range h) as [F0 F1]. set (a := nth lo s 0%Q) in *. set (b := nth (Nat.min (S lo) (length s - 1)) s 0%Q) in *.
  set (f := (h - inject_Z (Qfloor h))%Q) in *.
  assert (0 <= f * (b - a))%Q by (apply Qmult_le_0_compat; lra).
  assert (0 <= (1 - f) * (b - a))%Q by (apply Qmult_le_0_compat; lra). split; lra.
Qed.
Lemma interp_mono : forall s h1 h2, qsorted s -> (0 <= h1)%Q -> (h1 <= h2)%Q -> (h2 <= inject_Z (Z.of_nat (length s) - 1))%Q ->
  (interp s h1 <= interp s h2)%Q.
Proof.
  intros s h1 h2 Hs H0 H12 H2. destruct (floor_range s h1 ltac:(split; lra)) as [Hf1 Hl1]. destruct (floor_range s h2 ltac:(split; lra)) as [Hf2 Hl2].
  assert (Qfloor h1 <= Qfloor h2) as Hff by (apply Qfloor_resp_le; exact H12).
  destruct (Z.eq_dec (Qfloor h1) (Qfloor h2)) as [E|E].
  - unfold interp. rewrite <- E. set (lo := Z.to_nat (Qfloor h1)).
    assert (nth lo s 0 <= nth (Nat.min (S lo) (length s - 1)) s 0)%Q as Hab by (apply Hs; unfold lo in *; lia).
    set (a := nth lo s 0%Q) in *. set (b := nth (Nat.min (S lo) (length s - 1)) s 0%Q) in *.
    assert (0 <= (h2 - h1) * (b - a))%Q by (apply Qmult_le_0_compat; lra). lra.
  - pose proof (interp_between s h1 Hs ltac:(split; lra)) as [_ B1]. pose proof (interp_between s h2 Hs ltac:(split; lra)) as [B2 _]. cbv zeta in *.
    assert (nth (Nat.min (S (Z.to_nat (Qfloor h1))) (length s - 1)) s 0 <= nth (Z.to_nat (Qfloor h2)) s 0)%Q by (apply Hs; lia). lra.
Qed.
Lemma interp_int : forall s i, (i < length s)%nat -> (interp s (inject_Z (Z.of_nat i)) == nth i s 0)%Q.
Proof. intros s i Hi. unfold interp. rewrite Qfloor_Z, Nat2Z.id. lra. Qed.
Lemma position_range : forall n p, (0 < n)%nat -> (0 <= p <= 100)%Q -> (0 <= position n p <= inject_Z (Z.of_nat n - 1))%Q.
Proof.
  intros n p Hn Hp. unfold position. assert (0 <= inject_Z (Z.of_nat n - 1))%Q as Hz by (change 0%Q with (inject_Z 0); rewrite <- Zle_Qle; lia).
  assert (0 <= p / 100)%Q by (unfold Qdiv; apply Qmult_le_0_compat; [lra | discriminate]).
  assert (0 <= 1 - p / 100)%Q by (setoid_replace (p / 100)%Q with (p * (1#100))%Q by reflexivity; lra).
  set (q := (p / 100)%Q) in *. set (m := inject_Z (Z.of_nat n - 1)) in *.
  assert (0 <= q * m)%Q by (apply Qmult_le_0_compat; assumption). assert (0 <= (1 - q) * m)%Q by (apply Qmult_le_0_compat; assumption). split; lra.
Qed.
Lemma position_mono : forall n p q, (0 < n)%nat -> (p <= q)%Q -> (position n p <= position n q)%Q.
Proof.
  intros n p q Hn Hpq. unfold position. assert (0 <= inject_Z (Z.of_nat n - 1))%Q as Hz by (change 0%Q with (inject_Z 0); rewrite <- Zle_Qle; lia).
  apply Qmult_le_compat_r; [|exact Hz]. unfold Qdiv. apply Qmult_le_compat_r; [exact Hpq | discriminate].
Qed.
Lemma percentile_mono : forall l p q, l <> [] -> (0 <= p)%Q -> (p <= q)%Q -> (q <= 100)%Q -> (percentile l p <= percentile l q)%Q.
Proof.
  intros l p q Hl Hp Hpq Hq. rewrite !percentile_interp. assert (0 < length (qsort l))%nat as Hn.
  { rewrite qsort_length. destruct l; [contradiction | cbn; lia]. }
  pose proof (position_range (length (qsort l)) p Hn ltac:(split; lra)). pose proof (position_range (length (qsort l)) q Hn ltac:(split; lra)).
  apply interp_mono; [apply qsort_sorted | lra | apply position_mono; [exact Hn | exact Hpq] | lra].
Qed.
Lemma percentile_between : forall l p, l <> [] -> (0 <= p <= 100)%Q ->
  (exists x, In x l /\ x <= percentile l p)%Q /\ (exists x, In x l /\ percentile l p <= x)%Q.
Proof.
  intros l p Hl Hp. rewrite percentile_interp. assert (0 < length (qsort l))%nat as Hn.
  { rewrite qsort_length. destruct l; [contradiction | cbn; lia]. }
  pose proof (position_range (length (qsort l)) p Hn Hp) as Hpos.
  pose proof (interp_between _ _ (qsort_sorted l) Hpos) as [B1 B2]. destruct (floor_range _ _ Hpos) as [_ Hlo]. cbv zeta in *. split.
  - eexists. split; [|exact B1]. apply (Permutation_in _ (qsort_perm l)). apply nth_In. exact Hlo.
  - eexists. split; [|exact B2]. apply (Permutation_in _ (qsort_perm l)). apply nth_In. lia.
Qed.
Lemma percentile_const : forall l p c, l <> [] -> (0 <= p <= 100)%Q -> (forall x, In x l -> x == c)%Q -> (percentile l p == c)%Q.
Proof.
  intros l p c Hl Hp Hc. destruct (percentile_between l p Hl Hp) as [(x & Hx & H1) (y & Hy & H2)].
  pose proof (Hc x Hx). pose proof (Hc y Hy). lra.
Qed.
Lemma filter_perm_length : forall {A} (p : A -> bool) l m, Permutation l m -> length (filter p l) = length (filter p m).
Proof.
  intros A p l m H. induction H; cbn; auto; [destruct (p x); cbn; lia | destruct (p x), (p y); cbn; lia | lia].
Qed.
(** at least the elements at whole positions between h1 and h2 lie between the interpolated values *)
Lemma count_between : forall s h1 h2, qsorted s -> (0 <= h1)%Q -> (h1 <= h2)%Q -> (h2 <= inject_Z (Z.of_nat (length s) - 1))%Q ->
  Qfloor h2 - Qceiling h1 + 1 <= Z.of_nat (retained (interp s h1) (interp s h2) s).
Proof.
  intros s h1 h2 Hs H0 H12 H2. set (a := Qceiling h1). set (b := Qfloor h2).
  assert (0 <= a) as Ha. { unfold a. change 0 with (Qceiling (inject_Z 0)). apply Qceiling_resp_le. exact H0. }
  destruct (floor_range s h2 ltac:(split; lra)) as [Hb _]. fold b in Hb.
  destruct (Z_lt_le_dec b a) as [Hlt|Hle]; [lia|].
  set (m := firstn (Z.to_nat (b - a + 1)) (skipn (Z.to_nat a) s)).
  assert (length m = Z.to_nat (b - a + 1)) as Hm.
  { unfold m. rewrite firstn_length, skipn_length. lia. }
  assert (s = firstn (Z.to_nat a) s ++ m ++ skipn (Z.to_nat (b - a + 1)) (skipn (Z.to_nat a) s)) as Es.
  { unfold m. rewrite firstn_skipn, firstn_skipn. reflexivity. }
  assert (forall x, In x m -> (Qle_bool (interp s h1) x && Qle_bool x (interp s h2))%bool = true) as Hin.
  { intros x Hx. apply (In_nth m x 0%Q) in Hx. destruct Hx as (i & Hi & <-).
    assert (nth i m 0%Q = nth (Z.to_nat a + i) s 0%Q) as ->.
    { rewrite Es at 1. rewrite app_nth2; rewrite firstn_length; [|lia]. replace (Z.to_nat a + i - Nat.min (Z.to_nat a) (length s))%nat with i by lia.
      rewrite app_nth1 by exact Hi. reflexivity. }
    pose proof (interp_int s (Z.to_nat a + i) ltac:(lia)) as E.
    assert (h1 <= inject_Z (Z.of_nat (Z.to_nat a + i)))%Q as L1.
    { apply Qle_trans with (inject_Z a); [apply Qle_ceiling | rewrite <- Zle_Qle; lia]. }
    assert (inject_Z (Z.of_nat (Z.to_nat a + i)) <= h2)%Q as L2.
    { apply Qle_trans with (inject_Z b); [rewrite <- Zle_Qle; lia | apply Qfloor_le]. }
    pose proof (interp_mono s h1 _ Hs H0 L1 ltac:(lra)). assert (0 <= inject_Z (Z.of_nat (Z.to_nat a + i)))%Q as L0 by (change 0%Q with (inject_Z 0); rewrite <- Zle_Qle; lia).
    pose proof (interp_mono s _ h2 Hs L0 L2 H2). apply andb_true_iff. split; apply Qle_bool_iff; lra. }
  assert (forall l : list Q, (forall x, In x l -> (Qle_bool (interp s h1) x && Qle_bool x (interp s h2))%bool = true) ->
    filter (fun x => (Qle_bool (interp s h1) x && Qle_bool x (interp s h2))%bool) l = l) as Hf.
  { induction l as [|x l IH]; intros Hl; [reflexivity|]. cbn [filter]. rewrite (Hl x (or_introl eq_refl)). f_equal. apply IH. intros y Hy. apply Hl. right. exact Hy. }
  unfold retained. set (P := fun x => (Qle_bool (interp s h1) x && Qle_bool x (interp s h2))%bool) in *.
  rewrite Es, !filter_app, !app_length, (Hf m Hin), Hm. lia.
Qed.

(** * optimal_bins *)
Lemma trunc_bounds : forall q lo hi, lo <= hi -> (inject_Z lo <= q <= inject_Z hi)%Q -> lo <= trunc q <= hi.
Proof.
  intros q lo hi Hlh [H1 H2]. unfold trunc. destruct (qleb 0 q).
  - split; [rewrite <- (Qfloor_Z lo) | rewrite <- (Qfloor_Z hi)]; apply Qfloor_resp_le; assumption.
  - split; [rewrite <- (Qceiling_Z lo) | rewrite <- (Qceiling_Z hi)]; apply Qceiling_resp_le; assumption.
Qed.
Lemma clip_ok : forall x lo hi, lo <= hi ->
  exists n, fl_int (let x := if fl_gtb x hi then Fin (inject_Z hi) else x in if fl_ltb x lo then Fin (inject_Z lo) else x) hi = Ok n /\ lo <= n <= hi.
Proof.
  intros x lo hi H. assert (inject_Z lo <= inject_Z hi)%Q as Hq by (rewrite <- Zle_Qle; exact H). destruct x as [q| | |]; cbn [fl_gtb].
  - destruct (qltb (inject_Z hi) q) eqn:E; cbn [fl_ltb].
    + destruct (qltb (inject_Z hi) (inject_Z lo)) eqn:E2; cbn [fl_int]; eexists; (split; [reflexivity|]); apply trunc_bounds; auto; split; lra.
    + apply qltb_false in E. destruct (qltb q (inject_Z lo)) eqn:E2; cbn [fl_int]; eexists; (split; [reflexivity|]); apply trunc_bounds; auto;
        [split; lra | apply qltb_false in E2; split; lra].
  - cbn [fl_ltb]. destruct (qltb (inject_Z hi) (inject_Z lo)); cbn [fl_int]; eexists; (split; [reflexivity|]); apply trunc_bounds; auto; split; lra.
  - cbn [fl_ltb fl_int]. eexists; (split; [reflexivity|]). apply trunc_bounds; auto; split; lra.
  - cbn [fl_ltb fl_int]. exists hi. split; [reflexivity | lia].
Qed.

(** * collapse_night *)
Lemma zinsert_uniq_in : forall x l y, In y (zinsert_uniq x l) <-> y = x \/ In y l.
Proof.
  intros x. induction l as [|a t IH]; intros y; [cbn; intuition congruence|]. cbn [zinsert_uniq].
  destruct (Z.ltb_spec x a); [cbn; intuition congruence|]. destruct (Z.ltb_spec a x); [cbn [In]; rewrite IH; intuition congruence|].
  assert (a = x) by lia. subst. cbn [In]. intuition congruence.
Qed.
Lemma zunique_in : forall l y, In y (zunique l) <-> In y l.
Proof. induction l as [|a t IH]; intros y; [reflexivity|]. unfold zunique in *. cbn [fold_right]. rewrite zinsert_uniq_in, IH. cbn. intuition congruence. Qed.
Lemma zunique_sorted : forall l, Sorted.StronglySorted Z.lt (zunique l).
Proof.
  induction l as [|a t IH]; [constructor|]. unfold zunique in *. cbn [fold_right]. revert IH. generalize (fold_right zinsert_uniq [] t) as m.
  induction m as [|b m IHm]; intros Hs; [repeat constructor|]. inversion Hs as [|? ? Hst Hf]; subst. cbn. rewrite Forall_forall in Hf.
  destruct (Z.ltb_spec a b).
  - constructor; [exact Hs|]. constructor; [lia|]. rewrite Forall_forall. intros z Hz. specialize (Hf z Hz). lia.
  - destruct (Z.ltb_spec b a); [|exact Hs]. constructor; [apply IHm; exact Hst|]. rewrite Forall_forall. intros z Hz.
    apply zinsert_uniq_in in Hz. destruct Hz as [->|Hz]; [lia | exact (Hf z Hz)].
Qed.
Lemma zunique_nodup : forall l, NoDup (zunique l).
Proof.
  intros l. pose proof (zunique_sorted l) as H. induction H as [|x m Hs IH Hf]; [constructor|]. constructor; [|exact IH].
  intros Hi. rewrite Forall_forall in Hf. specialize (Hf x Hi). lia.
Qed.
Lemma minsert_perm : forall v l, Permutation (minsert v l) (v :: l).
Proof. intros v. induction l as [|x t IH]; [reflexivity|]. cbn. destruct (qleb (nv_mjd v) (nv_mjd x)); [reflexivity|]. rewrite IH. apply perm_swap. Qed.
Lemma msort_perm : forall l, Permutation (fold_right minsert [] l) l.
Proof. induction l as [|x t IH]; [reflexivity|]. cbn. rewrite minsert_perm, IH. reflexivity. Qed.
Lemma msort_sorted : forall l, Sorted.StronglySorted (fun a b => nv_mjd a <= nv_mjd b)%Q (fold_right minsert [] l).
Proof.
  induction l as [|v t IH]; [constructor|]. cbn. revert IH. generalize (fold_right minsert [] t) as m.
  induction m as [|x m IHm]; intros Hs; [repeat constructor|]. inversion Hs as [|? ? Hst Hf]; subst. cbn. rewrite Forall_forall in Hf.
  destruct (qleb (nv_mjd v) (nv_mjd x)) eqn:E.
  - apply qleb_iff in E. constructor; [exact Hs|]. constructor; [exact E|]. rewrite Forall_forall. intros z Hz. specialize (Hf z Hz). lra.
  - apply qleb_false in E. constructor; [apply IHm; exact Hst|]. rewrite Forall_forall. intros z Hz.
    apply Permutation_in with (l' := v :: m) in Hz; [|apply minsert_perm]. destruct Hz as [<-|Hz]; [lra | exact (Hf z Hz)].
Qed.
Lemma number_from_in : forall {A} (l : list A) i0 i x, In (i, x) (number_from i0 l) <-> exists k, i = (i0 + k)%nat /\ nth_error l k = Some x.
Proof.
  intros A. induction l as [|a t IH]; intros i0 i x.
  { cbn. split; [intros [] | intros ([|k] & _ & H); discriminate]. }
  cbn [number_from In]. rewrite IH. split.
  - intros [H|(k & -> & H)]; [injection H as <- <-; exists 0%nat; split; [lia | reflexivity]|]. exists (S k). split; [lia | exact H].
  - intros ([|k] & -> & H); [left; injection H as <-; f_equal; lia|]. right. exists k. split; [lia | exact H].
Qed.
Lemma number_from_snd : forall {A} (l : list A) i0, map snd (number_from i0 l) = l.
Proof. intros A. induction l as [|a t IH]; intros i0; [reflexivity|]. cbn. f_equal. apply IH. Qed.
Lemma char_at_repeat : forall c n i, (i < n)%nat -> char_at (repeat_str (String c EmptyString) n) i = String c EmptyString.
Proof.
  intros c. induction n as [|n IH]; intros i Hi; [lia|]. cbn [repeat_str append]. unfold char_at in *. destruct i as [|i]; [reflexivity|].
  cbn [String.get]. apply IH. lia.
Qed.
Lemma collapse_filter_rows : forall coadd median vs f, one_char f ->
  collapse_filter coadd median vs f =
  map (fun n => let g := filter (fun v => nv_night v =? n) (filter (fun v => String.eqb (nv_filter v) f) vs) in
    {| nv_night := n; nv_filter := f; nv_m5 := coadd (map nv_m5 g); nv_mjd := median (map nv_mjd g) |})
    (zunique (map nv_night (filter (fun v => String.eqb (nv_filter v) f) vs))).
Proof.
  intros coadd median vs f [c ->]. unfold collapse_filter. set (inf := filter _ vs). set (nights := zunique _).
  transitivity (map (fun n => let g := filter (fun v => nv_night v =? n) inf in
    {| nv_night := n; nv_filter := String c EmptyString; nv_m5 := coadd (map nv_m5 g); nv_mjd := median (map nv_mjd g) |})
    (map snd (number_from 0 nights))); [|rewrite number_from_snd; reflexivity].
  rewrite map_map. apply map_ext_in. intros [i n] Hin. cbn [snd].
  apply number_from_in in Hin. destruct Hin as (k & -> & Hk). rewrite char_at_repeat; [reflexivity|]. cbn. apply nth_error_Some. rewrite Hk. discriminate.
Qed.
Lemma dget_dset_string : forall {V} (d : list (string * V)) k v k', dget String.eqb (dset String.eqb d k v) k' = if String.eqb k' k then Some v else dget String.eqb d k'.
Proof. intros. apply (dget_dset String.eqb String.eqb_eq). Qed.
Lemma dget_found : forall {V} (d : list (string * V)) k v, NoDup (map fst d) -> In (k, v) d -> dget String.eqb d k = Some v.
Proof. intros V d k v. apply (dget_some_in String.eqb String.eqb_eq). Qed.
Lemma dget_key_in : forall {V} (d : list (string * V)) k v, dget String.eqb d k = Some v -> In k (map fst d).
Proof. intros V d k v H. apply (dget_in_spec String.eqb String.eqb_eq) in H. apply in_map with (f := fst) in H. exact H. Qed.
Lemma filter_filter : forall {A} (p q : A -> bool) l, filter p (filter q l) = filter (fun x => p x && q x) l.
Proof.
  intros A p q. induction l as [|x t IH]; [reflexivity|]. cbn. destruct (q x) eqn:E; cbn; rewrite IH; [rewrite andb_true_r; reflexivity | rewrite andb_false_r; reflexivity].
Qed.
