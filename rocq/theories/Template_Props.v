(** Properties of the template metric: C277-C279. *)
From Coq Require Import String Ascii Reals ZArith Lra Lia Psatz List Permutation Sorted.
From Verif Require Import Base Depth_Model Depth_Spec Depth_Proofs Template_Model Template_Spec Template_Proofs Template_Proofs2 Small_Spec.
From Verif Require Small_Model Small_Proofs.
Import ListNotations.
Open Scope R_scope.

(** ** Concrete surroundings: a field at the zenith, every effective wavelength 500 nm, default thresholds *)
Definition site (k : nat) : config :=
  {| cf_k := k; cf_seeing := 0.8; cf_seeing_pct := 50; cf_m5 := inl default_m5; cf_m5_pct := 50; cf_lat := -0.5;
     cf_wavelens := (fun _ => Some 500); cf_season := (fun m => m / 365.25) |}.
Lemma airmass1 : min_airmass (-0.5) (-0.5) = 1.
Proof. unfold min_airmass. replace (-0.5 - -0.5) with 0 by lra. rewrite Rabs_R0, cos_0. lra. Qed.
Lemma Rpower1 x : Rpower 1 x = 1.
Proof. unfold Rpower. rewrite ln_1, Rmult_0_r. apply exp_0. Qed.
Lemma best1 : best_seeing 0.8 1 500 = 0.8.
Proof. unfold best_seeing. replace (500 / 500) with 1 by lra. rewrite !Rpower1. lra. Qed.
Lemma best1_m5 m c : best_m5 m c 1 0.8 0.8 = m.
Proof. unfold best_m5, log10. replace (0.8 / 0.8) with 1 by lra. rewrite ln_1. lra. Qed.
Lemma site_benches k b t e data : data <> [] -> (forall v, In v data -> tv_band v = b) -> default_m5 b = Some t -> extinction_coeffs b = Some e ->
  benches (site k) (-0.5) data = Ok (Rmax 0.8 (percentile (map tv_seeing data) 50), Rmin t (percentile (map tv_m5 data) (100 - 50))).
Proof.
  intros NE B T E. rewrite (benches_band (site k) _ data b 500 t e NE B eq_refl T E). cbn [site cf_seeing cf_lat cf_seeing_pct cf_m5_pct].
  rewrite airmass1, best1, best1_m5. reflexivity.
Qed.
Lemma int_part_is r z : IZR z <= r < IZR z + 1 -> Int_part r = z.
Proof.
  intros [A B]. destruct (int_part_bounds r) as [C D].
  assert (z < Int_part r + 1)%Z by (apply lt_IZR; rewrite plus_IZR; lra).
  assert (Int_part r < z + 1)%Z by (apply lt_IZR; rewrite plus_IZR; lra). lia.
Qed.
Lemma percentile_flat x l p : l <> [] -> (forall y, In y l -> y = x) -> 0 <= p <= 100 -> percentile l p = x.
Proof.
  intros NE H P. destruct (percentile_is p l NE P) as (s & i & f & a & b & Pm & _ & _ & _ & Ha & Hb & ->).
  assert (Q : forall j y, nth_error s j = Some y -> y = x).
  { intros j y N. apply H. eapply Permutation_in; [apply Permutation_sym; exact Pm|]. eapply nth_error_In; eassumption. }
  rewrite (Q _ _ Ha) in *. destruct Hb as [Hb|[-> ->]]; [rewrite (Q _ _ Hb)|]; ring.
Qed.
Lemma filter_true {A} (p : A -> bool) l : (forall x, In x l -> p x = true) -> filter p l = l.
Proof. induction l as [|x l IH]; intro H; [reflexivity|]. cbn. rewrite H by (now left). f_equal. apply IH. intros. apply H. now right. Qed.
(** equal visits in one band: the first [n] make the template *)
Lemma flat_run k data s m : (S k <= length data)%nat -> (forall v, In v data -> tv_band v = "r"%string /\ tv_seeing v = s /\ tv_m5 v = m) ->
  exists r pre c post, run (site k) (-0.5) data = Ok (Some r) /\ vsort data = pre ++ c :: post /\ length pre = k
    /\ template_of (site k) (Rmax 0.8 s) (Rmin 24.5 m) pre c post (pre ++ [c]) r.
Proof.
  intros L H.
  assert (NE : vsort data <> []) by (intro C; pose proof (vsort_length data) as Q; rewrite C in Q; cbn in Q; lia).
  assert (HV : forall v, In v (vsort data) -> tv_band v = "r"%string /\ tv_seeing v = s /\ tv_m5 v = m).
  { intros v I. apply H. eapply Permutation_in; [apply vsort_perm|exact I]. }
  assert (B : benches (site k) (-0.5) (vsort data) = Ok (Rmax 0.8 s, Rmin 24.5 m)).
  { rewrite (site_benches k "r" 24.5 (-0.12)); auto; [|intros v I; now apply HV].
    rewrite (percentile_flat s), (percentile_flat m); try reflexivity; try lra;
      try (destruct (vsort data); [congruence|discriminate]);
      intros y I; apply in_map_iff in I; destruct I as (v & <- & I); now apply HV. }
  assert (G : forall v, In v (vsort data) -> ok_visit (Rmax 0.8 s) (Rmin 24.5 m) v = true).
  { intros v I. apply ok_visit_spec. rewrite (proj1 (proj2 (HV v I))), (proj2 (proj2 (HV v I))). split; [apply Rmax_r|apply Rmin_r]. }
  destruct (run (site k) (-0.5) data) as [[r|]|e] eqn:E.
  - destruct (run_some _ _ _ _ E) as (bs & bm & pre & c & post & B' & _ & V & _ & LP & T).
    rewrite B in B'. injection B' as <- <-.
    assert (GP : forall v, In v (pre ++ [c]) -> ok_visit (Rmax 0.8 s) (Rmin 24.5 m) v = true).
    { intros v I. apply G. rewrite V. apply in_app_or in I. apply in_or_app. destruct I as [I|[<-|[]]]; [now left|right; now left]. }
    rewrite (filter_true _ _ GP) in T.
    rewrite filter_true in LP by (intros v I; apply GP, in_or_app; now left).
    exists r, pre, c, post. auto.
  - apply run_none in E. destruct E as [C|(bs & bm & B' & C)]; [cbn in C; lia|].
    rewrite B in B'. injection B' as <- <-.
    rewrite <- (Small_Proofs.filter_length_perm _ _ _ (vsort_perm data)), (filter_true _ _ G), vsort_length in C. cbn in C. lia.
  - apply run_err in E. congruence.
Qed.
Definition vis (mjd : R) (night : Z) : visit := {| tv_mjd := mjd; tv_night := night; tv_band := "r"; tv_m5 := 24; tv_seeing := 0.9 |}.

(** ** C277: which visits make the template *)
(** The template is made of the first [n] visits in time whose seeing and depth meet the reported benchmarks; the reported
    input depths and seeings, the night and the number of images until the template are those of these visits. *)
Theorem C277_inputs : forall cf dec data r,
  run cf dec data = Ok (Some r) ->
  exists pre c post inputs,
    TemplateFrom tv_mjd (fun v => tv_seeing v <= te_bench_seeing r /\ te_bench_m5 r <= tv_m5 v) (S (cf_k cf)) data pre c post inputs
    /\ te_input_m5s r = map tv_m5 inputs /\ te_input_seeing r = map tv_seeing inputs
    /\ te_night r = tv_night c /\ te_until r = S (length pre).
Proof.
  intros cf dec data r H. destruct (run_some _ _ _ _ H) as (bs & bm & pre & c & post & _ & _ & V & G & L & T).
  destruct T as (T1 & T2 & T3 & _ & T4 & _ & _ & _ & _ & T5 & T6 & _ & _).
  exists pre, c, post, (filter (ok_visit bs bm) (pre ++ [c])). rewrite T1, T2.
  split; [|auto]. repeat split.
  - rewrite <- V. apply Permutation_sym, vsort_perm.
  - rewrite <- V. apply vsort_sorted.
  - now apply ok_visit_spec in G.
  - now apply ok_visit_spec in G.
  - apply sel_filter. intro x. apply ok_visit_spec.
  - rewrite filter_app, app_length, L. cbn. rewrite G. cbn. lia.
Qed.
Print Assumptions C277_inputs.
(** four equal visits, templates of three: complete with the third visit *)
Example C277_inputs_case : exists r, run (site 2) (-0.5) [vis 3 3; vis 1 1; vis 0 1; vis 2 2] = Ok (Some r)
  /\ te_night r = 2%Z /\ te_until r = 3%nat /\ te_input_m5s r = [24; 24; 24].
Proof.
  destruct (flat_run 2 [vis 3 3; vis 1 1; vis 0 1; vis 2 2] 0.9 24) as (r & pre & c & post & E & V & L & T).
  { cbn. lia. } { intros v I. cbn in I. intuition (subst; auto). }
  exists r. split; [exact E|].
  assert (VV : vsort [vis 3 3; vis 1 1; vis 0 1; vis 2 2] = [vis 0 1; vis 1 1; vis 2 2; vis 3 3]).
  { apply vsorted_unique; [apply vsort_sorted| | |].
    - repeat constructor; unfold vle; cbn; lra.
    - rewrite vsort_perm. apply Permutation_cons_app with (l1 := [vis 0 1; vis 1 1; vis 2 2]) (l2 := []). cbn. apply perm_swap.
    - eapply Permutation_NoDup; [apply Permutation_map, Permutation_sym, vsort_perm|]. cbn.
      repeat constructor; cbn; intuition lra. }
  rewrite VV in V. destruct pre as [|a [|b [|d pre]]]; try (cbn in L; discriminate).
  injection V as <- <- <- <-. destruct T as (_ & _ & -> & _ & -> & _ & _ & _ & _ & -> & _). auto.
Qed.

(** For visits in one band [b] with known constants, no template is reported exactly when fewer than [n] visits meet the
    benchmarks: the larger of the seeing threshold scaled to the field's best airmass and to the band and of the percentile
    of the seeing, and the smaller of the scaled depth threshold and of the percentile of the depth. *)
Theorem C277_none : forall cf dec data b lam m5thr coeff ps pm,
  (forall v, In v data -> tv_band v = b) -> cf_wavelens cf b = Some lam -> extinction_coeffs b = Some coeff ->
  (match cf_m5 cf with inl d => d b | inr m => Some m end) = Some m5thr ->
  0 <= cf_seeing_pct cf <= 100 -> 0 <= cf_m5_pct cf <= 100 ->
  Percentile (cf_seeing_pct cf) (map tv_seeing data) ps -> Percentile (100 - cf_m5_pct cf) (map tv_m5 data) pm ->
  let x := 1 / cos (Rabs (dec - cf_lat cf)) in
  let best := cf_seeing cf * Rpower x 0.6 * Rpower (500 / lam) 0.3 in
  let deep := m5thr - coeff * (1 - x) + 2.5 * (ln (cf_seeing cf / best) / ln 10) in
  forall m, CountIs (fun v => tv_seeing v <= Rmax best ps /\ Rmin deep pm <= tv_m5 v) data m ->
  (run cf dec data = Ok None <-> (m < S (cf_k cf))%nat) /\ (forall e, run cf dec data <> Err e).
Proof.
  intros cf dec data b lam m5thr coeff ps pm HB HL HE HM P1 P2 Q1 Q2 x best deep m C.
  assert (NE : data <> []).
  { destruct Q1 as (s & i & f & a0 & b0 & P & _ & _ & _ & N & _). intros ->. cbn in P. apply Permutation_nil in P. subst s. destruct i; discriminate. }
  assert (NV : vsort data <> []) by (intro E; pose proof (vsort_length data) as Q; rewrite E in Q; destruct data; [congruence|cbn in Q; lia]).
  assert (NM : forall f : visit -> R, map f data <> []) by (intro f; destruct data; [congruence|discriminate]).
  assert (PE : forall f p y, Percentile p (map f data) y -> 0 <= p <= 100 -> percentile (map f (vsort data)) p = y).
  { intros f p y Q P. rewrite (percentile_perm (map f (vsort data)) (map f data)) by apply Permutation_map, vsort_perm.
    eapply percentile_unique; [apply percentile_is; auto|exact Q]. }
  assert (B : benches cf dec (vsort data) = Ok (Rmax best ps, Rmin deep pm)).
  { rewrite (benches_band cf dec (vsort data) b lam m5thr coeff); auto.
    2: { intros v I. apply HB. eapply Permutation_in; [apply vsort_perm|exact I]. }
    rewrite (PE tv_seeing _ ps), (PE tv_m5 _ pm); auto; try lra. }
  assert (C' : CountIs (fun v => tv_seeing v <= Rmax best ps /\ Rmin deep pm <= tv_m5 v) data (length (filter (ok_visit (Rmax best ps) (Rmin deep pm)) data)))
    by (apply Small_Proofs.count_filter; intros; apply ok_visit_spec).
  pose proof (Small_Proofs.count_unique _ _ _ _ C' C) as EQ.
  split.
  - rewrite run_none. split.
    + intros [L|(bs & bm & B' & L)]; [apply Small_Proofs.count_le in C; lia|]. rewrite B in B'. injection B' as <- <-. lia.
    + intro L. right. exists (Rmax best ps), (Rmin deep pm). split; [assumption|lia].
  - intros e E. apply run_err in E. congruence.
Qed.
Print Assumptions C277_none.
(** one visit of seeing 0.9 does not make a template of two; all its percentiles are its own values *)
Example C277_none_case : Percentile 50 (map tv_seeing [vis 0 1]) 0.9 /\ extinction_coeffs "r" = Some (-0.12)
  /\ CountIs (fun v => tv_seeing v <= Rmax 0.8 0.9 /\ Rmin 24.5 24 <= tv_m5 v) [vis 0 1] 1
  /\ run (site 1) (-0.5) [vis 0 1] = Ok None.
Proof.
  split; [|split; [reflexivity|split]].
  - exists [0.9], 0%nat, 0, 0.9, 0.9. repeat split; auto; try (cbn; lra). repeat constructor.
  - constructor; [|constructor]. cbn. split; [apply Rmax_r|apply Rmin_r].
  - reflexivity.
Qed.

(** Enough visits always make a template when the two percentiles add up to more than 100: at least
    [(p1 + p2 - 100)/100 (N - 1)] visits meet both benchmarks. *)
Theorem C277_enough : forall cf dec data o,
  run cf dec data = Ok o ->
  0 <= cf_seeing_pct cf <= 100 -> 0 <= cf_m5_pct cf <= 100 ->
  (S (cf_k cf) <= length data)%nat ->
  INR (S (cf_k cf)) <= (cf_seeing_pct cf + cf_m5_pct cf - 100) / 100 * INR (length data - 1) ->
  exists r, o = Some r.
Proof.
  intros cf dec data o H P1 P2 L E. destruct o as [r|]; [eauto|exfalso].
  apply run_none in H. destruct H as [C|(bs & bm & B & C)]; [lia|].
  assert (NV : vsort data <> []) by (intro Q0; pose proof (vsort_length data) as Q; rewrite Q0 in Q; cbn in Q; lia).
  pose proof (share_seeing _ _ _ _ _ NV P1 B) as A1. pose proof (share_m5 _ _ _ _ _ NV P2 B) as A2.
  pose proof (both_count (fun v => rleb (tv_seeing v) bs) (fun v => rleb bm (tv_m5 v)) (vsort data)) as J.
  cbv beta in J. change (filter (fun x => (rleb (tv_seeing x) bs && rleb bm (tv_m5 x))%bool) (vsort data)) with (filter (ok_visit bs bm) (vsort data)) in J.
  rewrite (Small_Proofs.filter_length_perm (ok_visit bs bm) _ _ (vsort_perm data)) in J.
  rewrite vsort_length in *. apply le_INR in J. rewrite !plus_INR in J.
  assert (C' : INR (length (filter (ok_visit bs bm) data)) + 1 <= INR (S (cf_k cf))) by (rewrite <- S_INR; apply le_INR; lia).
  rewrite minus_INR in A1, A2, E by lia. change (INR 1) with 1 in *. lra.
Qed.
Print Assumptions C277_enough.
Definition generous : config :=
  {| cf_k := 2; cf_seeing := 0.8; cf_seeing_pct := 90; cf_m5 := inl default_m5; cf_m5_pct := 90; cf_lat := -0.5;
     cf_wavelens := (fun _ => Some 500); cf_season := (fun m => m / 365.25) |}.
Example C277_enough_case : INR (S (cf_k generous)) <= (cf_seeing_pct generous + cf_m5_pct generous - 100) / 100 * INR (5 - 1).
Proof. cbn. lra. Qed.

(** With the default percentiles (50 and 50) no number of visits is enough: at any field there can be any number of visits
    and still no template. *)
Theorem C277_any_refuted : ~ (exists enough : nat, forall k dec data o,
  (enough <= length data)%nat -> run (site k) dec data = Ok o -> exists r, o = Some r).
Proof.
  intros (n & H). set (N := S n).
  set (mk1 := fun i => {| tv_mjd := INR i; tv_night := Z.of_nat i; tv_band := "r"%string; tv_m5 := 0; tv_seeing := 10 |}).
  set (mk2 := fun i => {| tv_mjd := INR i; tv_night := Z.of_nat i; tv_band := "r"%string; tv_m5 := 1; tv_seeing := 20 |}).
  set (data := map mk1 (seq 0 N) ++ map mk2 (seq N N)).
  assert (LD : length data = (N + N)%nat) by (unfold data; now rewrite app_length, !map_length, !seq_length).
  assert (ALL : forall v, In v data -> tv_band v = "r"%string /\ (tv_seeing v = 10 /\ tv_m5 v = 0 \/ tv_seeing v = 20 /\ tv_m5 v = 1)).
  { intros v I. unfold data in I. apply in_app_or in I. destruct I as [I|I]; apply in_map_iff in I; destruct I as (i & <- & _); cbn; auto. }
  assert (PC : forall f a b, a < b -> (forall i, f (mk1 i) = a) -> (forall i, f (mk2 i) = b) -> percentile (map f (vsort data)) 50 = (a + b) / 2).
  { intros f a b AB F1 F2. apply percentile_unique with (p := 50) (l := map f (vsort data)).
    - apply percentile_is; [|lra]. intro C. apply map_eq_nil in C. pose proof (vsort_length data) as Q. rewrite C, LD in Q. unfold N in Q. cbn in Q. lia.
    - exists (repeat a N ++ repeat b N), n, (1/2), a, b.
      split. { rewrite (Permutation_map f (vsort_perm data)). unfold data. rewrite map_app, !map_map.
        rewrite (map_ext _ (fun _ => a)) by auto. rewrite (map_ext (fun x => f (mk2 x)) (fun _ => b)) by auto.
        assert (R : forall (c : R) o m, map (fun _ : nat => c) (seq o m) = repeat c m) by (intros c o m; revert o; induction m; intro o; cbn; [reflexivity|]; now rewrite IHm).
        now rewrite !R. }
      split. { apply sorted_repeat2. lra. }
      split. { rewrite map_length, vsort_length, LD. unfold N. replace (S n + S n - 1)%nat with (n + n + 1)%nat by lia. rewrite !plus_INR. cbn [INR]. lra. }
      split; [lra|].
      split. { rewrite nth_error_app1 by (rewrite repeat_length; unfold N; lia). apply nth_error_repeat. unfold N. lia. }
      split. { left. rewrite nth_error_app2 by (rewrite repeat_length; unfold N; lia). rewrite repeat_length. unfold N. rewrite Nat.sub_diag. reflexivity. }
      field. }
  assert (R : run (site 0) (-0.5) data = Ok None).
  { apply run_none. right. exists (Rmax 0.8 15), (Rmin 24.5 (1/2)). split.
    - rewrite (site_benches 0 "r" 24.5 (-0.12)); auto.
      + rewrite (PC tv_seeing 10 20) by (try reflexivity; lra).
        replace (100 - 50) with 50 by lra. rewrite (PC tv_m5 0 1) by (try reflexivity; lra).
        replace ((10 + 20) / 2) with 15 by lra. replace ((0 + 1) / 2) with (1/2) by lra. reflexivity.
      + intro C. pose proof (vsort_length data) as Q. rewrite C, LD in Q. unfold N in Q. cbn in Q. lia.
      + intros v I. apply ALL. eapply Permutation_in; [apply vsort_perm|exact I].
    - assert (F : filter (ok_visit (Rmax 0.8 15) (Rmin 24.5 (1/2))) data = []).
      { assert (A0 : forall l, (forall v, In v l -> ok_visit (Rmax 0.8 15) (Rmin 24.5 (1/2)) v = false) -> filter (ok_visit (Rmax 0.8 15) (Rmin 24.5 (1/2))) l = []).
        { induction l as [|v l IH]; intro Q; [reflexivity|]. cbn [filter]. rewrite Q by (now left). apply IH. intros. apply Q. now right. }
        apply A0. intros v I. destruct (ok_visit _ _ v) eqn:O; [|reflexivity]. apply ok_visit_spec in O.
        rewrite Rmax_right, Rmin_right in O by lra. destruct (ALL v I) as (_ & [[E1 E2]|[E1 E2]]); rewrite E1, E2 in O; lra. }
      rewrite F. cbn. lia. }
  destruct (H 0%nat (-0.5) data None) as (r & C); [rewrite LD; unfold N; lia|exact R|discriminate].
Qed.
Print Assumptions C277_any_refuted.

(** The result does not depend on the order of the visits in the slice (times being distinct). *)
Theorem C277_order : forall cf dec data data',
  NoDup (map tv_mjd data) -> Permutation data data' -> run cf dec data = run cf dec data'.
Proof.
  intros cf dec data data' ND P. unfold run. rewrite (Permutation_length P), (vsort_perm_eq _ _ P ND). reflexivity.
Qed.
Print Assumptions C277_order.
Example C277_order_case : NoDup (map tv_mjd [vis 0 1; vis 1 1; vis 2 2]) /\ Permutation [vis 0 1; vis 1 1; vis 2 2] [vis 1 1; vis 0 1; vis 2 2].
Proof. split; [cbn; repeat constructor; cbn; intuition lra|apply perm_swap]. Qed.
