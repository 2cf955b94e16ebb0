(** The Fisher result is not the uncertainty of the crossing time (C366); events with magnitudes of their own (C367). *)
From Coq Require Import String Reals Lra Lia List Bool Psatz.
From Verif Require Import Base Plane_Spec Depth_Model Micro_Model Micro_Spec Micro_Props Micro_Props2 Micro_Proofs Micro_Props3 Micro_Props4 Micro_Props5.
From Verif Require Archive_Proofs Web_Props Pop_Props5.
Import ListNotations.
Open Scope R_scope.

(** an event at the distance of one Einstein radius, with a crossing time of one day, seen one day before the peak, at it and one day after it *)
Definition sp2 : list (string * R) := [("impact_parameter"%string, 1); ("crossing_time"%string, 1); ("peak_time"%string, 1)].
Definition M2 (v : lens_visit) : R := 24 - 5 / 2 * (ln (amplification 1 1 1 1 (v_mjd v - 0)) / ln 10).
Definition three : list lens_visit := [at_day 0 30 "r"; at_day 1 30 "r"; at_day 2 30 "r"].
Lemma lit2 : Lit mags1 sp2 three 0 M2.
Proof.
  split; [ split | ].
  - exists (at_day 0 30 "r"). split; [ left | ]; reflexivity.
  - intros v [<-|[<-|[<-|[]]]]; cbn; lra.
  - intros v I. unfold M2. apply (S_mean mags1 sp2 _ _ 24 1 1 1); try (apply noentry_get; reflexivity); apply entry_get; try reflexivity.
    destruct I as [<-|[<-|[<-|[]]]]; reflexivity.
Qed.
Lemma par2 : Parameters sp2 1 1 1.
Proof. repeat split; apply entry_get; reflexivity. Qed.
Lemma M2_sym : M2 (at_day 2 30 "r") = M2 (at_day 0 30 "r").
Proof.
  unfold M2. cbn [at_day v_mjd]. replace (2 - 0) with (1 + 1) by ring. replace (0 - 0) with (1 - 1) by ring. rewrite C361_symmetric. reflexivity.
Qed.
Lemma slope_nz x : 0 < x -> slope x <> 0.
Proof.
  intro H. unfold slope. assert (0 < sqrt x) by (apply sqrt_lt_R0; lra). assert (0 < sqrt (x + 4)) by (apply sqrt_lt_R0; lra).
  apply Rmult_integral_contrapositive. split; [ lra | ]. apply Rinv_neq_0_compat, Rgt_not_eq. repeat apply Rmult_lt_0_compat; lra.
Qed.
Lemma weight_pos t0 te u0 fs fb t q : te <> 0 -> u0 <> 0 -> 0 < fs -> 0 <= fb -> 0 < q -> 0 < weight t0 te u0 fs fb (t, q).
Proof.
  intros T U Fs Fb Q. unfold weight, flux_error. cbn [fst snd]. apply Rinv_0_lt_compat. rewrite <- Rsqr_pow2. apply Rsqr_pos_lt.
  assert (P : 0 < (t - t0) ^ 2 / te ^ 2 + u0 ^ 2) by (rewrite Rplus_comm; apply inner_pos; auto). set (y := (t - t0) ^ 2 / te ^ 2 + u0 ^ 2) in *.
  assert (0 < sqrt (y * (y + 4))) by (apply sqrt_lt_R0; nra). assert (A : 0 < (y + 2) / sqrt (y * (y + 4))) by (apply Rdiv_lt_0_compat; lra).
  apply Rgt_not_eq. apply Rdiv_lt_0_compat; [ | assumption ]. assert (0 < fs * ((y + 2) / sqrt (y * (y + 4)))) by (apply Rmult_lt_0_compat; assumption). lra.
Qed.
Definition F2 : nat -> nat -> R := fisher_matrix 1 1 1 1 24 24 (map (fun v => (v_mjd v - 0, Ratio (M2 v) (v_m5 v))) three).
Lemma F2_values : exists A B, 0 < A /\ 0 < B /\ F2 0%nat 0%nat = A /\ F2 1%nat 1%nat = A + B /\ F2 2%nat 2%nat = A /\ F2 0%nat 1%nat = 0 /\ F2 0%nat 2%nat = 0 /\ F2 1%nat 2%nat = - A.
Proof.
  pose proof (coefficients_slope 0 1 1 1 24 ltac:(lra) ltac:(lra)) as E0. pose proof (coefficients_slope 1 1 1 1 24 ltac:(lra) ltac:(lra)) as E1.
  pose proof (coefficients_slope 2 1 1 1 24 ltac:(lra) ltac:(lra)) as E2. cbv zeta in E0, E1, E2.
  replace (1 ^ 2 + (0 - 1) ^ 2 / 1 ^ 2) with 2 in E0 by field. replace (1 ^ 2 + (1 - 1) ^ 2 / 1 ^ 2) with 1 in E1 by field. replace (1 ^ 2 + (2 - 1) ^ 2 / 1 ^ 2) with 2 in E2 by field.
  set (q := Ratio (M2 (at_day 0 30 "r")) 30). set (q1 := Ratio (M2 (at_day 1 30 "r")) 30).
  assert (W : weight 1 1 1 24 24 (2, q) = weight 1 1 1 24 24 (0, q)) by (unfold weight, flux_error; cbn [fst snd]; replace ((2 - 1) ^ 2) with ((0 - 1) ^ 2) by ring; reflexivity).
  assert (P : 0 < weight 1 1 1 24 24 (0, q)) by (apply weight_pos; try lra; apply ratio_pos).
  assert (P1 : 0 < weight 1 1 1 24 24 (1, q1)) by (apply weight_pos; try lra; apply ratio_pos).
  assert (V : forall i j, F2 i j =
    nth i (derivatives 1 0 1 1 1 24) 0 * nth j (derivatives 1 0 1 1 1 24) 0 * weight 1 1 1 24 24 (0, q) +
    (nth i (derivatives 1 1 1 1 1 24) 0 * nth j (derivatives 1 1 1 1 1 24) 0 * weight 1 1 1 24 24 (1, q1) +
    (nth i (derivatives 1 2 1 1 1 24) 0 * nth j (derivatives 1 2 1 1 1 24) 0 * weight 1 1 1 24 24 (0, q) + 0))).
  { intros i j. unfold F2, three. cbn [map]. cbn [at_day v_m5 v_mjd]. fold (at_day 0 30 "r") (at_day 1 30 "r") (at_day 2 30 "r"). rewrite M2_sym. fold q q1.
    rewrite !Rminus_0_r. rewrite !fisher_cons. cbn [fst]. rewrite W. unfold fisher_matrix. cbn [fold_right]. ring. }
  pose proof (slope_nz 1 ltac:(lra)) as S1. pose proof (slope_nz 2 ltac:(lra)) as S2.
  set (w := weight 1 1 1 24 24 (0, q)) in *. set (w1 := weight 1 1 1 24 24 (1, q1)) in *.
  exists (8 * (24 * slope 2) ^ 2 * w), (4 * (24 * slope 1) ^ 2 * w1).
  assert (0 < (24 * slope 2) ^ 2) by (rewrite <- Rsqr_pow2; apply Rsqr_pos_lt; lra). assert (0 < (24 * slope 1) ^ 2) by (rewrite <- Rsqr_pow2; apply Rsqr_pos_lt; lra).
  split; [ nra | split; [ nra | ] ]. repeat split;
    rewrite V, !(nth_pspl _ _ _ _ _ _ _ _ _ _ E0), !(nth_pspl _ _ _ _ _ _ _ _ _ _ E1), !(nth_pspl _ _ _ _ _ _ _ _ _ _ E2); cbn [nth]; field.
Qed.
(** the value is not the uncertainty of the crossing time in units of the crossing time, which is larger here, but that of the peak time *)
Theorem C366_crossing_time_refuted : exists inv mags sp l first M te F C x, Lit mags sp l first M /\ Parameters sp 1 te 1 /\
  F = fisher_matrix 1 1 te 1 24 24 (map (fun v => (v_mjd v - first, Ratio (M v) (v_m5 v))) l) /\
  (forall i j, (i < 3)%nat -> (j < 3)%nat -> C i 0%nat * F 0%nat j + C i 1%nat * F 1%nat j + C i 2%nat * F 2%nat j = if Nat.eqb i j then 1 else 0) /\
  inv [[F 0%nat 0%nat; F 0%nat 1%nat; F 0%nat 2%nat]; [F 1%nat 0%nat; F 1%nat 1%nat; F 1%nat 2%nat]; [F 2%nat 0%nat; F 2%nat 1%nat; F 2%nat 2%nat]] =
    Some [[C 0%nat 0%nat; C 0%nat 1%nat; C 0%nat 2%nat]; [C 1%nat 0%nat; C 1%nat 1%nat; C 1%nat 2%nat]; [C 2%nat 0%nat; C 2%nat 1%nat; C 2%nat 2%nat]] /\
  run_fisher inv mags (Days 0) false sp l = Ok (Some x) /\ x = sqrt (C 0%nat 0%nat) / te /\ x < sqrt (C 2%nat 2%nat) / te.
Proof.
  destruct F2_values as (A & B & PA & PB & V00 & V11 & V22 & V01 & V02 & V12).
  set (C := fun i j : nat => match i, j with O, O => / A | 1%nat, 1%nat => / B | 1%nat, 2%nat => / B | 2%nat, 1%nat => / B | 2%nat, 2%nat => / A + / B | _, _ => 0 end).
  set (cov := [[C 0%nat 0%nat; C 0%nat 1%nat; C 0%nat 2%nat]; [C 1%nat 0%nat; C 1%nat 1%nat; C 1%nat 2%nat]; [C 2%nat 0%nat; C 2%nat 1%nat; C 2%nat 2%nat]]).
  assert (V10 : F2 1%nat 0%nat = 0) by (unfold F2 in *; rewrite C366_symmetric; exact V01).
  assert (V20 : F2 2%nat 0%nat = 0) by (unfold F2 in *; rewrite C366_symmetric; exact V02).
  assert (V21 : F2 2%nat 1%nat = - A) by (unfold F2 in *; rewrite C366_symmetric; exact V12).
  exists (fun _ => Some cov), mags1, sp2, three, 0, M2, 1, F2, C, (sqrt (C 0%nat 0%nat) / 1).
  split; [ exact lit2 | split; [ exact par2 | split; [ reflexivity | split; [ | split; [ reflexivity | split; [ | split; [ reflexivity | ] ] ] ] ] ] ].
  - intros i j Hi Hj. destruct i as [|[|[|i]]]; [ | | | lia ]; (destruct j as [|[|[|j]]]; [ | | | lia ]);
      cbn [Nat.eqb]; rewrite ?V00, ?V01, ?V02, ?V10, ?V11, ?V12, ?V20, ?V21, ?V22; unfold C; field; lra.
  - rewrite (C366_result (fun _ => Some cov) mags1 (Days 0) false sp2 three 0 M2 1 1 1 "r" 24 lit2 par2 ltac:(discriminate)) with (F := F2); [ reflexivity | | | | reflexivity | | | ].
    + apply noentry_get; reflexivity.
    + apply entry_get; reflexivity.
    + intros v [<-|[<-|[<-|[]]]]; reflexivity.
    + rewrite V00. lra.
    + rewrite V11. lra.
    + rewrite V22. lra.
  - cbn. pose proof (Rinv_0_lt_compat _ PA). pose proof (Rinv_0_lt_compat _ PB). assert (sqrt (/ A) < sqrt (/ A + / B)) by (apply sqrt_lt_1; lra). lra.
Qed.
Print Assumptions C366_crossing_time_refuted.

(** ** C367: with the mean magnitudes of the stars, an event is brightest at its peak *)
Lemma mean_brighter mags sp t t' band m m' te t0 : NoEntry sp "apparent_m_no_blend_u" -> Shows mags sp t band m -> Shows mags sp t' band m' ->
  Entry sp "crossing_time" te -> te <> 0 -> Entry sp "peak_time" t0 -> (exists u0, Entry sp "impact_parameter" u0 /\ (u0 <> 0 \/ t <> t0)) ->
  (forall b, Entry sp "blending_factor" b -> 0 < b <= 1) -> Rabs (t - t0) < Rabs (t' - t0) -> m < m'.
Proof.
  intros NE Sh Sh' Ec Tn Ep (u0 & Eu & Hu) Hb L.
  assert (G : exists c b, 0 < b <= 1 /\ m = c - 5 / 2 * (ln (amplification u0 te t0 b t) / ln 10) /\ m' = c - 5 / 2 * (ln (amplification u0 te t0 b t') / ln 10)).
  { destruct Sh as [c u1 te1 t1 A B C D E F|c u1 te1 t1 b A B C D E F|mu c n u1 te1 t1 A B C D E F]; [ | | apply entry_get in A; apply noentry_get in NE; congruence ];
    (destruct Sh' as [c' u2 te2 t2 A' B' C' D' E' F'|c' u2 te2 t2 b' A' B' C' D' E' F'|mu' c' n' u2 te2 t2 A' B' C' D' E' F']; [ | | apply entry_get in A'; apply noentry_get in NE; congruence ]);
    rewrite (entry_unique _ _ _ _ Eu D), (entry_unique _ _ _ _ Ec E), (entry_unique _ _ _ _ Ep F);
    rewrite (entry_unique _ _ _ _ D D'), (entry_unique _ _ _ _ E E'), (entry_unique _ _ _ _ F F'), (entry_unique _ _ _ _ C C').
    - exists c', 1. repeat split; lra.
    - apply noentry_get in B. apply entry_get in B'. congruence.
    - apply noentry_get in B'. apply entry_get in B. congruence.
    - exists c', b'. rewrite (entry_unique _ _ _ _ B B'). repeat split; auto; apply (Hb b'), B'. }
  destruct G as (c & b & [Hb0 Hb1] & -> & ->). pose proof ln10_pos as P.
  assert (H' : u0 <> 0 \/ t' <> t0).
  { right. intros ->. rewrite (Rminus_diag_eq t0 t0 eq_refl), Rabs_R0 in L. pose proof (Rabs_pos (t - t0)). lra. }
  assert (A : amplification u0 te t0 b t' < amplification u0 te t0 b t).
  { assert (E : forall z, Rabs ((z - t0) / te) = Rabs (z - t0) * / Rabs te) by (intro z; unfold Rdiv; rewrite Rabs_mult, Rabs_inv; reflexivity).
    pose proof (Rinv_0_lt_compat _ (Rabs_pos_lt _ Tn)) as Ip.
    apply C361_brighter; auto; try lra; [ | right ]; rewrite !E; nra. }
  assert (G : 1 < amplification u0 te t0 b t').
  { destruct (C361_blend u0 te t0 t' Tn H') as (Z & I & _). rewrite <- Z. apply I, Hb0. }
  assert (ln (amplification u0 te t0 b t') < ln (amplification u0 te t0 b t)) by (apply ln_increasing; lra).
  assert (ln (amplification u0 te t0 b t') / ln 10 < ln (amplification u0 te t0 b t) / ln 10); [ | lra ].
  apply Rmult_lt_compat_r; [ apply Rinv_0_lt_compat; lra | assumption ].
Qed.
Theorem C367_mean_brighter mags sp e t t' band m m' te t0 : read sp = Ok e -> amplified mags e t band = Ok m -> amplified mags e t' band = Ok m' ->
  NoEntry sp "apparent_m_no_blend_u" -> Entry sp "crossing_time" te -> te <> 0 -> Entry sp "peak_time" t0 -> (exists u0, Entry sp "impact_parameter" u0 /\ (u0 <> 0 \/ t <> t0)) ->
  (forall b, Entry sp "blending_factor" b -> 0 < b <= 1) -> Rabs (t - t0) < Rabs (t' - t0) -> m < m'.
Proof.
  intros R A A' N. apply (amplified_shows mags sp e t band m R) in A. apply (amplified_shows mags sp e t' band m' R) in A'. exact (mean_brighter mags sp t t' band m m' te t0 N A A').
Qed.
Print Assumptions C367_mean_brighter.
Example C367_case : Shows mags1 sp1 5 "r" (M1 (at_day 5 30 "r")) /\ Shows mags1 sp1 0 "r" (M1 (at_day 0 30 "r")).
Proof.
  pose proof (shows1 (at_day 5 30 "r") (or_intror eq_refl)) as A. pose proof (shows1 (at_day 0 30 "r") (or_intror eq_refl)) as B. cbn in A, B.
  rewrite !Rminus_0_r in A. rewrite !Rminus_0_r in B. auto.
Qed.
(** with the magnitudes of its own it is faintest at its peak, as long as it is fainter than magnitude 0: the logarithm is taken twice *)
Lemma own_fainter mags sp t t' band m m' te t0 mu : Entry sp "apparent_m_no_blend_u" mu -> Shows mags sp t band m -> Shows mags sp t' band m' ->
  Entry sp "crossing_time" te -> te <> 0 -> Entry sp "peak_time" t0 -> (exists u0, Entry sp "impact_parameter" u0 /\ (u0 <> 0 \/ t <> t0)) ->
  (forall u0 a c, Entry sp "impact_parameter" u0 -> Entry sp ("apparent_m_no_blend_" ++ band) a -> Entry sp ("apparent_m_" ++ band) c ->
     amplification u0 te t0 1 t * Rpower 10 (- (2 / 5) * a) + (Rpower 10 (- (2 / 5) * c) - Rpower 10 (- (2 / 5) * a)) < 1) ->
  Rabs (t - t0) < Rabs (t' - t0) -> m' < m.
Proof.
  intros NE Sh Sh' Ec Tn Ep (u0 & Eu & Hu) Hb L. apply entry_get in NE.
  destruct Sh as [c u1 te1 t1 A B C D E F|c u1 te1 t1 b A B C D E F|mu1 a c u1 te1 t1 A B C D E F]; [ apply noentry_get in A; congruence | apply noentry_get in A; congruence | ].
  destruct Sh' as [c' u2 te2 t2 A' B' C' D' E' F'|c' u2 te2 t2 b' A' B' C' D' E' F'|mu' a' c' u2 te2 t2 A' B' C' D' E' F']; [ apply noentry_get in A'; congruence | apply noentry_get in A'; congruence | ].
  specialize (Hb u0 a c Eu B C).
  rewrite <- (entry_unique _ _ _ _ Eu D), <- (entry_unique _ _ _ _ Ec E), <- (entry_unique _ _ _ _ Ep F).
  rewrite <- (entry_unique _ _ _ _ Eu D'), <- (entry_unique _ _ _ _ Ec E'), <- (entry_unique _ _ _ _ Ep F').
  rewrite <- (entry_unique _ _ _ _ B B'), <- (entry_unique _ _ _ _ C C').
  set (fs := Rpower 10 (- (2 / 5) * a)) in *. set (ft := Rpower 10 (- (2 / 5) * c)) in *. assert (Pf : 0 < fs) by apply exp_pos. assert (Pt : 0 < ft) by apply exp_pos.
  assert (H' : u0 <> 0 \/ t' <> t0).
  { right. intros ->. rewrite (Rminus_diag_eq t0 t0 eq_refl), Rabs_R0 in L. pose proof (Rabs_pos (t - t0)). lra. }
  assert (Am : amplification u0 te t0 1 t' < amplification u0 te t0 1 t).
  { assert (Ez : forall z, Rabs ((z - t0) / te) = Rabs (z - t0) * / Rabs te) by (intro z; unfold Rdiv; rewrite Rabs_mult, Rabs_inv; reflexivity).
    pose proof (Rinv_0_lt_compat _ (Rabs_pos_lt _ Tn)) as Ip.
    apply C361_brighter; auto; try lra; [ | right ]; rewrite !Ez; nra. }
  destruct (C361_point_lens u0 te t0 t' Tn H') as [G _].
  set (y := amplification u0 te t0 1 t) in *. set (y' := amplification u0 te t0 1 t') in *. clearbody y y' fs ft.
  pose proof ln10_pos as P.
  assert (Q' : 0 < y' * fs + (ft - fs)) by nra. assert (Lt : y' * fs + (ft - fs) < y * fs + (ft - fs)) by nra.
  set (x' := y' * fs + (ft - fs)) in *. set (x := y * fs + (ft - fs)) in *.
  assert (I1 : ln x' < ln x) by (apply ln_increasing; assumption). assert (I0 : ln x < 0) by (rewrite <- ln_1; apply ln_increasing; lra).
  pose proof (Rinv_0_lt_compat _ P) as Ip.
  assert (J1 : ln x' / ln 10 < ln x / ln 10) by (apply Rmult_lt_compat_r; assumption). assert (J0 : ln x / ln 10 < 0) by (unfold Rdiv; nra).
  assert (K : ln (- (5 / 2) * (ln x / ln 10)) < ln (- (5 / 2) * (ln x' / ln 10))) by (apply ln_increasing; lra).
  assert (ln (- (5 / 2) * (ln x / ln 10)) / ln 10 < ln (- (5 / 2) * (ln x' / ln 10)) / ln 10) by (apply Rmult_lt_compat_r; assumption). lra.
Qed.
Theorem C367_own_fainter mags sp e t t' band m m' te t0 mu : read sp = Ok e -> amplified mags e t band = Ok m -> amplified mags e t' band = Ok m' ->
  Entry sp "apparent_m_no_blend_u" mu -> Entry sp "crossing_time" te -> te <> 0 -> Entry sp "peak_time" t0 -> (exists u0, Entry sp "impact_parameter" u0 /\ (u0 <> 0 \/ t <> t0)) ->
  (forall u0 a c, Entry sp "impact_parameter" u0 -> Entry sp ("apparent_m_no_blend_" ++ band) a -> Entry sp ("apparent_m_" ++ band) c ->
     amplification u0 te t0 1 t * Rpower 10 (- (2 / 5) * a) + (Rpower 10 (- (2 / 5) * c) - Rpower 10 (- (2 / 5) * a)) < 1) ->
  Rabs (t - t0) < Rabs (t' - t0) -> m' < m.
Proof.
  intros R A A' N. apply (amplified_shows mags sp e t band m R) in A. apply (amplified_shows mags sp e t' band m' R) in A'. exact (own_fainter mags sp t t' band m m' te t0 mu N A A').
Qed.
Print Assumptions C367_own_fainter.
(** such an event: one of magnitude 20 in u *)
Definition sp3 : list (string * R) := [("impact_parameter"%string, 1); ("crossing_time"%string, 10); ("peak_time"%string, 10); ("apparent_m_no_blend_u"%string, 20); ("apparent_m_u"%string, 20)].
Lemma sp3_shows t : exists m, Shows mags1 sp3 t "u" m.
Proof. eexists. apply (S_own mags1 sp3 t "u" 20 20 20 1 10 10); apply entry_get; reflexivity. Qed.
Theorem C367_own_refuted : exists mags sp e t t' band m m' t0, read sp = Ok e /\ amplified mags e t band = Ok m /\ amplified mags e t' band = Ok m' /\ Entry sp "peak_time" t0 /\
  Rabs (t - t0) < Rabs (t' - t0) /\ m' < m.
Proof.
  destruct (sp3_shows 10) as [m Sh]. destruct (sp3_shows 0) as [m' Sh']. destruct (shows_read _ _ _ _ _ Sh) as (e & _ & _ & _ & Rd & _). exists mags1, sp3, e, 10, 0, "u"%string, m, m', 10.
  assert (L : Rabs (10 - 10) < Rabs (0 - 10)) by (rewrite Rabs_right, Rabs_left; lra).
  split; [ exact Rd | split; [ now apply (amplified_shows mags1 sp3 e 10 "u" m Rd) | split; [ now apply (amplified_shows mags1 sp3 e 0 "u" m' Rd) | split; [ apply entry_get; reflexivity | split; [ exact L | ] ] ] ] ].
  apply (own_fainter mags1 sp3 10 0 "u" m m' 10 10 20); try assumption; try lra; try (apply entry_get; reflexivity).
  - exists 1. split; [ apply entry_get; reflexivity | left; lra ].
  - intros u0 a c Eu Ea Ec. apply entry_get in Eu, Ea, Ec. cbn in Eu, Ea, Ec. injection Eu as <-. injection Ea as <-. injection Ec as <-.
    pose proof (amp1_range 10) as [_ R]. replace (- (2 / 5) * 20) with (- 8) by lra.
    assert (Rpower 10 (- 8) <= / 10).
    { rewrite <- (Rpower_1 10) at 2 by lra. rewrite <- Rpower_Ropp. apply Rle_Rpower; lra. }
    pose proof (exp_pos (- 8 * ln 10)). fold (Rpower 10 (- 8)) in H0. nra.
Qed.
Print Assumptions C367_own_refuted.
(** ** The dictionary of mean magnitudes, which may be the caller's: an event with magnitudes of its own leaves them in it for the events to come *)
Theorem C367_kept mags sp e : read sp = Ok e -> NoEntry sp "apparent_m_no_blend_u" -> forall bs, mags_after mags e bs = Ok mags.
Proof.
  intros R NE bs. apply noentry_get in NE. unfold read, lookup in R.
  destruct (dget String.eqb sp "impact_parameter"%string); cbn [bind] in R; [ | discriminate ].
  destruct (dget String.eqb sp "crossing_time"%string); cbn [bind] in R; [ | discriminate ].
  destruct (dget String.eqb sp "peak_time"%string); cbn [bind] in R; [ | discriminate ].
  injection R as <-. unfold mags_after. cbn [ev_own]. change (no_blend_key "u"%string) with "apparent_m_no_blend_u"%string. rewrite NE. reflexivity.
Qed.
Print Assumptions C367_kept.
Lemma fold_err {A B} (f : B -> A -> result B) bs x : fold_left (fun r b => do d <- r; f d b) bs (Err x) = Err x.
Proof. induction bs as [|b bs IH]; [ reflexivity | exact IH ]. Qed.
Theorem C367_overwrites mags sp e mu bs d : read sp = Ok e -> Entry sp "apparent_m_no_blend_u" mu -> mags_after mags e bs = Ok d ->
  forall b, (In b bs -> exists n, Entry sp ("apparent_m_" ++ b) n /\ Entry d b n) /\ (~ In b bs -> forall x, Entry mags b x <-> Entry d b x).
Proof.
  intros R NE H. apply entry_get in NE. unfold read, lookup in R.
  destruct (dget String.eqb sp "impact_parameter"%string); cbn [bind] in R; [ | discriminate ].
  destruct (dget String.eqb sp "crossing_time"%string); cbn [bind] in R; [ | discriminate ].
  destruct (dget String.eqb sp "peak_time"%string); cbn [bind] in R; [ | discriminate ].
  injection R as <-. unfold mags_after in H. cbn [ev_own] in H. change (no_blend_key "u"%string) with "apparent_m_no_blend_u"%string in H. rewrite NE in H. clear NE.
  assert (DS : forall (D : list (string * R)) k k' v, dget String.eqb (dset String.eqb D k v) k' = if String.eqb k' k then Some v else dget String.eqb D k')
    by (intros; apply Archive_Proofs.dget_dset; intros; apply String.eqb_eq).
  revert mags H. induction bs as [|c bs IH]; intros mags H b.
  - injection H as <-. split; [ contradiction | tauto ].
  - cbn [fold_left bind] in H. destruct (own sp c) as [p|x] eqn:Ow; cbn [bind] in H; [ | rewrite fold_err in H; discriminate ].
    destruct (IH _ H b) as [I1 I2]. unfold own, lookup in Ow. destruct (dget String.eqb sp (no_blend_key c)); cbn [bind] in Ow; [ | discriminate ].
    destruct (dget String.eqb sp (total_key c)) as [n|] eqn:Et; cbn [bind] in Ow; [ | discriminate ]. injection Ow as <-. cbn [snd] in *. split.
    + intros Ib. destruct (in_dec string_dec b bs) as [Ii|Ni]; [ apply I1, Ii | ]. destruct Ib as [->|Ib]; [ | contradiction ].
      exists n. split; [ apply entry_get, Et | ]. apply I2; [ assumption | ]. apply entry_get. rewrite DS, String.eqb_refl. reflexivity.
    + intros Nb x. rewrite <- I2 by (intro K; apply Nb; right; exact K). rewrite !entry_get, DS.
      destruct (String.eqb_spec b c) as [->|_]; [ exfalso; apply Nb; left; reflexivity | tauto ].
Qed.
Print Assumptions C367_overwrites.
Example C367_overwrites_case : exists e d, read sp3 = Ok e /\ mags_after [("u"%string, 25)] e ["u"%string] = Ok d /\ Entry d "u" 20.
Proof.
  unfold read, lookup, sp3. cbn. do 2 eexists. split; [ reflexivity | ]. unfold mags_after. cbn. split; [ reflexivity | constructor ].
Qed.
(** The documentation calls the blending factor of an event blending_factors: under this name it has no effect *)
Theorem C367_blending_factors_ignored mags sp l x pts sigma b detect :
  run_detect mags pts sigma b detect (("blending_factors"%string, x) :: sp) l = run_detect mags pts sigma b detect sp l /\
  run_npts mags sigma b detect (("blending_factors"%string, x) :: sp) l = run_npts mags sigma b detect sp l.
Proof.
  assert (D : forall k, String.eqb k "blending_factors"%string = false -> dget String.eqb (("blending_factors"%string, x) :: sp) k = dget String.eqb sp k) by (intros k E; cbn; rewrite E; reflexivity).
  assert (On : forall c, own (("blending_factors"%string, x) :: sp) c = own sp c).
  { intro c. unfold own, lookup. rewrite !D; [ reflexivity | | ]; unfold total_key, no_blend_key; cbn; reflexivity. }
  assert (Po : exists f : event -> event, (forall e, ev_peak (f e) = ev_peak e /\ ev_te (f e) = ev_te e /\ ev_u0 (f e) = ev_u0 e) /\
    points mags (("blending_factors"%string, x) :: sp) l = match points mags sp l with Ok (e, ps) => Ok (f e, ps) | Err y => Err y end).
  { exists (fun e => {| ev_peak := ev_peak e; ev_te := ev_te e; ev_u0 := ev_u0 e; ev_blend := ev_blend e;
                        ev_own := match ev_own e with Some t => Some (("blending_factors"%string, x) :: t) | None => None end |}). split; [ auto | ].
    unfold points. destruct (times l) as [ts|]; cbn [bind]; [ | reflexivity ]. unfold read, lookup. rewrite !D by reflexivity.
    destruct (dget String.eqb sp "impact_parameter"%string) as [u0|]; cbn [bind]; [ | reflexivity ].
    destruct (dget String.eqb sp "crossing_time"%string) as [te|]; cbn [bind]; [ | reflexivity ].
    destruct (dget String.eqb sp "peak_time"%string) as [t0|]; cbn [bind]; [ | reflexivity ].
    destruct (dget String.eqb sp (no_blend_key "u"%string)) as [mu|].
    - match goal with |- (do ps <- each ?g ?q; _) = match (do ps2 <- each ?h ?q; _) with _ => _ end => assert (E : forall z, each g z = each h z) end.
      { induction z as [|p z IH]; [ reflexivity | ]. cbn [each]. rewrite IH. unfold observed at 1 3, amplified. cbn [ev_own]. rewrite On. reflexivity. }
      rewrite E. destruct (each _ _); reflexivity.
    - destruct (each _ _); reflexivity. }
  destruct Po as (f & Hf & Po). split; [ unfold run_detect | unfold run_npts ]; rewrite Po; destruct (allowed detect b); cbn [bind]; try reflexivity;
    destruct (points mags sp l) as [[e ps]|]; cbn [bind]; try reflexivity; destruct (Hf e) as (-> & A & B); [ | rewrite A; reflexivity ].
  assert (Ld : lead (f e) b = lead e b) by (destruct b; cbn; [ reflexivity | rewrite A, B; reflexivity ]). rewrite Ld. reflexivity.
Qed.
Print Assumptions C367_blending_factors_ignored.
