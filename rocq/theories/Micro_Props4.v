(** Cases of C364 and C365, and what the documentation says about them that is not so. *)
From Coq Require Import String Reals Lra Lia List Bool Psatz.
From Verif Require Import Base Plane_Spec Micro_Model Micro_Spec Micro_Props Micro_Props2 Micro_Proofs Micro_Props3.
Import ListNotations.
Open Scope R_scope.

(** an event at the distance of one Einstein radius, with a crossing time of 10 days, that peaks on day 10, of stars of magnitude 24 *)
Definition sp1 : list (string * R) := [("impact_parameter"%string, 1); ("crossing_time"%string, 10); ("peak_time"%string, 10)].
Definition mags1 : list (string * R) := [("g"%string, 24); ("r"%string, 24)].
Definition at_day (t m5 : R) (b : string) : lens_visit := {| v_mjd := t; v_night := 0; v_m5 := m5; v_band := b |}.
Definition M1 (v : lens_visit) : R := 24 - 5 / 2 * (ln (amplification 1 10 10 1 (v_mjd v - 0)) / ln 10).
Lemma shows1 v : v_band v = "g"%string \/ v_band v = "r"%string -> Shows mags1 sp1 (v_mjd v - 0) (v_band v) (M1 v).
Proof.
  intro H. unfold M1. apply (S_mean mags1 sp1 _ _ 24 1 10 10); try (apply noentry_get; reflexivity); apply entry_get; try reflexivity.
  destruct H as [-> | ->]; reflexivity.
Qed.
Lemma par1 : Parameters sp1 1 10 10.
Proof. repeat split; apply entry_get; reflexivity. Qed.
Lemma lit1 l : (exists v, In v l /\ v_mjd v = 0) -> (forall v, In v l -> 0 <= v_mjd v /\ (v_band v = "g"%string \/ v_band v = "r"%string)) -> Lit mags1 sp1 l 0 M1.
Proof. intros E H. split; [ split; [ exact E | intros v I; apply H, I ] | intros v I; apply shows1, H, I ]. Qed.
Lemma ln10_pos : 0 < ln 10.
Proof. rewrite <- ln_1. apply ln_increasing; lra. Qed.
Lemma amp1_range t : 1 < amplification 1 10 10 1 t < 10.
Proof.
  pose proof (C361_point_lens 1 10 10 t ltac:(lra) (or_introl R1_neq_R0)) as [G _]. split; [ exact G | ].
  rewrite amplification_curve. assert (X : 1 <= 1 ^ 2 + (t - 10) ^ 2 / 10 ^ 2).
  { assert (0 <= (t - 10) ^ 2 / 10 ^ 2) by (apply Rmult_le_pos; [ apply pow2_ge_0 | lra ]). lra. }
  set (x := 1 ^ 2 + (t - 10) ^ 2 / 10 ^ 2) in *. clearbody x. pose proof (curve_sq x ltac:(lra)) as Q. pose proof (curve_pos x ltac:(lra)).
  assert (4 / (x * (x + 4)) <= 1); [ | nra ].
  apply Rmult_le_reg_r with (x * (x + 4)); [ nra | ]. unfold Rdiv. rewrite Rmult_assoc, Rinv_l by (apply Rgt_not_eq; nra). nra.
Qed.
Lemma M1_range v : 21 < M1 v < 24.
Proof.
  unfold M1. pose proof (amp1_range (v_mjd v - 0)) as [A B]. pose proof ln10_pos as P.
  assert (L0 : 0 < ln (amplification 1 10 10 1 (v_mjd v - 0))) by (rewrite <- ln_1 at 1; apply ln_increasing; lra).
  assert (L1 : ln (amplification 1 10 10 1 (v_mjd v - 0)) < ln 10) by (apply ln_increasing; lra).
  set (q := ln (amplification 1 10 10 1 (v_mjd v - 0))) in *. assert (0 < q / ln 10) by (apply Rdiv_lt_0_compat; lra).
  assert (q / ln 10 < 1); [ | lra ]. apply Rmult_lt_reg_r with (ln 10); [ lra | ]. unfold Rdiv. rewrite Rmult_assoc, Rinv_l by lra. lra.
Qed.
(** nearer to the peak is brighter *)
Lemma M1_lt v w : Rabs (v_mjd v - 10) < Rabs (v_mjd w - 10) -> M1 v < M1 w.
Proof.
  intro H. unfold M1. pose proof ln10_pos as P.
  assert (A : amplification 1 10 10 1 (v_mjd w - 0) < amplification 1 10 10 1 (v_mjd v - 0)).
  { assert (E : forall z, Rabs ((z - 0 - 10) / 10) = Rabs (z - 10) / 10).
    { intro z. unfold Rdiv. rewrite Rabs_mult, (Rabs_right (/ 10)) by lra. f_equal. f_equal. ring. }
    apply C361_brighter; try lra; [ | right ]; rewrite !E; lra. }
  pose proof (amp1_range (v_mjd w - 0)) as [G _].
  assert (L : ln (amplification 1 10 10 1 (v_mjd w - 0)) < ln (amplification 1 10 10 1 (v_mjd v - 0))) by (apply ln_increasing; lra).
  assert (ln (amplification 1 10 10 1 (v_mjd w - 0)) / ln 10 < ln (amplification 1 10 10 1 (v_mjd v - 0)) / ln 10); [ | lra ].
  apply Rmult_lt_compat_r; [ apply Rinv_0_lt_compat; lra | exact L ].
Qed.
Lemma differ1 v w : v_band v = v_band w -> Rabs (v_mjd v - 10) <> Rabs (v_mjd w - 10) -> Differ 0 M1 v w.
Proof.
  intros B N. split; [ exact B | ]. apply Rdiv_lt_0_compat.
  - apply Rabs_pos_lt. destruct (Rtotal_order (Rabs (v_mjd v - 10)) (Rabs (v_mjd w - 10))) as [L|[E|L]]; [ | contradiction | ];
      pose proof (M1_lt _ _ L); lra.
  - apply sqrt_lt_R0. pose proof (error_pos (M1 v) (v_m5 v)). pose proof (error_pos (M1 w) (v_m5 w)). nra.
Qed.
(** two visits before the peak; the theorem applies, and one pair is found *)
Definition two : list lens_visit := [at_day 0 0 "r"; at_day 5 0 "r"].
Lemma lit_two : Lit mags1 sp1 two 0 M1.
Proof. apply lit1; [ exists (at_day 0 0 "r"); split; [ left | ]; reflexivity | ]. intros v [<-|[<-|[]]]; cbn; split; auto; lra. Qed.
Example C364_case : Lit mags1 sp1 two 0 M1 /\ Parameters sp1 1 10 10 /\ Lead 1 10 (Days 0) 0 /\ Allowed true (Days 0) /\
  run_detect mags1 1 0 (Days 0) false sp1 two = Ok 1%nat /\ run_detect mags1 2 0 (Days 0) false sp1 two = Ok 0%nat.
Proof.
  assert (FP : ForallOrdPairs (Early 0 M1 0 10 0) two).
  { repeat constructor; cbn; try lra. apply Rdiv_lt_0_compat.
    - assert (L : M1 (at_day 5 0 "r") < M1 (at_day 0 0 "r")) by (apply M1_lt; cbn; rewrite !Rabs_left; lra). apply Rabs_pos_lt. lra.
    - apply sqrt_lt_R0. pose proof (error_pos (M1 (at_day 0 0 "r")) 0). pose proof (error_pos (M1 (at_day 5 0 "r")) 0). nra. }
  assert (K : forall pts, run_detect mags1 pts 0 (Days 0) false sp1 two = Ok 1%nat <-> pts <= INR 2 * (INR 2 - 1) / 2)
    by (intro pts; apply (C364_all_pairs mags1 pts 0 (Days 0) sp1 two 0 M1 1 10 10 0); try lra; auto using lit_two, par1; reflexivity).
  repeat split; try apply lit_two; try apply par1; [ intros _; exists 0; split; [ reflexivity | lra ] | apply K; simpl; lra | ].
  destruct (C364_detected mags1 2 0 (Days 0) false sp1 two 0 M1 1 10 10 0 ltac:(lra) lit_two par1 eq_refl ltac:(discriminate)) as (r & Er & Br & _).
  destruct Br as [->| ->]; [ exact Er | ]. apply K in Er. simpl in Er. lra.
Qed.
(** The documentation says that pts_needed is the number of points above the 5 sigma depth: a detected event may have none, *)
Theorem C364_depth_refuted : exists mags pts sigma b sp l first M, Lit mags sp l first M /\ 0 < pts /\
  run_detect mags pts sigma b false sp l = Ok 1%nat /\ forall v, In v l -> v_m5 v < M v.
Proof.
  exists mags1, 1, 0, (Days 0), sp1, two, 0, M1. destruct C364_case as (L & _ & _ & _ & R & _). split; [ exact L | split; [ lra | split; [ exact R | ] ] ].
  intros v I. pose proof (M1_range v). destruct I as [<-|[<-|[]]]; cbn [at_day v_m5]; lra.
Qed.
Print Assumptions C364_depth_refuted.
(** and an event that is not detected may have enough of them *)
Theorem C364_missed_refuted : exists mags pts sigma b sp l first M u0 te t0, Lit mags sp l first M /\ Parameters sp u0 te t0 /\ pts = INR (length l) /\
  run_detect mags pts sigma b false sp l = Ok 0%nat /\ forall v, In v l -> v_mjd v - first < t0 /\ M v < v_m5 v.
Proof.
  exists mags1, 2, 3, (Days 0), sp1, [at_day 0 30 "g"; at_day 5 30 "r"], 0, M1, 1, 10, 10.
  assert (L : Lit mags1 sp1 [at_day 0 30 "g"; at_day 5 30 "r"] 0 M1).
  { apply lit1; [ exists (at_day 0 30 "g"); split; [ left | ]; reflexivity | ]. intros v [<-|[<-|[]]]; cbn; split; auto; lra. }
  split; [ exact L | split; [ exact par1 | split; [ simpl; lra | split ] ] ].
  - apply (C364_one_per_band mags1 2 3 (Days 0) false sp1 _ 0 M1 1 10 10 0); try lra; auto using par1; [ reflexivity | discriminate | ].
    cbn. repeat constructor; cbn; intuition discriminate.
  - intros v I. pose proof (M1_range v). destruct I as [<-|[<-|[]]]; cbn [at_day v_m5 v_mjd]; lra.
Qed.
Print Assumptions C364_missed_refuted.
Lemma ratio_bright m m5 : m <= m5 -> 5 <= Ratio m m5.
Proof.
  intro H. unfold Ratio. assert (1 <= Rpower 10 (2 / 5 * (m5 - m))); [ | lra ].
  rewrite <- (Rpower_O 10) by lra. apply Rle_Rpower; lra.
Qed.
Definition four : list lens_visit := [at_day 0 30 "r"; at_day 7 30 "r"; at_day 10 30 "r"; at_day 25 30 "r"].
Lemma lit_four : Lit mags1 sp1 four 0 M1.
Proof.
  apply lit1; [ exists (at_day 0 30 "r"); split; [ left | ]; reflexivity | ]. intros v [<-|[<-|[<-|[<-|[]]]]]; cbn; split; auto; lra.
Qed.
(** a case of C365: of visits 10 and 3 days before the peak, at the peak and 15 days after it, one counts *)
Example C365_case : run_npts mags1 3 (Days 0) false sp1 four = Ok 1%nat.
Proof.
  destruct (C365_counts mags1 3 (Days 0) false sp1 four 0 M1 1 10 10 ltac:(lra) lit_four par1 ltac:(discriminate)) as (n & -> & C). f_equal.
  assert (K : CountP (Near 3 M1 0 10 10) four 1).
  { unfold four. constructor 3; [ unfold Near; cbn [at_day v_mjd]; intros (A & _); rewrite Rabs_left in A; lra | ].
    constructor; [ unfold Near; cbn [at_day v_mjd v_m5]; repeat split; [ rewrite Rabs_left; lra | lra | ] | ].
    - pose proof (ratio_bright (M1 (at_day 7 30 "r")) 30). pose proof (M1_range (at_day 7 30 "r")). lra.
    - constructor 3; [ unfold Near; cbn [at_day v_mjd]; lra | ].
      constructor 3; [ unfold Near; cbn [at_day v_mjd]; intros (A & _); rewrite Rabs_right in A; lra | constructor ]. }
  apply (countP_unique _ _ _ _ C K).
Qed.
(** The documentation says that the points within two crossing times of the peak are counted: those after one are not, nor is one at the peak *)
Theorem C365_two_crossing_times_refuted : exists mags sigma sp l first M u0 te t0 n, Lit mags sp l first M /\ Parameters sp u0 te t0 /\
  run_npts mags sigma (Days 0) false sp l = Ok n /\ (n < length l)%nat /\
  forall v, In v l -> Rabs (v_mjd v - first - t0) < 2 * te /\ sigma < Ratio (M v) (v_m5 v).
Proof.
  exists mags1, 3, sp1, four, 0, M1, 1, 10, 10, 1%nat. split; [ exact lit_four | split; [ exact par1 | split; [ exact C365_case | split; [ cbn; lia | ] ] ] ].
  intros v I. pose proof (M1_range v) as Q.
  destruct I as [<-|[<-|[<-|[<-|[]]]]]; cbn [at_day v_mjd v_m5] in *; (split; [ unfold Rabs; destruct (Rcase_abs _); lra | ]);
    match goal with |- _ < Ratio ?m 30 => pose proof (ratio_bright m 30); lra end.
Qed.
Print Assumptions C365_two_crossing_times_refuted.
Theorem C365_peak_refuted : exists mags sigma sp l first M u0 te t0 v, Lit mags sp l first M /\ Parameters sp u0 te t0 /\
  In v l /\ Rabs (v_mjd v - first - t0) < te /\ sigma < Ratio (M v) (v_m5 v) /\ run_npts mags sigma (Days 0) false sp l = Ok 0%nat.
Proof.
  set (l := [at_day 0 30 "r"; at_day 10 30 "r"]). assert (L : Lit mags1 sp1 l 0 M1).
  { apply lit1; [ exists (at_day 0 30 "r"); split; [ left | ]; reflexivity | ]. intros v [<-|[<-|[]]]; cbn; split; auto; lra. }
  exists mags1, 3, sp1, l, 0, M1, 1, 10, 10, (at_day 10 30 "r"). split; [ exact L | split; [ exact par1 | ] ].
  split; [ right; left; reflexivity | ]. split; [ cbn; rewrite Rabs_right; lra | ]. split.
  - cbn [at_day v_m5]. pose proof (M1_range (at_day 10 30 "r")). pose proof (ratio_bright (M1 (at_day 10 30 "r")) 30). unfold at_day in *. lra.
  - destruct (C365_counts mags1 3 (Days 0) false sp1 l 0 M1 1 10 10 ltac:(lra) L par1 ltac:(discriminate)) as (n & -> & C). f_equal.
    apply (countP_unique _ _ _ _ C). unfold l. constructor 3; [ unfold Near; cbn [at_day v_mjd]; intros (A & _); rewrite Rabs_left in A; lra | ].
    constructor 3; [ unfold Near; cbn [at_day v_mjd]; lra | constructor ].
Qed.
Print Assumptions C365_peak_refuted.
