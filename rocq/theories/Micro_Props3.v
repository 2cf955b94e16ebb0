(** When the microlensing metric counts an event as detected, and its number of points: properties C364 and C365. *)
From Coq Require Import String Reals Lra Lia List Bool Permutation Psatz.
From Verif Require Import Base Depth_Model Template_Model Sky_Proofs Plane_Spec Plane_Props Micro_Model Micro_Spec Micro_Props Micro_Props2 Micro_Proofs.
Import ListNotations.
Open Scope R_scope.

Lemma allowed_ok detect b : Allowed detect b -> allowed detect b = Ok tt.
Proof.
  unfold Allowed, allowed. destruct detect; [ | reflexivity ]. intro H. destruct (H eq_refl) as (x & -> & L). rewrite (proj2 (rltb_false 0 x) L). reflexivity.
Qed.
Lemma differ_above sigma M first v w :
  String.eqb (v_band v) (v_band w) && above sigma (point_of M first v) (point_of M first w) = true <-> Differ sigma M v w.
Proof.
  rewrite andb_true_iff, String.eqb_eq. unfold above, Differ. cbn [point_of o_mag o_unc]. rewrite rltb_true.
  replace (Error (M w) (v_m5 w) ^ 2 + Error (M v) (v_m5 v) ^ 2) with (Error (M v) (v_m5 v) ^ 2 + Error (M w) (v_m5 w) ^ 2) by ring.
  rewrite Rabs_minus_sym. tauto.
Qed.
Lemma count_early sigma M first (h : point -> bool) (H : lens_visit -> Prop) l : (forall v, h (point_of M first v) = true <-> H v) -> 0 <= sigma ->
  exists n, rsum (map (fun f => n_above sigma (filter h (of_band f (map (point_of M first) l)))) (bands (map (point_of M first) l))) = INR n /\
    Pairs (fun v w => H v /\ H w /\ Differ sigma M v w) l n.
Proof.
  intros E S. rewrite npts_pairs by assumption. rewrite pairs_map. eexists. split; [ reflexivity | ]. apply pairs_spec. intros v w.
  rewrite <- (differ_above sigma M first v w), <- !E. cbn [point_of o_band]. rewrite !andb_true_iff. tauto.
Qed.
(** ** C364: an event is detected exactly if at least pts_needed pairs of visits of the same band, all early enough, differ by more than
    detect_sigma of their combined errors; and as many after the peak if both sides are asked for *)
Theorem C364_detected mags pts sigma b detect sp l first M u0 te t0 d :
  0 <= sigma -> Lit mags sp l first M -> Parameters sp u0 te t0 -> Lead u0 te b d -> Allowed detect b ->
  exists r, run_detect mags pts sigma b detect sp l = Ok r /\ (r = 0%nat \/ r = 1%nat) /\
    (r = 1%nat <-> (exists n, Pairs (Early sigma M first t0 d) l n /\ pts <= INR n) /\
                   (detect = true -> exists n, Pairs (Late sigma M first t0) l n /\ pts <= INR n)).
Proof.
  intros Sg [F Sh] (Pu & Pc & Pp) L A. destruct (points_shows mags sp l first M F Sh) as (e & u1 & c1 & p1 & Po & _ & Eu & Ec & Ep & Ku & Kc & Kp).
  rewrite <- (entry_unique _ _ _ _ Pu Ku) in Eu. rewrite <- (entry_unique _ _ _ _ Pc Kc) in Ec. rewrite <- (entry_unique _ _ _ _ Pp Kp) in Ep.
  unfold run_detect. rewrite (allowed_ok _ _ A). cbn [bind]. rewrite Po. cbn [bind]. rewrite Ep.
  assert (Ld : lead e b = d) by (destruct b; cbn in *; [ congruence | rewrite Eu, Ec; congruence ]). rewrite Ld.
  destruct (count_early sigma M first (fun p => rltb (o_t p) (t0 - d)) (fun v => v_mjd v - first < t0 - d) l) as (n & En & Pn);
    [ intro v; cbn [point_of o_t]; apply rltb_true | assumption | ].
  destruct (count_early sigma M first (fun p => rltb t0 (o_t p)) (fun v => t0 < v_mjd v - first) l) as (m & Em & Pm);
    [ intro v; cbn [point_of o_t]; apply rltb_true | assumption | ].
  cbv zeta. rewrite En, Em. eexists. split; [ reflexivity | ].
  destruct (rleb pts (INR n) && (negb detect || rleb pts (INR m))) eqn:Q; (split; [ auto | ]).
  - apply andb_true_iff in Q. destruct Q as [Q1 Q2]. apply rleb_true in Q1. split; [ intros _ | auto ]. split; [ exists n; auto | ].
    intros ->. cbn in Q2. apply rleb_true in Q2. exists m; auto.
  - split; [ discriminate | ]. intros [(n' & Pn' & Ln) K]. exfalso. rewrite (pairs_unique _ _ _ _ Pn' Pn) in Ln.
    rewrite (proj2 (rleb_true _ _) Ln) in Q. cbn in Q. apply orb_false_iff in Q. destruct Q as [Q1 Q2]. apply negb_false_iff in Q1.
    destruct (K Q1) as (m' & Pm' & Lm). rewrite (pairs_unique _ _ _ _ Pm' Pm) in Lm. apply rleb_false in Q2. lra.
Qed.
Print Assumptions C364_detected.
(** more visits, not before the first, never undo a detection *)
Lemma countP_app {A} (P : A -> Prop) (dec : forall x, P x \/ ~ P x) l k n : CountP P l n -> exists m, CountP P (l ++ k) m /\ (n <= m)%nat.
Proof.
  intro H. induction H as [|x t n Px H (m & C & L)|x t n Nx H (m & C & L)].
  - induction k as [|x k (m & C & L)]; [ exists 0%nat; split; [ constructor | lia ] | ].
    destruct (dec x); [ exists (S m) | exists m ]; cbn; (split; [ constructor; auto | lia ]).
  - exists (S m). split; [ constructor; auto | lia ].
  - exists m. split; [ constructor 3; auto | lia ].
Qed.
Lemma pairs_app {A} (P : A -> A -> Prop) (dec : forall x y, P x y \/ ~ P x y) l k n : Pairs P l n -> exists m, Pairs P (l ++ k) m /\ (n <= m)%nat.
Proof.
  intro H. induction H as [|x t n m C H (q & Q & L)].
  - assert (G : exists m, Pairs P k m).
    { induction k as [|x k (m & K)]; [ exists 0%nat; constructor | ].
      destruct (countP_app (P x) (dec x) [] k 0 (CP_nil _)) as (c & C & _). exists (c + m)%nat. constructor; assumption. }
    destruct G as (m & K). exists m. split; [ exact K | lia ].
  - destruct (countP_app (P x) (dec x) t k n C) as (c & K & L2). exists (c + q)%nat. split; [ constructor; assumption | lia ].
Qed.
Lemma differ_dec sigma M v w : Differ sigma M v w \/ ~ Differ sigma M v w.
Proof.
  unfold Differ. destruct (string_dec (v_band v) (v_band w)); [ | right; tauto ].
  destruct (Rlt_dec sigma (Rabs (M v - M w) / sqrt (Error (M v) (v_m5 v) ^ 2 + Error (M w) (v_m5 w) ^ 2))); [ left | right ]; tauto.
Qed.
Lemma early_dec sigma M first t0 d v w : Early sigma M first t0 d v w \/ ~ Early sigma M first t0 d v w.
Proof.
  unfold Early. destruct (differ_dec sigma M v w); [ | right; tauto ].
  destruct (Rlt_dec (v_mjd v - first) (t0 - d)); [ | right; tauto ]. destruct (Rlt_dec (v_mjd w - first) (t0 - d)); [ left | right ]; tauto.
Qed.
Lemma late_dec sigma M first t0 v w : Late sigma M first t0 v w \/ ~ Late sigma M first t0 v w.
Proof.
  unfold Late. destruct (differ_dec sigma M v w); [ | right; tauto ].
  destruct (Rlt_dec t0 (v_mjd v - first)); [ | right; tauto ]. destruct (Rlt_dec t0 (v_mjd w - first)); [ left | right ]; tauto.
Qed.
Theorem C364_more mags pts sigma b detect sp l k first M u0 te t0 d :
  0 <= sigma -> First l first -> Lit mags sp (l ++ k) first M -> Parameters sp u0 te t0 -> Lead u0 te b d -> Allowed detect b ->
  run_detect mags pts sigma b detect sp l = Ok 1%nat -> run_detect mags pts sigma b detect sp (l ++ k) = Ok 1%nat.
Proof.
  intros Sg F Li Pa Le Al H. assert (Li0 : Lit mags sp l first M) by (split; [ exact F | intros v I; apply Li, in_or_app; auto ]).
  destruct (C364_detected mags pts sigma b detect sp l first M u0 te t0 d Sg Li0 Pa Le Al) as (r & Er & _ & Kr).
  rewrite H in Er. injection Er as <-. destruct (proj1 Kr eq_refl) as [(n & Pn & Ln) Q].
  destruct (C364_detected mags pts sigma b detect sp (l ++ k) first M u0 te t0 d Sg Li Pa Le Al) as (s & Es & _ & Ks). rewrite Es. f_equal. apply Ks. split.
  - destruct (pairs_app _ (early_dec sigma M first t0 d) l k n Pn) as (m & Pm & Lm). exists m. split; [ exact Pm | apply le_INR in Lm; lra ].
  - intro D. destruct (Q D) as (n' & Pn' & Ln'). destruct (pairs_app _ (late_dec sigma M first t0) l k n' Pn') as (m & Pm & Lm).
    exists m. split; [ exact Pm | apply le_INR in Lm; lra ].
Qed.
Print Assumptions C364_more.
(** the order of the visits does not matter *)
Lemma pairs_perm {A} (P : A -> A -> Prop) l l' : (forall x y, P x y -> P y x) -> Permutation l l' -> forall n, Pairs P l n -> Pairs P l' n.
Proof.
  assert (CP : forall Q : A -> Prop, forall a b, Permutation a b -> forall n, CountP Q a n -> CountP Q b n).
  { intros Q a b H. induction H; intros n K; auto.
    - inversion K; subst; [ constructor | constructor 3 ]; auto.
    - inversion K as [|? ? ? ? K'|? ? ? ? K']; subst; inversion K'; subst; eauto 6 using CP_in, CP_out. }
  intros Sy H. induction H as [|x l l' H IH|x y l|l l' l'' H1 IH1 H2 IH2]; intros n K; auto.
  - inversion K as [|? ? c m C P' E1 E2]; subst. constructor; [ apply (CP _ l); assumption | auto ].
  - inversion K as [|? ? c m C P' E1 E2]; subst. inversion P' as [|? ? c' m' C' P'' E3 E4]; subst.
    inversion C as [|? ? q Pq Cq|? ? q Pq Cq]; subst.
    + replace (S q + (c' + m'))%nat with (S c' + (q + m'))%nat by lia. constructor; [ constructor; auto | constructor; assumption ].
    + replace (c + (c' + m'))%nat with (c' + (c + m'))%nat by lia. constructor; [ constructor 3; auto | constructor; assumption ].
Qed.
Lemma differ_sym sigma M v w : Differ sigma M v w -> Differ sigma M w v.
Proof.
  intros [B H]. split; [ auto | ]. rewrite Rabs_minus_sym.
  replace (Error (M w) (v_m5 w) ^ 2 + Error (M v) (v_m5 v) ^ 2) with (Error (M v) (v_m5 v) ^ 2 + Error (M w) (v_m5 w) ^ 2) by ring. exact H.
Qed.
Theorem C364_order mags pts sigma b detect sp l l' first M u0 te t0 d :
  0 <= sigma -> Lit mags sp l first M -> Parameters sp u0 te t0 -> Lead u0 te b d -> Allowed detect b -> Permutation l l' ->
  run_detect mags pts sigma b detect sp l' = run_detect mags pts sigma b detect sp l.
Proof.
  intros Sg Li Pa Le Al Pm.
  assert (Li' : Lit mags sp l' first M).
  { destruct Li as [[(v & I & E) B] S]. split; [ split; [ exists v; split; [ apply (Permutation_in _ Pm), I | exact E ] | ] | ];
      intros w Iw; [ apply B | apply S ]; apply (Permutation_in _ (Permutation_sym Pm)), Iw. }
  destruct (C364_detected mags pts sigma b detect sp l first M u0 te t0 d Sg Li Pa Le Al) as (r & Er & Br & Kr).
  destruct (C364_detected mags pts sigma b detect sp l' first M u0 te t0 d Sg Li' Pa Le Al) as (s & Es & Bs & Ks).
  assert (Sy1 : forall x y, Early sigma M first t0 d x y -> Early sigma M first t0 d y x) by (intros x y (A & B & C); repeat split; auto; apply differ_sym in C; destruct C; auto).
  assert (Sy2 : forall x y, Late sigma M first t0 x y -> Late sigma M first t0 y x) by (intros x y (A & B & C); repeat split; auto; apply differ_sym in C; destruct C; auto).
  assert (PE : forall n, Pairs (Early sigma M first t0 d) l n <-> Pairs (Early sigma M first t0 d) l' n)
    by (intro n; split; apply pairs_perm; auto; apply Permutation_sym; exact Pm).
  assert (PL : forall n, Pairs (Late sigma M first t0) l n <-> Pairs (Late sigma M first t0) l' n)
    by (intro n; split; apply pairs_perm; auto; apply Permutation_sym; exact Pm).
  assert (Q : r = 1%nat <-> s = 1%nat).
  { rewrite Kr, Ks. split; intros [(n & A & B) C]; (split; [ exists n; split; [ apply PE, A | exact B ] | intro D; destruct (C D) as (m & A' & B'); exists m; split; [ apply PL, A' | exact B' ] ]). }
  rewrite Er, Es. f_equal. lia.
Qed.
Print Assumptions C364_order.
(** one visit in each band is never enough, however many bands and however bright the event *)
Theorem C364_one_per_band mags pts sigma b detect sp l first M u0 te t0 d :
  0 <= sigma -> Lit mags sp l first M -> Parameters sp u0 te t0 -> Lead u0 te b d -> Allowed detect b ->
  NoDup (map v_band l) -> 0 < pts -> run_detect mags pts sigma b detect sp l = Ok 0%nat.
Proof.
  intros Sg Li Pa Le Al ND Pp. destruct (C364_detected mags pts sigma b detect sp l first M u0 te t0 d Sg Li Pa Le Al) as (r & Er & Br & Kr).
  rewrite Er. f_equal. destruct Br as [Br|Br]; auto. exfalso. destruct (proj1 Kr Br) as [(n & Pn & Ln) _].
  assert (Z : forall k, NoDup (map v_band k) -> Pairs (Early sigma M first t0 d) k 0).
  { induction k as [|v k IH]; intro N; [ constructor | ]. inversion N; subst. apply (P_cons _ v k 0 0); [ | auto ].
    assert (G : forall q, (forall w, In w q -> v_band v <> v_band w) -> CountP (Early sigma M first t0 d v) q 0).
    { induction q as [|w q IHq]; intro K; [ constructor | ]. constructor 3; [ | apply IHq; intros; apply K; right; assumption ].
      intros (_ & _ & (E & _)). apply (K w (or_introl eq_refl) E). }
    apply G. intros w I E. apply H1. rewrite E. apply in_map, I. }
  rewrite (pairs_unique _ _ _ _ Pn (Z l ND)) in Ln. simpl in Ln. lra.
Qed.
Print Assumptions C364_one_per_band.
(** pairs are counted, not visits: if any two of [n] early visits differ, an event with pts_needed up to n (n - 1) / 2 is detected *)
Theorem C364_all_pairs mags pts sigma b sp l first M u0 te t0 d :
  0 <= sigma -> Lit mags sp l first M -> Parameters sp u0 te t0 -> Lead u0 te b d ->
  ForallOrdPairs (Early sigma M first t0 d) l -> (run_detect mags pts sigma b false sp l = Ok 1%nat <-> pts <= INR (length l) * (INR (length l) - 1) / 2).
Proof.
  intros Sg Li Pa Le FP. destruct (C364_detected mags pts sigma b false sp l first M u0 te t0 d Sg Li Pa Le ltac:(discriminate)) as (r & Er & Br & Kr).
  assert (G : exists n, Pairs (Early sigma M first t0 d) l n /\ INR n = INR (length l) * (INR (length l) - 1) / 2).
  { clear -FP. induction FP as [|v l F FP (n & P & E)]; [ exists 0%nat; split; [ constructor | simpl; lra ] | ].
    exists (length l + n)%nat. split.
    - constructor; [ | exact P ]. clear -F. induction F; constructor; auto.
    - change (length (v :: l)) with (S (length l)). rewrite plus_INR, E, S_INR. lra. }
  destruct G as (n & Pn & En). rewrite Er. split.
  - intro H. injection H as ->. destruct (proj1 Kr eq_refl) as [(m & Pm & Lm) _]. rewrite (pairs_unique _ _ _ _ Pm Pn) in Lm. lra.
  - intro H. f_equal. apply Kr. split; [ exists n; split; [ exact Pn | lra ] | discriminate ].
Qed.
Print Assumptions C364_all_pairs.
(** asking for both sides of the peak forbids a time before the peak, which 'optimal' never satisfies; and there must be a visit *)
Theorem C364_errors mags pts sigma b detect sp l : 
  (detect = true -> b = Optimal -> run_detect mags pts sigma b detect sp l = Err TypeError) /\
  (forall x, detect = true -> b = Days x -> 0 < x -> exists e, run_detect mags pts sigma b detect sp l = Err e) /\
  (Allowed detect b -> run_detect mags pts sigma b detect sp [] = Err ValueError).
Proof.
  repeat split.
  - intros -> ->. reflexivity.
  - intros x -> -> L. exists RuntimeError. unfold run_detect, allowed. rewrite (proj2 (rltb_true 0 x) L). reflexivity.
  - intro A. unfold run_detect. rewrite (allowed_ok _ _ A). reflexivity.
Qed.
Print Assumptions C364_errors.
(** ** C365: the number of points is that of the visits within one crossing time of the peak with a signal to noise ratio above detect_sigma *)
Theorem C365_counts mags sigma b detect sp l first M u0 te t0 : 0 <= te ->
  Lit mags sp l first M -> Parameters sp u0 te t0 -> Allowed detect b ->
  exists n, run_npts mags sigma b detect sp l = Ok n /\ CountP (Near sigma M first t0 te) l n.
Proof.
  intros T0 [F Sh] (Pu & Pc & Pp) A. destruct (points_shows mags sp l first M F Sh) as (e & u1 & c1 & p1 & Po & _ & Eu & Ec & Ep & Ku & Kc & Kp).
  rewrite <- (entry_unique _ _ _ _ Pc Kc) in Ec. rewrite <- (entry_unique _ _ _ _ Pp Kp) in Ep.
  unfold run_npts. rewrite (allowed_ok _ _ A). cbn [bind]. rewrite Po. cbn [bind]. rewrite Ep, Ec. cbv zeta. unfold of_band.
  set (ps := map (point_of M first) l).
  change (fold_right Nat.add 0%nat) with nsum. rewrite !(count_bands o_band _ (bands ps) ps (bands_nodup ps) (bands_in ps)).
  eexists. split; [ reflexivity | ]. unfold ps. clear -T0.
  set (h := fun p => rltb (o_t p) t0 && rltb (t0 - te) (o_t p) && rltb sigma (o_snr p)).
  set (g := fun p => rltb t0 (o_t p) && rltb (o_t p) (t0 + te) && rltb sigma (o_snr p)).
  induction l as [|v l IH]; [ constructor | ]. cbn [map filter].
  assert (Q : (h (point_of M first v) = true /\ g (point_of M first v) = false /\ Near sigma M first t0 te v) \/
              (h (point_of M first v) = false /\ g (point_of M first v) = true /\ Near sigma M first t0 te v) \/
              (h (point_of M first v) = false /\ g (point_of M first v) = false /\ ~ Near sigma M first t0 te v)).
  { unfold h, g, Near. cbn [point_of o_t o_snr]. set (t := v_mjd v - first). set (q := Ratio (M v) (v_m5 v)).
    assert (AB : Rabs (t - t0) < te <-> t0 - te < t < t0 + te) by (unfold Rabs; destruct (Rcase_abs (t - t0)); lra).
    unfold rltb. destruct (Rlt_dec t t0), (Rlt_dec (t0 - te) t), (Rlt_dec sigma q), (Rlt_dec t0 t), (Rlt_dec t (t0 + te)); cbn;
      try lra;
      try (left; repeat split; try reflexivity; try apply AB; lra);
      try (right; left; repeat split; try reflexivity; try apply AB; lra);
      right; right; repeat split; try reflexivity; rewrite AB; lra. }
  destruct Q as [(-> & -> & N)|[(-> & -> & N)|(-> & -> & N)]]; cbn [length].
  - constructor; [ exact N | exact IH ].
  - rewrite Nat.add_succ_r. constructor; [ exact N | exact IH ].
  - constructor 3; [ exact N | exact IH ].
Qed.
Print Assumptions C365_counts.
