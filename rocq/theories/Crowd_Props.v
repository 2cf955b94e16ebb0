(** C309-C312: crowding errors, crowding limits, star counts and star densities. *)
From Coq Require Import String Reals ZArith List Lra Lia Bool Permutation.
From Verif Require Import Base Depth_Model Depth_Proofs Template_Model Sky_Spec Sky_Proofs Crowd_Model Crowd_Spec Crowd_Proofs.
Import ListNotations.
Open Scope R_scope.

(** * C309 *)
(** one error for each magnitude but the first, that of the published formula with the stars of the bin and the fainter ones *)
Theorem C309_error mags lf s err counts : Rising lf -> Steps lf counts -> comp_crowd mags lf s = Ok err ->
  length err = Nat.pred (length mags) /\ forall i e, nth_error err i = Some e -> Crowding s (tl mags) counts i e.
Proof.
  intros Ri St H. destruct (comp_crowd_spec _ _ _ _ Ri H) as (_ & L & F). rewrite (steps_unique _ _ _ St (diff_steps lf)). auto.
Qed.
Print Assumptions C309_error.
(** it is there whenever the tables have the same length, else ValueError *)
Theorem C309_tables mags lf s : (length mags = length lf -> exists err, comp_crowd mags lf s = Ok err) /\
  (length mags <> length lf -> comp_crowd mags lf s = Err ValueError).
Proof.
  unfold comp_crowd. split; intro H; [rewrite (proj2 (Nat.eqb_eq _ _) H); eauto | now rewrite (proj2 (Nat.eqb_neq _ _) H)].
Qed.
Print Assumptions C309_tables.
(** the errors are proportional to the seeing *)
Theorem C309_seeing mags lf s c err : comp_crowd mags lf s = Ok err -> comp_crowd mags lf (c * s) = Ok (map (Rmult c) err).
Proof.
  unfold comp_crowd. destruct (Nat.eqb _ _); [|discriminate]. intro H. injection H as <-. f_equal. rewrite map_map. apply map_ext.
  intro t. unfold coeff. lra.
Qed.
Print Assumptions C309_seeing.
Lemma light_shift d m mags counts : Light (d + m) (map (Rplus d) mags) counts = Light m mags counts.
Proof.
  unfold Light, Sum. revert counts. induction mags as [|a t IH]; intros [|n counts]; simpl; auto. rewrite IH. f_equal. f_equal. f_equal. lra.
Qed.
(** they do not depend on the zero point of the magnitudes *)
Theorem C309_zero_point mags lf s d : Rising lf -> comp_crowd (map (Rplus d) mags) lf s = comp_crowd mags lf s.
Proof.
  intro Ri. destruct (Nat.eq_dec (length mags) (length lf)) as [E|E].
  - destruct (C309_tables mags lf s) as [X _]. destruct (X E) as [err H]. rewrite H.
    destruct (C309_tables (map (Rplus d) mags) lf s) as [Y _]. destruct Y as [err' H']; [now rewrite map_length|]. rewrite H'. f_equal.
    destruct (comp_crowd_spec _ _ _ _ Ri H) as (_ & L & F). destruct (comp_crowd_spec _ _ _ _ Ri H') as (_ & L' & F').
    rewrite map_length in L'. apply nth_ext with (d := 0) (d' := 0); [congruence|]. intros n Hn. rewrite L' in Hn.
    destruct (nth_some err n ltac:(lia)) as [e He]. destruct (nth_some err' n ltac:(lia)) as [e' He'].
    rewrite (nth_of _ _ _ 0 He), (nth_of _ _ _ 0 He').
    destruct (F _ _ He) as (m & Em & ->). destruct (F' _ _ He') as (m' & Em' & ->).
    assert (T : tl (map (Rplus d) mags) = map (Rplus d) (tl mags)) by now destruct mags. rewrite T in *.
    rewrite nth_error_map, Em in Em'. injection Em' as <-. now rewrite skipn_map, light_shift.
  - rewrite (proj2 (C309_tables mags lf s) E). apply (proj2 (C309_tables _ lf s)). now rewrite map_length.
Qed.
Print Assumptions C309_zero_point.
Lemma light_more m mags : forall c c', length c = length c' -> (forall k x y, nth_error c k = Some x -> nth_error c' k = Some y -> x <= y) ->
  Light m mags c <= Light m mags c'.
Proof.
  unfold Light, Sum. induction mags as [|a t IH]; intros [|n c] [|n' c'] L H; simpl; try discriminate; try lra.
  apply Rplus_le_compat.
  - apply Rmult_le_compat_r; [unfold Rpower; apply Rlt_le, exp_pos|]. apply (H O); reflexivity.
  - apply IH; [now injection L|]. intros k x y E1 E2. apply (H (S k)); assumption.
Qed.
Lemma nth_error_skipn {A} n (l : list A) k : nth_error (skipn n l) k = nth_error l (n + k).
Proof. revert l. induction n; intros [|a l]; simpl; auto. now destruct k. Qed.
(** with more stars in the bins the errors are not smaller *)
Theorem C309_more_stars mags lf lf' s counts counts' err err' i e e' : 0 <= s -> Rising lf -> Rising lf' -> Steps lf counts -> Steps lf' counts' ->
  length lf = length lf' -> (forall k x y, nth_error counts k = Some x -> nth_error counts' k = Some y -> x <= y) ->
  comp_crowd mags lf s = Ok err -> comp_crowd mags lf' s = Ok err' -> nth_error err i = Some e -> nth_error err' i = Some e' -> 0 <= e <= e'.
Proof.
  intros Ps Ri Ri' S1 S2 L M H H' He He'. destruct (C309_error _ _ _ _ _ Ri S1 H) as [_ F]. destruct (C309_error _ _ _ _ _ Ri' S2 H') as [_ F'].
  destruct (F _ _ He) as (m & Em & ->). destruct (F' _ _ He') as (m' & Em' & ->). rewrite Em in Em'. injection Em' as <-.
  assert (0 <= sqrt PI / 3600 * (s / 2)).
  { pose proof (sqrt_pos PI). apply Rmult_le_pos; lra. }
  split; [apply Rmult_le_pos; [assumption | apply sqrt_pos]|]. apply Rmult_le_compat_l; [assumption|]. apply sqrt_le_1_alt, light_more.
  - rewrite !skipn_length. destruct S1 as [-> _], S2 as [-> _]. lia.
  - intros k x y. rewrite !nth_error_skipn. apply M.
Qed.
Print Assumptions C309_more_stars.
Lemma rising_of (l : list R) : (forall k a b, nth_error l k = Some a -> nth_error l (S k) = Some b -> a <= b) -> Rising l.
Proof.
  intro H. assert (G : forall j i x y, nth_error l i = Some x -> nth_error l (i + j)%nat = Some y -> x <= y).
  { induction j as [|j IH]; intros i x y E1 E2.
    - rewrite Nat.add_0_r in E2. assert (x = y) by congruence. lra.
    - destruct (nth_error l (i + j)) as [z|] eqn:Ez.
      + apply Rle_trans with z; [exact (IH _ _ _ E1 Ez)|]. rewrite Nat.add_succ_r in E2. exact (H _ _ _ Ez E2).
      + apply nth_error_None in Ez. assert (nth_error l (i + S j)%nat <> None) as X by congruence. apply nth_error_Some in X. lia. }
  intros i j x y Hij E1 E2. apply (G (j - i)%nat i x y E1). now replace (i + (j - i))%nat with j by lia.
Qed.
Example C309_case : Rising [0; 1; 5] /\ Steps [0; 1; 5] [1 - 0; 5 - 1] /\ exists e1 e2, comp_crowd [20; 21; 22] [0; 1; 5] 1 = Ok [e1; e2].
Proof.
  split; [|split; [apply (diff_steps [0; 1; 5]) | do 2 eexists; reflexivity]].
  apply rising_of. intros [|[|[|k]]] a b E1 E2; simpl in *; try discriminate; injection E1 as <-; injection E2 as <-; lra.
Qed.

(** * C310 *)
Lemma crowd_mag_inv limit bins lf seeing r : crowd_mag limit bins lf seeing = Ok r -> exists best err,
  Least seeing best /\ comp_crowd (tl bins) lf best = Ok err /\
  ((Greatest (tl bins) r /\ forall e, In e err -> e < limit) \/
   exists a e, nth_error (tl bins) (a - 1) = Some r /\ nth_error err a = Some e /\ limit <= e /\
     forall j x, (j < a)%nat -> nth_error err j = Some x -> x < limit).
Proof.
  unfold crowd_mag. destruct (pmin seeing) as [best|] eqn:Eb; [|discriminate]. cbn [bind].
  destruct (comp_crowd _ _ best) as [err|] eqn:Ee; [|discriminate]. cbn [bind].
  destruct (first_where _ 0 err) as [a|] eqn:Ef; intro H; exists best, err; (split; [now apply pmin_spec|]); (split; [exact Ee|]).
  - right. apply first_where_spec in Ef as (_ & (e & E1 & E2) & F). rewrite Nat.sub_0_r in *. exists a, e. apply rleb_true in E2.
    split; [revert H; unfold arr_get; destruct (nth_error (tl bins) _); congruence|]. split; [exact E1|]. split; [exact E2|].
    intros j x Hj Hx. apply rleb_false. exact (F j x Hj Hx).
  - left. split; [now apply pmax_spec|]. intros e He. apply rleb_false. exact (proj1 (first_where_none _ _ _) Ef e He).
Qed.
(** if no magnitude is too crowded the limit is the faintest magnitude *)
Theorem C310_quiet limit bins lf seeing r best err : crowd_mag limit bins lf seeing = Ok r -> Least seeing best ->
  comp_crowd (tl bins) lf best = Ok err -> (forall e, In e err -> e < limit) -> Greatest (tl bins) r.
Proof.
  intros H Hb He Q. destruct (crowd_mag_inv _ _ _ _ _ H) as (b & err' & Hb' & He' & [[G _]|(a & e & _ & Ea & Le & _)]); [exact G|].
  assert (b = best) by (destruct Hb, Hb'; apply Rle_antisym; auto). subst b. assert (err' = err) by congruence. subst.
  apply nth_error_In, Q in Ea. lra.
Qed.
Print Assumptions C310_quiet.
(** up to the reported magnitude every bin is less crowded than the limit, in the best seeing of the visits *)
Theorem C310_below limit bins lf seeing r counts : Rising lf -> Steps lf counts -> Increasing (tl bins) -> crowd_mag limit bins lf seeing = Ok r ->
  exists best, Least seeing best /\
    forall i m e, nth_error (tl (tl bins)) i = Some m -> m <= r -> Crowding best (tl (tl bins)) counts i e -> e < limit.
Proof.
  intros Ri St Inc H. destruct (crowd_mag_inv _ _ _ _ _ H) as (best & err & Hb & He & C). exists best. split; [exact Hb|].
  destruct (C309_error _ _ _ _ _ Ri St He) as [L F]. intros i m e Em Lm Ce.
  assert (Hi : (i < length err)%nat).
  { rewrite L, <- tl_length. apply nth_error_Some. congruence. }
  destruct (nth_some _ _ Hi) as [e' Ee]. destruct (F _ _ Ee) as (m' & E1 & E2). destruct Ce as (m'' & E1' & E2').
  assert (m'' = m') by congruence. subst m''. rewrite <- E2 in E2'. subst e.
  destruct C as [[_ Q]|(a & ea & Er & Ea & _ & Q)]; [apply Q; exact (nth_error_In _ _ Ee)|].
  apply (Q i); [|exact Ee].
  assert (T : nth_error (tl bins) (S i) = Some m) by (destruct (tl bins); [now destruct i | exact Em]).
  destruct (Nat.lt_ge_cases i a) as [X|X]; [exact X|]. exfalso.
  assert (X2 : (a - 1 < S i)%nat) by lia. pose proof (Inc _ _ _ _ X2 Er T). lra.
Qed.
Print Assumptions C310_below.
(** only the best seeing counts, and an empty slice raises *)
Theorem C310_best limit bins lf seeing : (seeing = [] -> crowd_mag limit bins lf seeing = Err ValueError) /\
  forall best, Least seeing best -> crowd_mag limit bins lf seeing = crowd_mag limit bins lf [best].
Proof.
  split; [now intros ->|]. intros best H. unfold crowd_mag. now rewrite (proj2 (pmin_spec seeing best) H).
Qed.
Print Assumptions C310_best.
(** another visit never gives a brighter limit *)
Theorem C310_more_visits limit bins lf seeing s r r' : Rising lf -> Increasing (tl bins) -> (forall x, In x (s :: seeing) -> 0 < x) -> 0 < limit ->
  crowd_mag limit bins lf seeing = Ok r -> crowd_mag limit bins lf (s :: seeing) = Ok r' -> r <= r'.
Proof.
  intros Ri Inc Pos Pl H H'.
  destruct (crowd_mag_inv _ _ _ _ _ H) as (b & err & Hb & He & C). destruct (crowd_mag_inv _ _ _ _ _ H') as (b' & err' & Hb' & He' & C').
  assert (Bb : b' <= b) by (apply (proj2 Hb'); right; exact (proj1 Hb)). assert (Pb' : 0 < b') by (apply Pos, (proj1 Hb')). assert (Pb : 0 < b) by lra.
  assert (Eerr : err' = map (Rmult (b' / b)) err).
  { pose proof (C309_seeing _ _ _ (b' / b) _ He) as X. replace (b' / b * b) with b' in X by (field; lra). congruence. }
  assert (Lq : 0 < b' / b <= 1).
  { split; [apply Rdiv_lt_0_compat; lra|]. apply (Rmult_le_reg_r b); [lra|]. unfold Rdiv. rewrite Rmult_assoc, Rinv_l by lra. lra. }
  set (q := b' / b) in *. destruct C' as [[G _]|(a' & e' & Er' & Ea' & Le' & Q')].
  - apply (proj2 G). destruct C as [[G2 _]|(a & e & Er & _)]; [exact (proj1 G2) | exact (nth_error_In _ _ Er)].
  - destruct C as [[_ Q]|(a & e & Er & Ea & Le & Q)].
    + exfalso. rewrite Eerr, nth_error_map in Ea'. destruct (nth_error err a') as [x|] eqn:Ex; [|discriminate]. injection Ea' as <-.
      pose proof (Q _ (nth_error_In _ _ Ex)). nra.
    + assert (Haa : (a <= a')%nat).
      { destruct (Nat.le_gt_cases a a') as [X|X]; [exact X|]. exfalso. rewrite Eerr, nth_error_map in Ea'.
        destruct (nth_error err a') as [x|] eqn:Ex; [|discriminate]. injection Ea' as <-. pose proof (Q _ _ X Ex). nra. }
      destruct (Nat.eq_dec (a - 1) (a' - 1)) as [Y|Y]; [rewrite Y in Er; assert (r = r') by congruence; lra|].
      assert (Y2 : (a - 1 < a' - 1)%nat) by lia. pose proof (Inc _ _ _ _ Y2 Er Er'). lra.
Qed.
Print Assumptions C310_more_visits.
(** the first magnitude that is too crowded is the second after the reported one (or there is none) *)
Theorem C310_next_partial limit bins lf seeing r best counts k e : Rising lf -> Steps lf counts -> Increasing (tl bins) ->
  crowd_mag limit bins lf seeing = Ok r -> Least seeing best -> nth_error (tl bins) (S k) = Some r ->
  Crowding best (tl (tl bins)) counts (S (S k)) e -> limit <= e.
Proof.
  intros Ri St Inc H Hb Er Ce. destruct (crowd_mag_inv _ _ _ _ _ H) as (b & err & Hb' & He & C).
  assert (b = best) by (destruct Hb, Hb'; apply Rle_antisym; auto). subst b.
  destruct (C309_error _ _ _ _ _ Ri St He) as [L F]. destruct Ce as (m & Em & Ee).
  assert (T : nth_error (tl bins) (S (S (S k))) = Some m) by (destruct (tl bins); [discriminate | exact Em]).
  destruct C as [[G _]|(a & ea & Ea1 & Ea2 & Le & _)].
  - exfalso. pose proof (proj2 G _ (nth_error_In _ _ T)). pose proof (Inc (S k) (S (S (S k))) r m ltac:(lia) Er T). lra.
  - assert (A : (a - 1)%nat = S k) by exact (increasing_index_eq _ _ _ _ Inc Ea1 Er). assert (a = S (S k)) by lia. subst a.
    destruct (F _ _ Ea2) as (m' & E1 & E2). assert (m' = m) by congruence. subst. exact Le.
Qed.
Print Assumptions C310_next_partial.
Lemma coeff_pos s : 0 < s -> 0 < coeff s.
Proof. intro H. rewrite coeff_spec. pose proof (sqrt_lt_R0 PI PI_RGT_0). apply Rmult_lt_0_compat; [apply Rdiv_lt_0_compat|]; lra. Qed.
(** the faintest magnitude that is less crowded than the limit, refuted: the list of magnitudes is one longer than that of the
    errors, so the result is one bin too bright *)
Theorem C310_faintest_refuted : exists limit bins lf seeing r m, Rising lf /\ Increasing bins /\ crowd_mag limit bins lf seeing = Ok r /\ r < m /\
  (exists i e, nth_error (tl (tl bins)) i = Some m /\ Crowding 1 (tl (tl bins)) (diff lf) i e /\ e < limit) /\ Least seeing 1.
Proof.
  assert (Ri : Rising [0; 0; 0; 1]).
  { apply rising_of. intros [|[|[|[|k]]]] a b E1 E2; simpl in *; try discriminate; injection E1 as <-; injection E2 as <-; lra. }
  assert (In5 : Increasing [19; 20; 21; 22; 23]).
  { apply sorted_increasing. repeat constructor; lra. }
  pose proof (coeff_pos 1 Rlt_0_1) as Pc.
  set (p := Rpower 10 (8/10 * (22 - 23))). assert (Pp : 0 < p) by (unfold p, Rpower; apply exp_pos).
  assert (Pp1 : p < 1) by (unfold p; rewrite <- (Rpower_O 10) by lra; apply Rpower_lt; lra).
  set (p2 := Rpower 10 (8/10 * (21 - 23))). assert (Pq1 : p2 < 1) by (unfold p2; rewrite <- (Rpower_O 10) by lra; apply Rpower_lt; lra).
  assert (Sq : forall x, x < 1 -> sqrt x < 1).
  { intros x Hx. destruct (Rle_dec 0 x) as [H0|H0]; [rewrite <- sqrt_1; apply sqrt_lt_1_alt; lra|].
    rewrite sqrt_neg_0 by lra. lra. }
  destruct (comp_crowd [20; 21; 22; 23] [0; 0; 0; 1] 1) as [err|] eqn:Ee; [|discriminate].
  destruct (comp_crowd_spec _ _ _ _ Ri Ee) as (_ & L & F). simpl length in L. simpl Nat.pred in L.
  destruct err as [|e0 [|e1 [|e2 [|]]]]; try discriminate.
  assert (V : forall m l c e, Light m l c = e -> Light m l c = e) by auto.
  destruct (F 0%nat e0 eq_refl) as (m0 & X0 & Y0). destruct (F 1%nat e1 eq_refl) as (m1 & X1 & Y1). destruct (F 2%nat e2 eq_refl) as (m2 & X2 & Y2).
  simpl in X0, X1, X2. injection X0 as <-. injection X1 as <-. injection X2 as <-. rewrite <- coeff_spec in Y0, Y1, Y2.
  assert (L0 : Light 21 (skipn 0 (tl [20; 21; 22; 23])) (skipn 0 (diff [0; 0; 0; 1])) = p2) by (unfold Light, Sum; simpl; fold p2; lra).
  assert (L1 : Light 22 (skipn 1 (tl [20; 21; 22; 23])) (skipn 1 (diff [0; 0; 0; 1])) = p) by (unfold Light, Sum; simpl; fold p; lra).
  assert (L2 : Light 23 (skipn 2 (tl [20; 21; 22; 23])) (skipn 2 (diff [0; 0; 0; 1])) = 1).
  { unfold Light, Sum; simpl. replace (8/10 * (23 - 23)) with 0 by lra. rewrite Rpower_O by lra. lra. }
  rewrite L0 in Y0. rewrite L1 in Y1. rewrite L2, sqrt_1 in Y2.
  pose proof (Sq _ Pp1). pose proof (Sq _ Pq1).
  exists (coeff 1), [19; 20; 21; 22; 23], [0; 0; 0; 1], [1], 21, 22. split; [exact Ri|]. split; [exact In5|]. split.
  - unfold crowd_mag. change (tl [19; 20; 21; 22; 23]) with [20; 21; 22; 23]. change (pmin [1]) with (@Ok R 1). cbn [bind]. rewrite Ee. cbn [bind first_where].
    assert (rleb (coeff 1) e0 = false) as -> by (apply rleb_false; rewrite Y0; nra).
    assert (rleb (coeff 1) e1 = false) as -> by (apply rleb_false; rewrite Y1; nra).
    assert (rleb (coeff 1) e2 = true) as -> by (apply rleb_true; rewrite Y2; lra). reflexivity.
  - split; [lra|]. split.
    + exists 1%nat, e1. split; [reflexivity|]. split; [exact (F 1%nat e1 eq_refl)|]. rewrite Y1. nra.
    + split; [now left|]. intros y [<-|[]]. lra.
Qed.
Print Assumptions C310_faintest_refuted.
Example C310_case : exists r, crowd_mag (1/10) [19; 20; 21; 22] [0; 1; 5] [2; 1] = Ok r.
Proof.
  unfold crowd_mag. simpl. destruct (rleb _ _); [eexists; reflexivity|]. destruct (rleb _ _); eexists; reflexivity.
Qed.
