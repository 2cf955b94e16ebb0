(** C395, C396: the metric that looks for periodic stars in short spans. *)
From Coq Require Import Ascii String.
From Verif Require Import Base Period_Model Period_Spec Period_Proofs Period_Props Period_Props2.
From Verif Require Plane_Spec Depth_Model Astrom_Model Astrom_Proofs2.
From Coq Require Import Reals Lra Lia List R_Ifp.
Import ListNotations.
Open Scope R_scope.

(** *** C395: its value is 0 *)
Lemma failed_not c P A mags bs : recovered c P A mags (drop_bands bs (failed mags)) = false.
Proof. unfold recovered, drop_bands. destruct (_ <? _)%nat; reflexivity. Qed.
Lemma none_of l (p : fitted -> bool) : (forall x, In x l -> p x = false) -> filter p l = [].
Proof. induction l as [|x l IH]; intros H; [reflexivity|]. cbn. rewrite H by (left; reflexivity). apply IH. intros y Y. apply H. right; exact Y. Qed.
Lemma mod_one_zero fit noise u mc bs tm d : length (c_means (mc_conf mc)) = 6%nat -> (0 < c_monte (mc_conf mc))%nat ->
  (forall t b m5, In ((t, b), m5) tm -> exists i, Place b i) -> tm <> [] -> mod_one fit noise u mc bs tm (Some d) = Ok (Some 0).
Proof.
  intros L6 PM PL NE. unfold mod_one. destruct tm as [|p tm]; [congruence|]. set (l := p :: tm) in *.
  destruct (distances_len (mc_conf mc) d) as (mags & -> & LM). cbn [bind]. rewrite L6 in LM. unfold light_curve. rewrite LM. cbn [Nat.eqb].
  set (P := _ * c_period _). set (A := _ * c_amplitude _). set (ph := if mc_random_phase mc then _ else _).
  destruct (star_lc_ok P ph A mags (map fst l) LM) as (lc & ->).
  { intros t b I. apply in_map_iff in I. destruct I as (((t' & b') & m5) & E & I). cbn in E. injection E as -> ->. eapply PL, I. }
  cbn [bind].
  rewrite (trials_const _ (failed mags)).
  2:{ intros i. unfold mod_trial. rewrite LM. reflexivity. }
  cbn [bind]. unfold frac_recovered. destruct (c_monte (mc_conf mc)) as [|n]; [lia|].
  rewrite none_of.
  - cbn [bind length]. do 2 f_equal. change (INR 0) with 0. unfold Rdiv. ring.
  - intros x I. apply in_map_iff in I. destruct I as (f & <- & I). apply repeat_spec in I. subst f. apply failed_not.
Qed.
Lemma mod_all_zeros one k n : (forall i, (k <= i < k + n)%nat -> one i = Ok None \/ one i = Ok (Some 0)) ->
  exists j, mod_all one k n = Ok (repeat 0 j) /\ ((0 < n)%nat -> one k = Ok (Some 0) -> (0 < j)%nat).
Proof.
  revert k. induction n as [|n IH]; intros k H; [exists 0%nat; split; [reflexivity|lia]|]. cbn.
  destruct (IH (S k)) as (j & E & _); [intros i I; apply H; lia|].
  destruct (H k) as [X|X]; [lia| |]; rewrite X; cbn; rewrite E; cbn.
  - exists j. split; [reflexivity|discriminate].
  - exists (S j). split; [reflexivity|lia].
Qed.
Lemma rsum_zeros n : Astrom_Model.rsum (repeat 0 n) = 0.
Proof. unfold Astrom_Model.rsum. induction n as [|n IH]; [reflexivity|]. cbn. rewrite IH. ring. Qed.
Lemma fold_max_shift x l a : fold_left Rmax (map (fun t => t - x) l) (a - x) = fold_left Rmax l a - x.
Proof.
  revert a. induction l as [|t l IH]; intros a; [reflexivity|]. cbn. rewrite <- IH. f_equal. unfold Rmax.
  destruct (Rle_dec (a - x) (t - x)), (Rle_dec a t); lra.
Qed.
Lemma span_is vs : vs <> [] -> Astrom_Model.rmax_list (map fst (times vs)) = Astrom_Model.rmax_list (map v_mjd vs) - Astrom_Model.rmin_list (map v_mjd vs).
Proof.
  intros N. unfold times. rewrite map_map. cbn [fst]. set (t0 := Astrom_Model.rmin_list (map v_mjd vs)).
  destruct vs as [|v vs]; [congruence|]. cbn [map Astrom_Model.rmax_list]. rewrite <- fold_max_shift, map_map. reflexivity.
Qed.
Lemma int_small x : 0 <= x < 1 -> int_of x = 0%nat.
Proof.
  intros H. unfold int_of. replace (Int_part x) with 0%Z; [reflexivity|]. symmetry. unfold Int_part.
  rewrite <- (tech_up x 1); [reflexivity|cbn; lra|cbn; lra].
Qed.
Lemma int_le (n : nat) x : INR n <= x -> (n <= int_of x)%nat.
Proof.
  intros H. unfold int_of. destruct (base_Int_part x) as (A & B).
  assert (Z : (Z.of_nat n < Int_part x + 1)%Z).
  { apply lt_IZR. rewrite plus_IZR, <- INR_IZR_INZ. lra. }
  lia.
Qed.
Lemma int_ge x : 0 <= x -> INR (int_of x) <= x.
Proof.
  intros H. unfold int_of. destruct (base_Int_part x) as (A & B).
  assert (Z : (0 <= Int_part x)%Z). { apply le_IZR_R1 || idtac. assert (-1 < Int_part x)%Z; [|lia]. apply lt_IZR. lra. }
  rewrite INR_IZR_INZ, Z2Nat.id by exact Z. exact A.
Qed.

Lemma times_place vs t b m5 : (forall v, In v vs -> exists b i, Begins (v_band v) b /\ Place b i) ->
  In ((t, b), m5) (combine (times vs) (map v_m5 vs)) -> exists i, Place b i.
Proof.
  intros B I. apply in_combine_l in I. apply times_in in I. destruct I as (v & I & ->). destruct (B v I) as (b & i & BB & PL). exists i.
  rewrite (begins_u1 _ _ _ BB PL). exact PL.
Qed.
Lemma first_in vs : vs <> [] -> exists b m5, In ((0, b), m5) (combine (times vs) (map v_m5 vs)).
Proof.
  intros N. destruct (earliest_min vs N) as (I & _). apply in_map_iff in I. destruct I as (v & E & I).
  apply In_nth_error in I. destruct I as (j & J). exists (u1 (v_band v)), (v_m5 v). apply (nth_error_In _ j).
  rewrite nth_combine, (times_nth vs j v J), nth_error_map, J. cbn. rewrite E. do 3 f_equal. ring.
Qed.

(** whatever the visits, the random numbers and the fits are, the value is 0 if the visits span at least one interval,
    and NaN if they do not *)
Theorem C395_zero : forall fit noise us mc vs d t0 t1, length (c_means (mc_conf mc)) = 6%nat -> (0 < c_monte (mc_conf mc))%nat ->
  0 < mc_interval mc -> (forall v, In v vs -> exists b i, Begins (v_band v) b /\ Place b i) -> (9 <= length vs)%nat ->
  Earliest (map v_mjd vs) t0 -> In t1 (map v_mjd vs) -> (forall t, In t (map v_mjd vs) -> t <= t1) ->
  (mc_interval mc <= t1 - t0 -> mod_run fit noise us mc vs (Some d) = Ok (Some 0)) /\
  (t1 - t0 < mc_interval mc -> mod_run fit noise us mc vs (Some d) = Ok None).
Proof.
  intros fit noise us mc vs d t0 t1 L6 PM PI_ B L9 (E0 & EL) I1 UB.
  assert (NE : vs <> []) by (destruct vs; [cbn in L9; lia|discriminate]).
  assert (T0 : Astrom_Model.rmin_list (map v_mjd vs) = t0).
  { destruct (Astrom_Proofs2.rmin_spec (map v_mjd vs)) as (X & Y); [destruct vs; [congruence|discriminate]|]. apply Rle_antisym; auto. }
  assert (T1 : Astrom_Model.rmax_list (map v_mjd vs) = t1).
  { destruct (Astrom_Proofs2.rmax_spec (map v_mjd vs)) as (X & Y); [destruct vs; [congruence|discriminate]|]. apply Rle_antisym; auto. }
  unfold mod_run. rewrite L6. destruct (Nat.ltb_spec (length vs) (6 + 3)) as [X|_]; [lia|].
  rewrite (span_is vs NE), T0, T1.
  set (tm := combine (times vs) (map v_m5 vs)). set (n := int_of ((t1 - t0) / mc_interval mc)).
  set (one := fun k => mod_one fit (noise k) (us k) mc (map v_band vs) (subrun (mc_interval mc) k tm) (Some d)).
  split; intros SP.
  - assert (N1 : (1 <= n)%nat).
    { apply int_le. cbn [INR]. apply (Rmult_le_reg_r (mc_interval mc)); [exact PI_|]. unfold Rdiv. rewrite Rmult_assoc, Rinv_l by lra. lra. }
    destruct (mod_all_zeros one 0 n) as (j & E & J).
    { intros i _. unfold one. destruct (subrun (mc_interval mc) i tm) as [|p q] eqn:S; [left; reflexivity|right].
      rewrite <- S. apply mod_one_zero; [exact L6|exact PM| |rewrite S; discriminate].
      intros t b m5 I. unfold subrun in I. apply filter_In in I. destruct I as (I & _). eapply times_place; [exact B|exact I]. }
    assert (ONE : one 0%nat = Ok (Some 0)).
    { unfold one. apply mod_one_zero; [exact L6|exact PM| |].
      - intros t b m5 I. unfold subrun in I. apply filter_In in I. destruct I as (I & _). eapply times_place; [exact B|exact I].
      - destruct (first_in vs NE) as (b & m5 & I). intros C.
        assert (K : In ((0, b), m5) (subrun (mc_interval mc) 0 tm)).
        { unfold subrun. apply filter_In. split; [exact I|]. cbn [fst]. unfold in_subrun. cbn [INR].
          destruct (Rle_dec (mc_interval mc * 0) 0); [|lra]. destruct (Rle_dec 0 (mc_interval mc * 1)); [reflexivity|lra]. }
        rewrite C in K. exact K. }
    rewrite E. cbn [bind]. specialize (J N1 ONE). destruct j as [|j]; [lia|]. cbn [repeat]. change (0 :: repeat 0 j) with (repeat 0 (S j)).
    rewrite rsum_zeros. do 2 f_equal. unfold Rdiv. ring.
  - assert (N0 : n = 0%nat).
    { apply int_small. assert (t0 <= t1) by (apply EL, I1). split.
      - apply Rmult_le_pos; [lra|]. left. apply Rinv_0_lt_compat, PI_.
      - apply (Rmult_lt_reg_r (mc_interval mc)); [exact PI_|]. unfold Rdiv. rewrite Rmult_assoc, Rinv_l by lra. lra. }
    rewrite N0. reflexivity.
Qed.
Print Assumptions C395_zero.

Definition short : mconf := {| mc_conf := star; mc_random_phase := false; mc_interval := 12 |}.
Lemma gri_bands v : In v (nights gri) -> exists b i, Begins (v_band v) b /\ Place b i.
Proof.
  intros I. cbn [nights gri combine seq length map fst snd] in I. cbn [In] in I.
  repeat (destruct I as [<-|I]; [eexists _, _; split; [eexists _, _; split; reflexivity|constructor]|]). contradiction.
Qed.
(** the star whose period, amplitude and magnitudes are always found is not recovered in any subrun *)
Theorem C395_share_refuted : exists mc vs, forall noise us,
  run exact_fit (noise 0%nat) (mc_conf mc) vs (Some []) = Ok 1 /\ mod_run exact_fit noise us mc vs (Some []) = Ok (Some 0).
Proof.
  exists short, (nights gri). intros noise us. split; [apply C391_case|].
  refine (proj1 (C395_zero exact_fit noise us short (nights gri) [] 60000 60024 _ _ _ gri_bands _ _ _ _) _).
  - reflexivity.
  - cbn. lia.
  - cbn [short mc_interval]. lra.
  - cbn. lia.
  - split.
    + cbn [nights gri combine seq length map fst snd at_ v_mjd INR In]. left. lra.
    + intros t I. cbn [nights gri combine seq length map fst snd at_ v_mjd INR In] in I.
      repeat (destruct I as [<-|I]; [lra|]). contradiction.
  - cbn [nights gri combine seq length map fst snd at_ v_mjd INR In]. do 8 right. left. lra.
  - intros t I. cbn [nights gri combine seq length map fst snd at_ v_mjd INR In] in I.
    repeat (destruct I as [<-|I]; [lra|]). contradiction.
  - cbn [short mc_interval]. lra.
Qed.
Print Assumptions C395_share_refuted.
Theorem C395_few : forall fit noise us mc vs sp, (length vs < length (c_means (mc_conf mc)) + 3)%nat ->
  mod_run fit noise us mc vs sp = Ok (Some (c_badval (mc_conf mc))).
Proof. intros fit noise us mc vs sp L. unfold mod_run. apply Nat.ltb_lt in L. rewrite L. reflexivity. Qed.
Print Assumptions C395_few.

(** *** C396: the visits of the subruns *)
Lemma subrun_in I k tm p : In p (subrun I k tm) <-> In p tm /\ I * INR k <= fst (fst p) <= I * INR (S k).
Proof.
  unfold subrun. rewrite filter_In. unfold in_subrun.
  destruct (Rle_dec (I * INR k) (fst (fst p))), (Rle_dec (fst (fst p)) (I * INR (S k))); cbn [andb]; intuition (lra || discriminate).
Qed.
(** what is true: a subrun spans one interval, and each visit in the whole intervals is in one or two neighbouring subruns *)
Theorem C396_subruns_partial : forall I tm p, 0 < I -> In p tm -> 0 <= fst (fst p) ->
  (exists k, INR k * I <= fst (fst p) < INR (S k) * I /\ In p (subrun I k tm) /\
     forall j, In p (subrun I j tm) -> j = k \/ (S j = k /\ fst (fst p) = INR k * I)).
Proof.
  intros I tm p PI_ IP NN. set (t := fst (fst p)) in *. set (k := int_of (t / I)).
  assert (T : t / I * I = t) by (field; lra).
  assert (Q : 0 <= t / I) by (apply Rmult_le_pos; [exact NN|left; apply Rinv_0_lt_compat, PI_]).
  assert (A : INR k <= t / I) by (apply int_ge, Q).
  assert (B : t / I < INR (S k)).
  { destruct (Rlt_le_dec (t / I) (INR (S k))) as [L|L]; [exact L|]. apply int_le in L. unfold k in L. lia. }
  assert (A' : INR k * I <= t) by (rewrite <- T; apply Rmult_le_compat_r; lra).
  assert (B' : t < INR (S k) * I) by (rewrite <- T; apply Rmult_lt_compat_r; lra).
  exists k. split; [split; assumption|]. split; [apply subrun_in; fold t; split; [exact IP|lra]|].
  intros j J. apply subrun_in in J. fold t in J. destruct J as (_ & J1 & J2).
  assert (JK : (j <= k)%nat).
  { apply Nat.lt_succ_r. apply INR_lt. apply (Rmult_lt_reg_r I); [exact PI_|]. lra. }
  assert (KJ : (k <= S j)%nat).
  { apply INR_le. apply (Rmult_le_reg_r I); [exact PI_|]. lra. }
  destruct (Nat.eq_dec j k) as [->|NE]; [left; reflexivity|right]. assert (S j = k) by lia. split; [assumption|]. subst k. rewrite <- H in *. lra.
Qed.
Print Assumptions C396_subruns_partial.
(** refuted: a visit at the border of two subruns is in both *)
Theorem C396_border_refuted : forall m5, let p := ((12, "r"%string), m5) in In p (subrun 12 0 [p]) /\ In p (subrun 12 1 [p]).
Proof. intros m5 p. split; apply subrun_in; (split; [left; reflexivity|]); cbn [p fst INR]; lra. Qed.
Print Assumptions C396_border_refuted.
(** refuted: visits after the last whole interval are in no subrun *)
Theorem C396_tail_refuted : exists mc vs v, In v vs /\ v_band v = "w"%string /\ forall fit noise us,
  run fit (noise 0%nat) (mc_conf mc) vs (Some []) = Err KeyError /\ mod_run fit noise us mc vs (Some []) = Ok (Some 0).
Proof.
  exists {| mc_conf := star; mc_random_phase := false; mc_interval := 20 |}, (nights gri ++ [at_ 60030 "w"]), (at_ 60030 "w").
  split; [apply in_or_app; right; left; reflexivity|]. split; [reflexivity|]. intros fit noise us. split.
  { apply (C390_band fit (noise 0%nat) star _ [] (at_ 60030 "w")); [reflexivity|cbn; lia|apply in_or_app; right; left; reflexivity|].
    intros b i (c & r & E & ->) P. cbn in E. injection E as <- <-. inversion P. }
  set (vs := nights gri ++ [at_ 60030 "w"]).
  assert (T : times vs = [(0, "g"); (3, "r"); (6, "i"); (9, "g"); (12, "r"); (15, "i"); (18, "g"); (21, "r"); (24, "i"); (30, "w")]%string).
  { assert (M : Astrom_Model.rmin_list (map v_mjd vs) = 60000).
    { destruct (earliest_min vs) as (I & LB); [discriminate|]. set (q := Astrom_Model.rmin_list (map v_mjd vs)) in *. clearbody q. apply Rle_antisym.
      - apply LB. cbn [vs nights gri combine seq length map fst snd at_ v_mjd INR In app]. left. lra.
      - cbn [vs nights gri combine seq length map fst snd at_ v_mjd INR In app] in I.
        repeat (destruct I as [E|I]; [rewrite <- E; cbn [vs nights gri combine seq length map fst snd at_ v_mjd INR app]; lra|]). contradiction. }
    unfold times. rewrite M. cbn [vs nights gri combine seq length map fst snd at_ v_mjd v_band INR app u1].
    repeat (apply f_equal2; [apply f_equal2; [lra|reflexivity]|]). reflexivity. }
  unfold mod_run. cbn [mc_conf mc_interval]. cbn [star c_means length]. change (length vs <? 6 + 3)%nat with false. cbv iota.
  rewrite T. cbn [map fst].
  assert (MX : Astrom_Model.rmax_list [0; 3; 6; 9; 12; 15; 18; 21; 24; 30] = 30).
  { cbn [Astrom_Model.rmax_list fold_left]. 
    rewrite (Rmax_right 0 3), (Rmax_right 3 6), (Rmax_right 6 9), (Rmax_right 9 12), (Rmax_right 12 15), (Rmax_right 15 18), (Rmax_right 18 21), (Rmax_right 21 24), (Rmax_right 24 30) by lra. reflexivity. }
  rewrite MX.
  assert (IN : int_of (30 / 20) = 1%nat).
  { apply Nat.le_antisymm; [|apply int_le; cbn; lra]. apply Nat.lt_succ_r. apply INR_lt. cbn [INR].
    eapply Rle_lt_trans; [apply int_ge|]; lra. }
  rewrite IN. cbn [mod_all].
  set (tm := combine _ _).
  rewrite (mod_one_zero fit (noise 0%nat) (us 0%nat)).
  - cbn [bind]. do 2 f_equal. unfold Astrom_Model.rsum. cbn. field.
  - reflexivity.
  - cbn. lia.
  - intros t b m5 I. apply subrun_in in I. cbn [fst INR] in I. destruct I as (I & _ & U).
    cbn [tm combine vs nights gri seq length map fst snd at_ v_m5 app In] in I.
    repeat (destruct I as [E|I]; [injection E as <- <- <-; first [eexists; constructor|lra]|]). contradiction.
  - intros C. assert (K : In ((0, "g"%string), 24) (subrun 20 0 tm)).
    { apply subrun_in. cbn [fst INR]. split; [left; reflexivity|lra]. }
    rewrite C in K. exact K.
Qed.
Print Assumptions C396_tail_refuted.
Example C396_case : exists k, 5 * INR k <= 12 < 5 * INR (S k).
Proof. exists 2%nat. cbn [INR]. lra. Qed.

(** *** cases of C386-C390 and C395 *)
Example C386_case : exists outs n, length outs = 5%nat /\
  Plane_Spec.CountP (fun f => WellFit 10 (1/2) (1/20) (1/10) (1/10) 3 (map v_band (nights gri)) [20; 20; 20; 20; 20; 20] (f_period f) (f_amplitude f) (f_mags f)) outs n /\
  1 * INR 5 = INR n.
Proof.
  destruct (C386_share exact_fit (fun _ _ => 1) star (nights gri) [] 1) as (outs & n & L & _ & C & _ & E).
  - exact exact_six.
  - intros [].
  - vm_compute. lia.
  - cbn. lia.
  - apply C391_case.
  - exists outs, n. split; [exact L|split; [exact C|exact E]].
Qed.
Example C387_case : run exact_fit (fun _ _ => 0) star (nights ["g"; "r"; "i"]%string) (Some []) = Ok (-666).
Proof. apply C387_few. cbn. lia. Qed.
Example C388_case : run exact_fit (fun _ _ => 0) (with_tol star 1 1 1 4) (nights gri) (Some []) = Ok 0.
Proof.
  refine (proj2 (C391_exact (fun _ _ => 0) (with_tol star 1 1 1 4) (nights gri) [] _ _ _ _ _ _ _ _ _ _) _);
    cbn [with_tol star c_means c_monte c_period c_amplitude c_period_tol c_amp_tol c_mag_tol c_bands]; try lra; try (cbn; lia).
  - intros v I. cbn [nights gri combine seq length map fst snd] in I. cbn [In] in I.
    repeat (destruct I as [<-|I]; [eexists; cbn [at_ v_band]; constructor|]). contradiction.
Qed.
Example C389_case : exists r', run exact_fit (fun _ _ => 0) (with_tol star 1 1 1 2) (nights gri) (Some []) = Ok r' /\ 1 <= r'.
Proof.
  apply (C389_tolerances exact_fit (fun _ _ => 0) star (nights gri) (Some []) 1 1 1 1 2); cbn [star c_period_tol c_amp_tol c_mag_tol c_bands]; try lra; try (cbn; lia).
  apply C391_case.
Qed.
Example C390_case : exists r, run (fun _ _ _ _ _ _ _ => Err RuntimeError) (fun _ _ => 0) star (nights gri) (Some []) = Ok r.
Proof. apply C390_total; [reflexivity|cbn; lia|exact gri_bands|]. intros. congruence. Qed.
