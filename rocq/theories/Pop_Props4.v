(** Theorems about the rate selection of kilonovae: C343, with examples for C342. *)
From Coq Require Import String Reals Lra Lia ZArith List Bool Permutation.
From Verif Require Import Base Depth_Model Depth_Proofs Template_Model Sky_Proofs Pop_Model Pop_Spec Runs_Spec Plane_Spec Pop_Props Pop_Props2 Pop_Props3.
From Verif Require Astrom_Model Runs_Props.
Import ListNotations.
Open Scope R_scope.

Definition Known (vs : list event_visit) : Prop := forall v, In v vs -> OneOf ["u"; "g"; "r"; "i"; "z"; "y"]%string (e_band v).
Lemma known_letters curves ax1 indx ebv d start vs obs : Known vs -> each (observed (apparent curves ax1 indx ebv d) start) vs = Ok obs -> Letters (filter kn_seen obs).
Proof.
  intros K E p I. apply filter_In in I. destruct I as [I _]. apply each_spec in E. revert K I.
  induction E as [|v q vs obs H E IH]; intros K I; [destruct I|]. destruct I as [->|I].
  - unfold observed in H. cbv zeta in H. destruct (apparent _ _ _ _ _ _ _); cbn [bind] in H; [|discriminate]. injection H as <-. cbn [o_band]. apply K. left. reflexivity.
  - apply IH; [|exact I]. intros w W. apply K. right. exact W.
Qed.

(** C343: what the rate selections mean *)
Theorem C343_meaning : forall curves ax1 pts mjd0 peak indx ebv dist vs r, Curves curves -> Known vs -> kn_run curves ax1 pts mjd0 peak indx ebv dist vs = Ok r ->
  exists obs seen, Forall2 (Measured curves ax1 indx ebv (Some dist) (mjd0 + peak)) vs obs /\ Sub KnDetected obs seen
  /\ YesNo (k_ztf r) ((pts <= length seen)%nat /\ Spans seen /\ exists f, Evolves seen f)
  /\ YesNo (k_ztf_red r) ((pts <= length seen)%nat /\ Spans seen /\ exists f, OneOf ["i"; "z"; "y"]%string f /\ Evolves seen f)
  /\ YesNo (k_ztf_blue r) ((pts <= length seen)%nat /\ Spans seen /\ exists f, OneOf ["u"; "g"; "r"]%string f /\ Evolves seen f).
Proof.
  intros curves ax1 pts mjd0 peak indx ebv dist vs r C K H. apply kn_run_inv in H. destruct H as (obs & E & _ & _ & _ & _ & Z & Zr & Zb).
  pose proof (known_letters _ _ _ _ _ _ _ _ K E) as L. apply each_spec in E. exists obs, (filter kn_seen obs). split; [|split; [|split; [|split]]].
  - revert E. apply F2_impl. intros v p. apply observed_spec. exact C.
  - apply Runs_Props.filter_sub. apply kn_seen_spec.
  - apply ztf_spec in Z; [|exact L]. destruct Z as [(-> & H1 & H2 & f & _ & H3)|(-> & N)]; [left|right]; split; try reflexivity; eauto.
    intros (H1 & H2 & f & H3). apply N. repeat split; auto. exists f. split; [exact I|exact H3].
  - exact (ztf_spec _ _ _ _ L Zr).
  - exact (ztf_spec _ _ _ _ L Zb).
Qed.
Print Assumptions C343_meaning.

(** selected in the red or in the blue bands is selected, and the other way round; and then detected often enough *)
Theorem C343_bands : forall curves ax1 pts mjd0 peak indx ebv dist vs r, Curves curves -> Known vs -> kn_run curves ax1 pts mjd0 peak indx ebv dist vs = Ok r ->
  (k_ztf r = 1%nat <-> k_ztf_red r = 1%nat \/ k_ztf_blue r = 1%nat) /\ (k_ztf r = 1%nat -> k_multi r = 1%nat).
Proof.
  intros curves ax1 pts mjd0 peak indx ebv dist vs r C K H. apply kn_run_inv in H. destruct H as (obs & E & M & _ & _ & _ & Z & Zr & Zb).
  pose proof (known_letters _ _ _ _ _ _ _ _ K E) as L. apply ztf_spec in Z, Zr, Zb; try exact L. split.
  - split.
    + intros E1. destruct Z as [(_ & H1 & H2 & f & _ & H3)|(Z & _)]; [|congruence].
      assert (O : OneOf ["u"; "g"; "r"; "i"; "z"; "y"]%string f).
      { pose proof H3 as (b & _ & (k & Kk & P & _) & _). rewrite <- P. apply L. eapply nth_error_In; eauto. }
      assert (Cs : OneOf ["u"; "g"; "r"]%string f \/ OneOf ["i"; "z"; "y"]%string f) by (unfold OneOf in *; cbn [In] in *; tauto).
      destruct Cs as [Cs|Cs].
      * right. destruct Zb as [(Zb & _)|(_ & N)]; [exact Zb|]. exfalso. apply N. eauto.
      * left. destruct Zr as [(Zr & _)|(_ & N)]; [exact Zr|]. exfalso. apply N. eauto.
    + intros [E1|E1].
      * destruct Z as [(Z & _)|(_ & N)]; [exact Z|]. destruct Zr as [(_ & H1 & H2 & f & _ & H3)|(Zr & _)]; [|congruence]. exfalso. apply N. repeat split; auto. exists f. split; [exact I|exact H3].
      * destruct Z as [(Z & _)|(_ & N)]; [exact Z|]. destruct Zb as [(_ & H1 & H2 & f & _ & H3)|(Zb & _)]; [|congruence]. exfalso. apply N. repeat split; auto. exists f. split; [exact I|exact H3].
  - intros E1. destruct Z as [(_ & H1 & _)|(Z & _)]; [|congruence]. rewrite M. unfold multi_detect.
    assert (T : negb (Nat.ltb (length (filter kn_seen obs)) pts) = true) by (apply not_ltb; exact H1). rewrite T. reflexivity.
Qed.
Print Assumptions C343_bands.

(** * An example *)
Definition kc : list curve := [[("g", ([0; 1; 2; 10], [10; 10; 11; 12])); ("i", ([0; 10], [15; 15]))]]%string.
Definition ka : list (string * R) := [("g", 1); ("i", 1)]%string.
Definition vis t b : event_visit := {| e_mjd := t; e_m5 := 25; e_band := b |}.
Lemma kc_inc : Curves kc.
Proof.
  intros lc b ph mag [<-|[]] [H|[H|[]]]; injection H as <- <- <-; intros i j x y L X Y;
  (destruct i as [|[|[|[|[|i]]]]], j as [|[|[|[|[|j]]]]]; cbn in X, Y; try lia; try discriminate; injection X as <-; injection Y as <-; lra).
Qed.
Lemma ten_pc : 5 * log10 (1 / 100000 * 1000000) - 5 = 0.
Proof. replace (1 / 100000 * 1000000) with 10 by field. unfold log10. pose proof ln10_pos. field. lra. Qed.
Ltac rdec := repeat match goal with
  | |- context [rltb ?a ?b] => let E := fresh "E" in destruct (rltb a b) eqn:E; [apply rltb_true in E|apply rltb_false in E]; try lra
  | |- context [rleb ?a ?b] => let E := fresh "E" in destruct (rleb a b) eqn:E; [apply rleb_true in E|apply rleb_false in E]; try lra
  end.
Lemma k_at t b c a m : lookup (nth 0 kc []) b = Ok c -> lookup ka b = Ok a -> interp99 (fst c) (snd c) t = Ok m -> apparent kc ka 0 0 (Some (1 / 100000)) t b = Ok m.
Proof.
  intros H1 H2 H3. unfold apparent. change (arr_get kc 0) with (Ok (nth 0 kc [])). cbn [bind]. rewrite H1. cbn [bind]. rewrite H3. cbn [bind]. rewrite H2. cbn [bind].
  rewrite ten_pc. f_equal. ring.
Qed.
Ltac kat := eapply k_at; [reflexivity|reflexivity|unfold interp99; cbn [fst snd length Nat.eqb negb combine interp_from]; f_equal; rdec; try field].
Lemma g1 : apparent kc ka 0 0 (Some (1 / 100000)) 1 "g" = Ok 10.
Proof. kat. Qed.
Lemma g2 : apparent kc ka 0 0 (Some (1 / 100000)) 2 "g" = Ok 11.
Proof. kat. Qed.
Lemma g9 : apparent kc ka 0 0 (Some (1 / 100000)) 10 "g" = Ok 12.
Proof. kat. Qed.
Lemma i3 : apparent kc ka 0 0 (Some (1 / 100000)) 3 "i" = Ok 15.
Proof. kat. Qed.
Definition pt t m b : point := {| o_t := t; o_mag := m; o_unc := unc_of m 25; o_m5 := 25; o_band := b |}.
Lemma obs_at t m b : apparent kc ka 0 0 (Some (1 / 100000)) t b = Ok m -> observed (apparent kc ka 0 0 (Some (1 / 100000))) (0 + 0) (vis t b) = Ok (pt t m b).
Proof. intros H. unfold observed. cbv zeta. cbn [e_mjd e_band e_m5 vis]. replace (t - (0 + 0)) with t by ring. rewrite H. reflexivity. Qed.
Lemma ln10_one : 1 < ln 10.
Proof. rewrite <- (ln_exp 1) at 1. apply ln_increasing; [apply exp_pos|]. pose proof exp_le_3. lra. Qed.
Lemma unc_small m : m <= 25 -> 0 < unc_of m 25 <= 0.5.
Proof.
  intros L. pose proof (unc_is m 25) as U. unfold MagError in U. rewrite U. clear U. pose proof ln10_one as T.
  assert (P : 0 < Rpower 10 (2/5 * (m - 25)) <= 1).
  { split; [apply exp_pos|]. rewrite <- (Rpower_O 10) by lra. apply Rle_Rpower; lra. }
  set (x := Rpower 10 (2/5 * (m - 25)) / 5). assert (X : 0 < x <= 0.2) by (unfold x; lra).
  assert (L1 : 0 < ln (1 + x)) by (rewrite <- ln_1; apply ln_increasing; lra).
  assert (L2 : ln (1 + x) <= x).
  { rewrite <- (ln_exp x) at 2. destruct (Req_dec (1 + x) (exp x)) as [->|N]; [lra|]. apply Rlt_le, ln_increasing; [lra|]. apply exp_ineq1. lra. }
  split.
  - apply Rmult_lt_0_compat; [lra|]. apply Rmult_lt_0_compat; [exact L1|]. apply Rinv_0_lt_compat. lra.
  - assert (ln (1 + x) / ln 10 <= ln (1 + x)).
    { apply Rmult_le_reg_r with (ln 10); [lra|]. unfold Rdiv. rewrite Rmult_assoc, Rinv_l by lra. rewrite Rmult_1_r.
      replace (ln (1 + x)) with (ln (1 + x) * 1) at 1 by ring. apply Rmult_le_compat_l; lra. }
    lra.
Qed.
(** sharper, for bright events *)
Lemma unc_tiny m : m <= 20 -> 0 < unc_of m 25 <= 0.01.
Proof.
  intros L. pose proof (unc_is m 25) as U. unfold MagError in U. rewrite U. clear U. pose proof ln10_one as T.
  assert (P : 0 < Rpower 10 (2/5 * (m - 25)) <= 1 / 100).
  { split; [apply exp_pos|]. replace (1 / 100) with (Rpower 10 (- (2))).
    - apply Rle_Rpower; lra.
    - rewrite Rpower_Ropp. replace 2 with (INR 2) by (cbn; ring). rewrite Rpower_pow by lra. cbn. field. }
  set (x := Rpower 10 (2/5 * (m - 25)) / 5). assert (X : 0 < x <= 0.002) by (unfold x; lra).
  assert (L1 : 0 < ln (1 + x)) by (rewrite <- ln_1; apply ln_increasing; lra).
  assert (L2 : ln (1 + x) <= x).
  { rewrite <- (ln_exp x) at 2. destruct (Req_dec (1 + x) (exp x)) as [->|N]; [lra|]. apply Rlt_le, ln_increasing; [lra|]. apply exp_ineq1. lra. }
  split.
  - apply Rmult_lt_0_compat; [lra|]. apply Rmult_lt_0_compat; [exact L1|]. apply Rinv_0_lt_compat. lra.
  - assert (ln (1 + x) / ln 10 <= ln (1 + x)).
    { apply Rmult_le_reg_r with (ln 10); [lra|]. unfold Rdiv. rewrite Rmult_assoc, Rinv_l by lra. rewrite Rmult_1_r.
      replace (ln (1 + x)) with (ln (1 + x) * 1) at 1 by ring. apply Rmult_le_compat_l; lra. }
    lra.
Qed.
Lemma seen_pt t m b : 0 < t < 30 -> m < 25 -> kn_seen (pt t m b) = true.
Proof. intros T M. apply kn_seen_spec. split; cbn; lra. Qed.
Lemma rabs_is x y : (0 <= x /\ x = y) \/ (x <= 0 /\ - x = y) -> Rabs x = y.
Proof. intros [(H & E)|(H & E)]; [rewrite Rabs_right by lra|rewrite Rabs_left1 by lra]; exact E. Qed.

(** one magnitude in a day in g, and once in i *)
Example C342_case : Curves kc /\ Known [vis 1 "g"; vis 2 "g"; vis 3 "i"] /\
  kn_run kc ka 2 0 0 0 0 (1 / 100000) [vis 1 "g"; vis 2 "g"; vis 3 "i"] =
  Ok {| k_multi := 1; k_ztf := 1; k_ztf_red := 0; k_ztf_blue := 1; k_color := 1; k_red := 0; k_blue := 0 |}.
Proof.
  split; [exact kc_inc|]. split; [intros v [<-|[<-|[<-|[]]]]; cbn; auto 10|].
  unfold kn_run. cbn [each]. rewrite (obs_at 1 10 "g" g1), (obs_at 2 11 "g" g2), (obs_at 3 15 "i" i3). cbn [bind]. cbv zeta. cbn [filter].
  rewrite !seen_pt by lra. pose proof (unc_tiny 10 ltac:(lra)). pose proof (unc_tiny 11 ltac:(lra)).
  unfold ztfrest. cbn [length Nat.ltb Nat.leb map o_t pt list_max list_min].
  assert (Sp : rltb (Rmax (Rmax 1 2) 3 - Rmin (Rmin 1 2) 3) min_dt = false).
  { apply rltb_false. unfold Rmax, Rmin, min_dt. destruct (Rle_dec 1 2); [|lra]. destruct (Rle_dec 2 3); [|lra]. destruct (Rle_dec 1 3); lra. }
  rewrite Sp. unfold bands. cbn [map o_band pt].
  assert (B : nodup string_dec ["g"; "g"; "i"]%string = ["g"; "i"]%string) by reflexivity. rewrite B. clear B.
  cbn [filter selected in_izy in_ugr existsb String.eqb Ascii.eqb Bool.eqb orb map o_band pt].
  cbn [rate_of faintest brightest o_mag o_t o_unc pt].
  assert (R1 : rltb 10 11 = true) by (apply rltb_true; lra). assert (R2 : rltb 11 10 = false) by (apply rltb_false; lra). rewrite R1, R2. cbn [o_mag o_t o_unc pt].
  assert (D1 : rltb min_dt (Rabs (2 - 1)) && rltb (10 + unc_of 10 25) (11 - unc_of 11 25) = true).
  { apply andb_true_iff. rewrite !rltb_true. split; [|lra]. rewrite (rabs_is _ 1) by lra. unfold min_dt. lra. }
  rewrite D1.
  assert (D2 : rltb min_dt (Rabs (3 - 3)) = false). { apply rltb_false. rewrite (rabs_is _ 0) by lra. unfold min_dt. lra. }
  rewrite D2. cbn [andb list_max list_min bind].
  replace ((11 - 10) / (2 - 1)) with 1 by field.
  assert (M1 : Rmax 1 0 = 1) by (apply Rmax_left; lra). assert (M2 : Rmin 1 0 = 0) by (apply Rmin_right; lra). rewrite M1, M2.
  assert (F1 : rltb 1 min_fade = false) by (apply rltb_false; unfold min_fade; lra). assert (F2 : rltb 0 min_fade = true) by (apply rltb_true; unfold min_fade; lra).
  assert (F3 : rltb max_rise 0 = true) by (apply rltb_true; unfold max_rise; lra). rewrite F1, F2, F3. reflexivity.
Qed.

(** a later and fainter detection can take the selection away *)
Theorem C343_more_refuted : ~ (forall curves ax1 pts mjd0 peak indx ebv dist l1 v l2 r r', Curves curves -> Known (l1 ++ v :: l2) ->
  kn_run curves ax1 pts mjd0 peak indx ebv dist (l1 ++ l2) = Ok r -> kn_run curves ax1 pts mjd0 peak indx ebv dist (l1 ++ v :: l2) = Ok r' ->
  k_ztf r = 1%nat -> k_ztf r' = 1%nat).
Proof.
  intros H.
  assert (X : kn_run kc ka 2 0 0 0 0 (1 / 100000) [vis 1 "g"; vis 2 "g"; vis 10 "g"; vis 3 "i"] =
    Ok {| k_multi := 1; k_ztf := 0; k_ztf_red := 0; k_ztf_blue := 0; k_color := 1; k_red := 0; k_blue := 0 |}).
  { unfold kn_run. cbn [each]. rewrite (obs_at 1 10 "g" g1), (obs_at 2 11 "g" g2), (obs_at 10 12 "g" g9), (obs_at 3 15 "i" i3). cbn [bind]. cbv zeta. cbn [filter].
    rewrite !seen_pt by lra. pose proof (unc_tiny 10 ltac:(lra)). pose proof (unc_tiny 11 ltac:(lra)). pose proof (unc_tiny 12 ltac:(lra)).
    unfold ztfrest. cbn [length Nat.ltb Nat.leb map o_t pt list_max list_min].
    assert (Sp : rltb (Rmax (Rmax (Rmax 1 2) 10) 3 - Rmin (Rmin (Rmin 1 2) 10) 3) min_dt = false).
    { apply rltb_false. pose proof (Rmax_l (Rmax (Rmax 1 2) 10) 3). pose proof (Rmax_r (Rmax 1 2) 10). pose proof (Rmin_r (Rmin (Rmin 1 2) 10) 3). unfold min_dt. lra. }
    rewrite Sp. unfold bands. cbn [map o_band pt].
    assert (B : nodup string_dec ["g"; "g"; "g"; "i"]%string = ["g"; "i"]%string) by reflexivity. rewrite B. clear B.
    cbn [filter selected in_izy in_ugr existsb String.eqb Ascii.eqb Bool.eqb orb map o_band pt].
    cbn [rate_of faintest brightest o_mag o_t o_unc pt].
    assert (R1 : rltb 10 11 = true) by (apply rltb_true; lra). assert (R2 : rltb 11 10 = false) by (apply rltb_false; lra). rewrite R1, R2. cbn [o_mag o_t o_unc pt].
    assert (R3 : rltb 11 12 = true) by (apply rltb_true; lra). assert (R4 : rltb 12 10 = false) by (apply rltb_false; lra). rewrite R3, R4. cbn [o_mag o_t o_unc pt].
    assert (D1 : rltb min_dt (Rabs (10 - 1)) && rltb (10 + unc_of 10 25) (12 - unc_of 12 25) = true).
    { apply andb_true_iff. rewrite !rltb_true. split; [|lra]. rewrite (rabs_is _ 9) by lra. unfold min_dt. lra. }
    rewrite D1.
    assert (D2 : rltb min_dt (Rabs (3 - 3)) = false). { apply rltb_false. rewrite (rabs_is _ 0) by lra. unfold min_dt. lra. }
    rewrite D2. cbn [andb list_max list_min bind].
    set (q := (12 - 10) / (10 - 1)). assert (Q : 0 < q < 0.3) by (unfold q; lra).
    assert (M1 : Rmax q 0 = q) by (apply Rmax_left; lra). assert (M2 : Rmin q 0 = 0) by (apply Rmin_right; lra). rewrite M1, M2.
    assert (F1 : rltb q min_fade = true) by (apply rltb_true; unfold min_fade; lra). assert (F2 : rltb 0 min_fade = true) by (apply rltb_true; unfold min_fade; lra).
    assert (F3 : rltb max_rise 0 = true) by (apply rltb_true; unfold max_rise; lra). assert (F4 : rltb max_rise q = true) by (apply rltb_true; unfold max_rise; lra). rewrite F1, F2, F3, ?F4. reflexivity. }
  assert (Kn : Known ([vis 1 "g"; vis 2 "g"] ++ vis 10 "g" :: [vis 3 "i"])) by (intros v [<-|[<-|[<-|[<-|[]]]]]; cbn; auto 10).
  pose proof (H kc ka 2%nat 0 0 0%nat 0 (1 / 100000) [vis 1 "g"; vis 2 "g"] (vis 10 "g") [vis 3 "i"] _ _ kc_inc Kn (proj2 (proj2 C342_case)) X eq_refl) as F. discriminate F.
Qed.
Print Assumptions C343_more_refuted.
