(** Theorems about the tidal disruption events: C345, C346. *)
From Coq Require Import String Reals Lra Lia ZArith List Bool Permutation.
From Verif Require Import Base Depth_Model Depth_Proofs Template_Model Sky_Proofs Pop_Model Pop_Spec Runs_Spec Plane_Spec Pop_Props Pop_Props2 Pop_Props3 Pop_Props4.
From Verif Require Astrom_Model Runs_Props.
Import ListNotations.
Open Scope R_scope.

Definition Bright (p : point) : Prop := o_mag p < o_m5 p.
(** a detection early on, in several bands near the peak and in several bands after it *)
Definition Before (p : point) : Prop := o_t p < -10 /\ Bright p.
Definition AtPeak (p : point) : Prop := -5 < o_t p < 5 /\ Bright p.
Definition After (p : point) : Prop := 10 < o_t p < 30 /\ Bright p.
Definition TwoIn (P : point -> Prop) (l : list point) : Prop := exists p q, In p l /\ In q l /\ P p /\ P q /\ o_band p <> o_band q.
Definition ThreeIn (P : point -> Prop) (l : list point) : Prop :=
  exists p q s, In p l /\ In q l /\ In s l /\ P p /\ P q /\ P s /\ o_band p <> o_band q /\ o_band p <> o_band s /\ o_band q <> o_band s.
Definition SomeColor (l : list point) : Prop := (exists p, In p l /\ Before p) /\ ThreeIn AtPeak l /\ TwoIn After l.
Definition UAndAnother (P : point -> Prop) (l : list point) : Prop := exists p q, In p l /\ In q l /\ P p /\ P q /\ o_band p = "u"%string /\ o_band q <> "u"%string.
Definition SomeColorU (l : list point) : Prop := (exists p, In p l /\ Before p) /\ UAndAnother AtPeak l /\ UAndAnother After l.

Lemma bright_spec p : bright p = true <-> Bright p.
Proof. unfold bright, Bright. apply rltb_true. Qed.
Lemma early_in l p : In p (early l) <-> In p l /\ Before p.
Proof. unfold early, Before. rewrite filter_In, andb_true_iff, rltb_true, bright_spec. tauto. Qed.
Lemma near_in l p : In p (near l) <-> In p l /\ AtPeak p.
Proof.
  unfold near, AtPeak. rewrite filter_In, andb_true_iff, rltb_true, bright_spec. split; intros (I & T & B).
  - split; [exact I|]. split; [|exact B]. apply Rabs_def2 in T. lra.
  - split; [exact I|]. split; [|exact B]. apply Rabs_def1; lra.
Qed.
Lemma late_in l p : In p (late l) <-> In p l /\ After p.
Proof. unfold late, After. rewrite filter_In, !andb_true_iff, !rltb_true, bright_spec. tauto. Qed.
Lemma early_some l : (1 <= length (early l))%nat <-> exists p, In p l /\ Before p.
Proof.
  split.
  - destruct (early l) as [|p t] eqn:E; cbn [length]; [lia|]. intros _. exists p. apply early_in. rewrite E. left. reflexivity.
  - intros (p & H). apply early_in in H. destruct (early l); [destruct H|cbn; lia].
Qed.
Lemma near_three l : (3 <= length (bands (near l)))%nat <-> ThreeIn AtPeak l.
Proof.
  rewrite bands_three. unfold Three, ThreeIn. setoid_rewrite near_in. split; intros (p & q & s & H); exists p, q, s; tauto.
Qed.
Lemma late_two l : (2 <= length (bands (late l)))%nat <-> TwoIn After l.
Proof. rewrite bands_two. unfold Two, TwoIn. setoid_rewrite late_in. split; intros (p & q & H); exists p, q; tauto. Qed.
Lemma has_u_spec l : has_u (bands l) = true <-> exists p, In p l /\ o_band p = "u"%string.
Proof.
  unfold has_u. rewrite existsb_exists. unfold bands. setoid_rewrite nodup_In. split.
  - intros (x & I & E). apply String.eqb_eq in E. subst x. apply in_map_iff in I. destruct I as (p & P & PI). eauto.
  - intros (p & PI & P). exists "u"%string. split; [apply in_map_iff; eauto|reflexivity].
Qed.
Lemma u_and_other l : (2 <= length (bands l))%nat /\ has_u (bands l) = true <-> exists p q, In p l /\ In q l /\ o_band p = "u"%string /\ o_band q <> "u"%string.
Proof.
  rewrite bands_two, has_u_spec. split.
  - intros ((p & q & P & Q & N) & (x & X & U)). destruct (string_dec (o_band p) "u") as [E|E].
    + exists x, q. repeat split; auto. congruence.
    + exists x, p. auto.
  - intros (p & q & P & Q & U & N). split; [exists p, q; repeat split; auto; congruence|eauto].
Qed.
Lemma some_color_spec l : some_color l = true <-> SomeColor l.
Proof.
  unfold some_color, SomeColor. rewrite <- early_some, <- near_three, <- late_two.
  destruct (Nat.ltb (length (early l)) 1) eqn:A; [apply Nat.ltb_lt in A; split; [discriminate|lia]|apply Nat.ltb_ge in A].
  destruct (Nat.ltb (length (bands (near l))) 3) eqn:B; [apply Nat.ltb_lt in B; split; [discriminate|lia]|apply Nat.ltb_ge in B].
  rewrite not_ltb. tauto.
Qed.
Lemma some_color_pu_spec l : some_color_pu l = true <-> SomeColorU l.
Proof.
  assert (X : forall P f, (forall p, In p (f l) <-> In p l /\ P p) -> ((2 <= length (bands (f l)))%nat /\ has_u (bands (f l)) = true <-> UAndAnother P l)).
  { intros P f H. rewrite u_and_other. unfold UAndAnother. setoid_rewrite H. split; intros (p & q & K); exists p, q; tauto. }
  unfold some_color_pu, SomeColorU. rewrite <- early_some, <- (X AtPeak near (near_in l)), <- (X After late (late_in l)).
  destruct (Nat.ltb (length (early l)) 1) eqn:A; [apply Nat.ltb_lt in A; split; [discriminate|lia]|apply Nat.ltb_ge in A].
  destruct (Nat.ltb (length (bands (near l))) 2) eqn:B; [apply Nat.ltb_lt in B; split; [discriminate|lia]|apply Nat.ltb_ge in B].
  destruct (has_u (bands (near l))) eqn:C; cbn [negb]; [|split; [discriminate|]; intros (_ & (_ & H) & _); discriminate].
  destruct (Nat.ltb (length (bands (late l))) 2) eqn:D; [apply Nat.ltb_lt in D; split; [discriminate|lia]|apply Nat.ltb_ge in D]. tauto.
Qed.

(** C345: what the answers about a tidal disruption event mean *)
Theorem C345_meaning : forall curves ax1 pts mjd0 peak indx ebv vs a b c, Curves curves -> tde_run curves ax1 pts mjd0 peak indx ebv vs = Ok (a, b, c) ->
  exists obs n, Forall2 (Measured curves ax1 indx ebv None (mjd0 + peak)) vs obs /\ CountP (fun p => o_t p < 0 /\ Bright p) obs n
  /\ YesNo a (pts < n)%nat /\ YesNo b (SomeColor obs) /\ YesNo c (SomeColorU obs).
Proof.
  intros curves ax1 pts mjd0 peak indx ebv vs a b c C. unfold tde_run. destruct (each _ vs) as [obs|] eqn:E; cbn [bind]; [|discriminate]. intros [= <- <- <-].
  exists obs, (length (filter (fun p => rltb (o_t p) 0 && bright p) obs)). split; [|split; [|split; [|split]]].
  - apply each_spec in E. revert E. apply F2_impl. intros v p. apply observed_spec. exact C.
  - clear E. induction obs as [|p l IH]; cbn [filter]; [constructor|]. destruct (rltb (o_t p) 0 && bright p) eqn:F.
    + apply andb_true_iff in F. rewrite rltb_true, bright_spec in F. constructor; [exact F|exact IH].
    + constructor; [|exact IH]. rewrite <- bright_spec, <- rltb_true, <- andb_true_iff. congruence.
  - apply flag_yes. rewrite Nat.ltb_lt. tauto.
  - apply flag_yes. apply some_color_spec.
  - apply flag_yes. apply some_color_pu_spec.
Qed.
Print Assumptions C345_meaning.

(** * An example: a curve of constant brightness 18 in u, g and r from -30 to 60 days *)
Definition tc : list curve := [[("u", ([-30; 60], [18; 18])); ("g", ([-30; 60], [18; 18])); ("r", ([-30; 60], [18; 18]))]]%string.
Definition ta : list (string * R) := [("u", 1); ("g", 1); ("r", 1)]%string.
Lemma tc_inc : Curves tc.
Proof.
  intros lc b ph mag [<-|[]] [H|[H|[H|[]]]]; injection H as <- <- <-; intros i j x y L X Y;
  (destruct i as [|[|i]], j as [|[|j]]; cbn in X, Y; try lia; try (destruct j; discriminate); try (destruct i; discriminate); injection X as <-; injection Y as <-; lra).
Qed.
Lemma t_at t b : -30 <= t <= 60 -> OneOf ["u"; "g"; "r"]%string b -> apparent tc ta 0 0 None t b = Ok 18.
Proof.
  intros T B. assert (I : interp99 [-30; 60] [18; 18] t = Ok 18).
  { unfold interp99; cbn [length Nat.eqb negb combine interp_from]. f_equal.
    destruct (rltb t (-30)) eqn:E1; [apply rltb_true in E1; lra|]. destruct (rleb 60 t) eqn:E2; [|apply rleb_false in E2; field].
    apply rleb_true in E2. destruct (rltb 60 t) eqn:E3; [apply rltb_true in E3; lra|reflexivity]. }
  destruct B as [<-|[<-|[<-|[]]]]; unfold apparent, lookup; cbn [arr_get nth_error tc ta dget String.eqb Ascii.eqb Bool.eqb bind fst snd]; rewrite I; cbn [bind]; f_equal; ring.
Qed.
Definition tv (t : R) (b : string) : event_visit := {| e_mjd := t; e_m5 := 25; e_band := b |}.
Lemma t_obs t b : -30 <= t <= 60 -> OneOf ["u"; "g"; "r"]%string b -> observed (apparent tc ta 0 0 None) (0 + 0) (tv t b) = Ok (pt t 18 b).
Proof. intros T B. unfold observed. cbv zeta. cbn [e_mjd e_band e_m5 tv]. replace (t - (0 + 0)) with t by ring. rewrite t_at by assumption. reflexivity. Qed.
Lemma t_each l : (forall t b, In (t, b) l -> -30 <= t <= 60 /\ OneOf ["u"; "g"; "r"]%string b) ->
  each (observed (apparent tc ta 0 0 None) (0 + 0)) (map (fun p => tv (fst p) (snd p)) l) = Ok (map (fun p => pt (fst p) 18 (snd p)) l).
Proof.
  induction l as [|[t b] l IH]; intros H; [reflexivity|]. cbn [map each fst snd]. destruct (H t b (or_introl eq_refl)) as [T B]. rewrite t_obs by assumption. cbn [bind].
  rewrite IH by (intros; apply H; right; assumption). reflexivity.
Qed.
Ltac tbands := let t := fresh in let b := fresh in let H := fresh in intros t b H; cbn in H; repeat destruct H as [H|H]; try contradiction; injection H as <- <-; (split; [lra|cbn; auto]).
Definition good_list : list (R * string) := [(-20, "g"); (0, "u"); (1, "g"); (2, "r"); (15, "u"); (16, "g")]%string.
Example C345_case : Curves tc /\ tde_run tc ta 2 0 0 0 0 (map (fun p => tv (fst p) (snd p)) good_list) = Ok (0, 1, 1)%nat.
Proof.
  split; [exact tc_inc|]. unfold tde_run. rewrite t_each by tbands. cbn [bind].
  assert (A : pre_peak 2 (map (fun p => pt (fst p) 18 (snd p)) good_list) = 0%nat).
  { unfold pre_peak, good_list. cbn [map fst snd filter o_t pt bright o_mag o_m5]. unfold bright. cbn [o_mag o_m5 pt].
    assert (Z : rltb 18 25 = true) by (apply rltb_true; lra). rewrite !Z, !andb_true_r.
    assert (N : forall t, 0 <= t -> rltb t 0 = false) by (intros; apply rltb_false; lra). rewrite (N 0), (N 1), (N 2), (N 15), (N 16) by lra.
    assert (P : rltb (-20) 0 = true) by (apply rltb_true; lra). rewrite P. reflexivity. }
  assert (B : some_color (map (fun p => pt (fst p) 18 (snd p)) good_list) = true).
  { apply some_color_spec. split; [|split].
    - exists (pt (-20) 18 "g"). split; [cbn; auto|]. split; unfold Bright; cbn; lra.
    - exists (pt 0 18 "u"), (pt 1 18 "g"), (pt 2 18 "r"). unfold AtPeak, Bright. cbn [o_t o_mag o_m5 o_band pt]. repeat split; try lra; try discriminate; cbn; auto 10.
    - exists (pt 15 18 "u"), (pt 16 18 "g"). unfold After, Bright. cbn [o_t o_mag o_m5 o_band pt]. repeat split; try lra; try discriminate; cbn; auto 10. }
  assert (D : some_color_pu (map (fun p => pt (fst p) 18 (snd p)) good_list) = true).
  { apply some_color_pu_spec. split; [|split].
    - exists (pt (-20) 18 "g"). split; [cbn; auto|]. split; unfold Bright; cbn; lra.
    - exists (pt 0 18 "u"), (pt 1 18 "g"). unfold AtPeak, Bright. cbn [o_t o_mag o_m5 o_band pt]. repeat split; try lra; try discriminate; cbn; auto 10.
    - exists (pt 15 18 "u"), (pt 16 18 "g"). unfold After, Bright. cbn [o_t o_mag o_m5 o_band pt]. repeat split; try lra; try discriminate; cbn; auto 10. }
  rewrite A, B, D. reflexivity.
Qed.
(** as many detections before the peak as asked for are not enough *)
Theorem C345_points_refuted : ~ (forall curves ax1 pts mjd0 peak indx ebv vs a b c obs n, Curves curves -> tde_run curves ax1 pts mjd0 peak indx ebv vs = Ok (a, b, c) ->
  Forall2 (Measured curves ax1 indx ebv None (mjd0 + peak)) vs obs -> CountP (fun p => o_t p < 0 /\ Bright p) obs n -> (pts <= n)%nat -> a = 1%nat).
Proof.
  intros H. pose (l := [(-20, "g"); (-15, "g")]%string).
  assert (E := t_each l). assert (T : forall t b, In (t, b) l -> -30 <= t <= 60 /\ OneOf ["u"; "g"; "r"]%string b) by tbands. specialize (E T).
  assert (F : Forall2 (Measured tc ta 0 0 None (0 + 0)) (map (fun p => tv (fst p) (snd p)) l) (map (fun p => pt (fst p) 18 (snd p)) l)).
  { apply each_spec in E. revert E. apply F2_impl. intros v p. apply observed_spec. exact tc_inc. }
  assert (C : CountP (fun p => o_t p < 0 /\ Bright p) (map (fun p => pt (fst p) 18 (snd p)) l) 2).
  { cbn [map l fst snd]. unfold Bright. repeat constructor; cbn; lra. }
  assert (X : tde_run tc ta 2 0 0 0 0 (map (fun p => tv (fst p) (snd p)) l) = Ok (0%nat, flag (some_color (map (fun p => pt (fst p) 18 (snd p)) l)), flag (some_color_pu (map (fun p => pt (fst p) 18 (snd p)) l)))).
  { unfold tde_run. rewrite E. cbn [bind]. do 3 f_equal. unfold pre_peak, l. cbn [map fst snd filter o_t pt]. unfold bright. cbn [o_mag o_m5 pt].
    assert (Z : rltb 18 25 = true) by (apply rltb_true; lra). assert (Z1 : rltb (-20) 0 = true) by (apply rltb_true; lra). assert (Z2 : rltb (-15) 0 = true) by (apply rltb_true; lra). rewrite !Z, Z1, Z2. reflexivity. }
  pose proof (H _ _ _ _ _ _ _ _ _ _ _ _ _ tc_inc X F C (le_n 2)) as Y. discriminate Y.
Qed.
Print Assumptions C345_points_refuted.
(** three bands within 10 days of the peak are not enough *)
Theorem C345_ten_days_refuted : ~ (forall l, (exists p, In p l /\ Before p) -> ThreeIn (fun p => Rabs (o_t p) <= 10 /\ Bright p) l -> TwoIn After l -> some_color l = true).
Proof.
  intros H. pose (l := [pt (-20) 18 "g"; pt 7 18 "u"; pt 7 18 "g"; pt 7 18 "r"; pt 15 18 "u"; pt 16 18 "g"]).
  assert (S1 : some_color l = true).
  { apply H.
    - exists (pt (-20) 18 "g"). split; [left; reflexivity|]. split; unfold Bright; cbn; lra.
    - exists (pt 7 18 "u"), (pt 7 18 "g"), (pt 7 18 "r"). unfold Bright. cbn [o_t o_mag o_m5 o_band pt]. rewrite (Rabs_right 7) by lra. repeat split; try lra; try discriminate; cbn; auto 10.
    - exists (pt 15 18 "u"), (pt 16 18 "g"). unfold After, Bright. cbn [o_t o_mag o_m5 o_band pt]. repeat split; try lra; try discriminate; cbn; auto 10. }
  apply some_color_spec in S1. destruct S1 as (_ & (p & _ & _ & I & _ & _ & (T & _) & _) & _).
  cbn [In l] in I. repeat destruct I as [I|I]; try contradiction; rewrite <- I in T; cbn in T; lra.
Qed.
Print Assumptions C345_ten_days_refuted.
(** the criterion with u is another one, not a stricter one *)
Theorem C345_stricter_refuted : ~ (forall l, some_color_pu l = true -> some_color l = true).
Proof.
  intros H. pose (l := [pt (-20) 18 "g"; pt 1 18 "u"; pt 1 18 "g"; pt 15 18 "u"; pt 16 18 "g"]).
  assert (S1 : some_color l = true).
  { apply H. apply some_color_pu_spec. split; [|split].
    - exists (pt (-20) 18 "g"). split; [left; reflexivity|]. split; unfold Bright; cbn; lra.
    - exists (pt 1 18 "u"), (pt 1 18 "g"). unfold AtPeak, Bright. cbn [o_t o_mag o_m5 o_band pt]. repeat split; try lra; try discriminate; cbn; auto 10.
    - exists (pt 15 18 "u"), (pt 16 18 "g"). unfold After, Bright. cbn [o_t o_mag o_m5 o_band pt]. repeat split; try lra; try discriminate; cbn; auto 10. }
  apply some_color_spec in S1. destruct S1 as (_ & (p & q & s & Ip & Iq & Is & _ & _ & _ & N1 & N2 & N3) & _).
  cbn [In l] in Ip, Iq, Is.
  assert (B : forall x, In x l -> o_band x = "g"%string \/ o_band x = "u"%string).
  { intros x X. cbn [In l] in X. repeat destruct X as [X|X]; try contradiction; rewrite <- X; cbn; auto. }
  destruct (B p Ip), (B q Iq), (B s Is); congruence.
Qed.
Print Assumptions C345_stricter_refuted.

(** * The quality *)
(** C346: the score is the number of detections per day between tmin and tmax, or 0 *)
Theorem C346_score : forall curves ax1 tmin tmax mjd0 peak indx ebv vs a b, Curves curves -> tmin < tmax -> tde_quality_run curves ax1 tmin tmax mjd0 peak indx ebv vs = Ok (a, b) ->
  exists obs n, Forall2 (Measured curves ax1 indx ebv None (mjd0 + peak)) vs obs /\ CountP (fun p => tmin < o_t p < tmax /\ Bright p) obs n
  /\ ((SomeColor obs /\ a * (tmax - tmin) = INR n) \/ (~ SomeColor obs /\ a = 0)) /\ ((SomeColorU obs /\ b * (tmax - tmin) = INR n) \/ (~ SomeColorU obs /\ b = 0)).
Proof.
  intros curves ax1 tmin tmax mjd0 peak indx ebv vs a b C T. unfold tde_quality_run. destruct (each _ vs) as [obs|] eqn:E; cbn [bind]; [|discriminate].
  assert (Q : forall crit (P : Prop), (crit obs = true <-> P) -> exists x, quality crit tmin tmax obs = Ok x /\
    ((P /\ x * (tmax - tmin) = INR (length (filter (fun p => rltb tmin (o_t p) && rltb (o_t p) tmax && bright p) obs))) \/ (~ P /\ x = 0))).
  { intros crit P H. unfold quality, score. destruct (crit obs) eqn:D.
    - destruct (Req_EM_T (tmax - tmin) 0) as [Z|Z]; [lra|]. eexists. split; [reflexivity|]. left. split; [apply H; reflexivity|]. field. exact Z.
    - exists 0. split; [reflexivity|]. right. split; [|reflexivity]. intros X. apply H in X. discriminate. }
  destruct (Q some_color (SomeColor obs) (some_color_spec obs)) as (x & X1 & X2). destruct (Q some_color_pu (SomeColorU obs) (some_color_pu_spec obs)) as (y & Y1 & Y2).
  rewrite X1, Y1. cbn [bind]. intros [= <- <-]. exists obs. eexists. split; [|split; [|split; [exact X2|exact Y2]]].
  - apply each_spec in E. revert E. apply F2_impl. intros v p. apply observed_spec. exact C.
  - clear. induction obs as [|p l IH]; cbn [filter]; [constructor|]. destruct (rltb tmin (o_t p) && rltb (o_t p) tmax && bright p) eqn:F.
    + rewrite !andb_true_iff, !rltb_true, bright_spec in F. constructor; [tauto|exact IH].
    + constructor; [|exact IH]. intros (X & Y). assert (G : rltb tmin (o_t p) && rltb (o_t p) tmax && bright p = true) by (rewrite !andb_true_iff, !rltb_true, bright_spec; tauto). congruence.
Qed.
Print Assumptions C346_score.
(** one detection every other night gives a half and not one *)
Theorem C346_one_partial : forall tmin tmax l n x, tmin < tmax -> some_color l = true -> CountP (fun p => tmin < o_t p < tmax /\ Bright p) l n -> 2 * INR n = tmax - tmin ->
  quality some_color tmin tmax l = Ok x -> x = 1 / 2.
Proof.
  intros tmin tmax l n x T S1 C N. unfold quality. rewrite S1. unfold score. destruct (Req_EM_T (tmax - tmin) 0) as [Z|Z]; [discriminate|]. intros [= <-].
  assert (L : length (filter (fun p => rltb tmin (o_t p) && rltb (o_t p) tmax && bright p) l) = n).
  { clear - C. induction C as [|p l n H C IH|p l n H C IH]; cbn [filter]; [reflexivity| |].
    - assert (G : rltb tmin (o_t p) && rltb (o_t p) tmax && bright p = true) by (rewrite !andb_true_iff, !rltb_true, bright_spec; tauto). rewrite G. cbn. congruence.
    - destruct (rltb tmin (o_t p) && rltb (o_t p) tmax && bright p) eqn:G; [|exact IH]. rewrite !andb_true_iff, !rltb_true, bright_spec in G. tauto. }
  rewrite L. apply Rmult_eq_reg_r with (tmax - tmin); [|exact Z]. unfold Rdiv at 1. rewrite Rmult_assoc, Rinv_l by exact Z. lra.
Qed.
Print Assumptions C346_one_partial.
Definition q_list : list point := [pt (-12) 18 "g"; pt 0 18 "u"; pt 1 18 "g"; pt 2 18 "r"; pt 15 18 "u"; pt 16 18 "g"].
Lemma q_some : some_color q_list = true.
Proof.
  apply some_color_spec. split; [|split].
  - exists (pt (-12) 18 "g"). split; [left; reflexivity|]. split; unfold Bright; cbn; lra.
  - exists (pt 0 18 "u"), (pt 1 18 "g"), (pt 2 18 "r"). unfold AtPeak, Bright. cbn [o_t o_mag o_m5 o_band pt]. repeat split; try lra; try discriminate; cbn; auto 10.
  - exists (pt 15 18 "u"), (pt 16 18 "g"). unfold After, Bright. cbn [o_t o_mag o_m5 o_band pt]. repeat split; try lra; try discriminate; cbn; auto 10.
Qed.
Lemma q_count : CountP (fun p => -5 < o_t p < 5 /\ Bright p) q_list 3.
Proof.
  unfold q_list. apply CP_out; [cbn; lra|]. apply CP_in; [unfold Bright; cbn; lra|]. apply CP_in; [unfold Bright; cbn; lra|]. apply CP_in; [unfold Bright; cbn; lra|].
  apply CP_out; [cbn; lra|]. apply CP_out; [cbn; lra|]. constructor.
Qed.
(** the documented scale: 1 for a detection every other night *)
Theorem C346_scale_refuted : ~ (forall tmin tmax l n x, tmin < tmax -> some_color l = true -> CountP (fun p => tmin < o_t p < tmax /\ Bright p) l n -> 2 * INR n = tmax - tmin ->
  quality some_color tmin tmax l = Ok x -> x = 1).
Proof.
  intros H.
  assert (C : CountP (fun p => -3 < o_t p < 3 /\ Bright p) q_list 3).
  { unfold q_list. apply CP_out; [cbn; lra|]. apply CP_in; [unfold Bright; cbn; lra|]. apply CP_in; [unfold Bright; cbn; lra|]. apply CP_in; [unfold Bright; cbn; lra|].
    apply CP_out; [cbn; lra|]. apply CP_out; [cbn; lra|]. constructor. }
  assert (N : 2 * INR 3 = 3 - -3) by (cbn; lra). assert (T : -3 < 3) by lra.
  assert (X : exists x, quality some_color (-3) 3 q_list = Ok x).
  { unfold quality. rewrite q_some. unfold score. destruct (Req_EM_T (3 - -3) 0) as [Z|Z]; [lra|]. eauto. }
  destruct X as [x X]. pose proof (H _ _ _ _ _ T q_some C N X). pose proof (C346_one_partial _ _ _ _ _ T q_some C N X). lra.
Qed.
Print Assumptions C346_scale_refuted.
(** an empty range of times is an error for an event that passes, and only for one *)
Theorem C346_empty_range : forall curves ax1 tmin mjd0 peak indx ebv vs obs, each (observed (apparent curves ax1 indx ebv None) (mjd0 + peak)) vs = Ok obs ->
  (SomeColor obs \/ SomeColorU obs -> tde_quality_run curves ax1 tmin tmin mjd0 peak indx ebv vs = Err ZeroDivisionError)
  /\ (~ SomeColor obs -> ~ SomeColorU obs -> tde_quality_run curves ax1 tmin tmin mjd0 peak indx ebv vs = Ok (0, 0)).
Proof.
  intros curves ax1 tmin mjd0 peak indx ebv vs obs E. unfold tde_quality_run. rewrite E. cbn [bind]. unfold quality, score.
  destruct (Req_EM_T (tmin - tmin) 0) as [Z|Z]; [|lra].
  rewrite <- some_color_spec, <- some_color_pu_spec. destruct (some_color obs), (some_color_pu obs); cbn [bind]; split; intros H; try reflexivity; try (intros G; exfalso; auto; fail).
  - destruct H; discriminate.
Qed.
Print Assumptions C346_empty_range.
