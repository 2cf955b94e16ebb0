(** Proofs: run as a whole. *)
From Coq Require Import Reals Lra Lia Sorted.
From Verif Require Import Base Orbits_Model OrbitsIO_Model DirectObs_Model DirectObs_Spec DirectObs_Proofs DirectObs_Proofs2 DirectObs_Proofs3.
Open Scope R_scope.

Section Whole.
  Context (sep : R -> R -> R -> R -> R) (camera : R -> R -> R -> R -> R -> bool) (ephem : nat -> string -> R -> eph)
          (int_of : string -> option Z) (color : string -> string -> result R).
  Notation exact_place := (DirectObs_Spec.exact_place ephem).
  Lemma rows_weaken : forall (P Q : nat -> nat -> Prop) right rows, (forall i k, P i k <-> Q i k) -> rows_for P right rows -> rows_for Q right rows.
  Proof.
    intros P Q right rows H [ps [S [F I]]]. exists ps. split; [assumption|]. split; [assumption|]. intros i k. rewrite I. apply H.
  Qed.
  Lemma rough_full_or_basic : forall s obs i ks, rough_direct sep ephem s obs i = Ok ks ->
    String.eqb (lower (s_type s)) "basic" || String.eqb (lower (s_type s)) "full" = true.
  Proof.
    intros s obs i ks H. unfold rough_direct in H. destruct (rough_times s obs) as [times|]; cbn [bind] in H; [|discriminate].
    unfold ephemerides in H. destruct times; [discriminate|]. destruct (dynamics (s_prelim s)); cbn [bind] in H; [|discriminate].
    destruct (String.eqb (lower (s_type s)) "basic" || String.eqb (lower (s_type s)) "full"); [reflexivity | discriminate].
  Qed.
  Lemma keep_iff : forall rb s m obs i k, (k < length obs)%nat ->
    (keep sep camera ephem rb s m obs i k = true <-> rb i k = true /\ exists v, nth_error obs k = Some v /\ fov sep camera s (exact_place m i v) v = true).
  Proof.
    intros rb s m obs i k K. unfold keep, DirectObs_Spec.exact_place. rewrite andb_true_iff. split.
    - intros [A B]. split; [assumption|]. exists (nth k obs dv). split; [apply nth_error_nth'; assumption | assumption].
    - intros [A [v [E B]]]. split; [assumption|]. rewrite (nth_error_nth _ _ dv E). assumption.
  Qed.

  (** the general form: rows are those kept by some rough selection *)
  Definition some_rough (rough : nat -> result (list nat)) (obs : list visit) : Prop :=
    forall i ks, rough i = Ok ks -> exists b, ks = filter b (seq 0 (length obs)).
  Lemma where_filter : forall {A} (t : A -> bool) l, exists b, where_ t l = filter b (seq 0 (length l)).
  Proof.
    intros A t l. destruct l as [|d l]; [exists (fun _ => true); reflexivity|].
    exists (fun k => t (nth k (d :: l) d)). rewrite <- (nth_seq_id d (d :: l)) at 1. apply where_seq.
  Qed.
  Lemma forall2_len : forall {A B} (P : A -> B -> Prop) l r, Forall2 P l r -> length r = length l.
  Proof. intros A B P l r H. induction H; [reflexivity|]. cbn. congruence. Qed.
  Lemma direct_some : forall s obs, some_rough (rough_direct sep ephem s obs) obs.
  Proof.
    intros s obs i ks H. unfold rough_direct in H. destruct (rough_times s obs) as [times|]; cbn [bind] in H; [|discriminate].
    destruct (ephemerides ephem i (s_prelim s) (s_type s) times) as [ephs|]; cbn [bind] in H; [|discriminate].
    destruct (all_ok _) as [at_|] eqn:E; cbn [bind] in H; [|discriminate]. injection H as <-.
    apply all_ok_forall2, forall2_len in E.
    destruct (where_filter (fun q => in_circle sep s (place_of (fst q)) (snd q) (s_rough_tol s)) (combine at_ obs)) as [b B].
    exists b. rewrite B. f_equal. rewrite combine_length, E, Nat.min_id. reflexivity.
  Qed.
  Lemma pre_some : forall s obs mjds positions, some_rough (rough_precomputed sep s obs mjds positions) obs.
  Proof.
    intros s obs mjds positions i ks H. unfold rough_precomputed in H. destruct (arr_get positions i) as [l|]; cbn [bind] in H; [|discriminate].
    destruct (all_ok (map (fun v => nearest mjds (v_time v)) obs)) as [idx|] eqn:E1; cbn [bind] in H; [|discriminate].
    destruct (all_ok (map (arr_get l) idx)) as [at_|] eqn:E2; cbn [bind] in H; [|discriminate].
    destruct (all_ok (map (arr_get (object_tol sep s l)) idx)) as [tol|] eqn:E3; cbn [bind] in H; [|discriminate].
    injection H as <-. apply all_ok_forall2, forall2_len in E1, E2, E3.
    destruct (where_filter (fun q => in_circle sep s (fst (fst q)) (snd q) (s_r_fov s + snd (fst q))) (combine (combine at_ tol) obs)) as [b B].
    exists b. rewrite B. f_equal. rewrite !combine_length.
    replace (length at_) with (length obs) by (rewrite <- E1; symmetry; exact E2). rewrite E3, E1, !Nat.min_id. reflexivity.
  Qed.
  Lemma rough_fun : forall rough obs, some_rough rough obs -> exists rb, forall i ks, rough i = Ok ks -> ks = filter (rb i) (seq 0 (length obs)).
  Proof.
    intros rough obs H.
    exists (fun i k => match rough i with Ok ks => existsb (Nat.eqb k) ks | Err _ => false end).
    intros i ks E. rewrite E. destruct (H i ks E) as [b B]. rewrite B at 1.
    apply filter_ext_in. intros k I. destruct (b k) eqn:BK.
    - symmetry. apply existsb_exists. exists k. split; [|apply Nat.eqb_refl]. rewrite B. apply filter_In. split; assumption.
    - symmetry. destruct (existsb (Nat.eqb k) ks) eqn:X; [|reflexivity]. apply existsb_exists in X. destruct X as [k' [X Y]].
      apply Nat.eqb_eq in Y. subst k'. rewrite B in X. apply filter_In in X. destruct X as [_ X]. congruence.
  Qed.
  Lemma run_sound : forall s m obs objs pre rows s', letter (lower (s_mode s)) m ->
    (s_footprint s = "rectangle"%string -> s_degrees s = true) ->
    run sep camera ephem int_of color s obs objs pre = Ok (rows, s') ->
    exists P, rows_for P (right_row ephem color m obs objs) rows /\
      forall i k, P i k -> exists v, nth_error obs k = Some v /\ seen sep camera s (exact_place m i v) v.
  Proof.
    intros s m obs objs pre rows s' L D H. unfold run in H. destruct obs as [|v0 obs0] eqn:EO; [discriminate|]. rewrite <- EO in *. clear EO.
    set (rough := match pre with Some _ => _ | None => _ end) in H.
    assert (SR : some_rough rough obs).
    { unfold rough. destruct pre as [[mjds positions]|]; [destruct (covered obs mjds)|]; [apply pre_some | apply direct_some | apply direct_some]. }
    destruct (rough_fun rough obs SR) as [rb RB].
    apply (run_rows sep camera ephem int_of color s m obs objs rough rb) in H; [|apply letter_dynamics; assumption | exact RB].
    destruct H as [_ H]. eexists. split; [exact H|]. intros i k [_ [K T]]. apply keep_iff in T; [|assumption]. destruct T as [_ [v [E F]]].
    exists v. split; [assumption|]. apply fov_sound; assumption.
  Qed.

  (** nothing is missed on the grid *)
  Lemma run_direct : forall s m mp obs objs pre rows s' rad, metric sep ->
    letter (lower (s_mode s)) m -> letter (lower (s_prelim s)) mp -> 0 < s_tstep s -> (forall i t, e_time (ephem i mp t) = t) ->
    (forall i v, (i < length objs)%nat -> In v obs -> plain_rectangle s (exact_place m i v) v) ->
    (forall i v, (i < length objs)%nat -> In v obs -> seen sep camera s (exact_place m i v) v -> distance sep s (exact_place m i v) v <= rad) ->
    (forall i v g, (i < length objs)%nat -> In v obs -> v_time v <= g < v_time v + s_tstep s ->
       sep (e_ra (ephem i mp g)) (e_dec (ephem i mp g)) (fst (exact_place m i v)) (snd (exact_place m i v)) + rad <= s_rough_tol s) ->
    (pre = None \/ exists mjds positions, pre = Some (mjds, positions) /\ covered obs mjds = false) ->
    run sep camera ephem int_of color s obs objs pre = Ok (rows, s') ->
    rows_for (fun i k => (i < length objs)%nat /\ exists v, nth_error obs k = Some v /\ seen sep camera s (exact_place m i v) v)
      (right_row ephem color m obs objs) rows.
  Proof.
    intros s m mp obs objs pre rows s' rad [_ TRI] L LP H ET PR RAD MOVE PRE RUN.
    unfold run in RUN. destruct obs as [|v0 obs0] eqn:EO; [discriminate|]. rewrite <- EO in *.
    assert (NE : obs <> []) by (rewrite EO; discriminate). clear EO.
    assert (ER : match pre with Some (mjds, positions) => if covered obs mjds then rough_precomputed sep s obs mjds positions else rough_direct sep ephem s obs
                 | None => rough_direct sep ephem s obs end = rough_direct sep ephem s obs).
    { destruct PRE as [-> | [mjds [positions [-> C]]]]; [reflexivity | rewrite C; reflexivity]. }
    rewrite ER in RUN. clear ER PRE.
    destruct objs as [|o objs'] eqn:EOB.
    { cbn in RUN. injection RUN as <- <-. exists []. split; [constructor|]. split; [constructor|]. intros i k. cbn. split; [contradiction | lia]. }
    assert (TY : String.eqb (lower (s_type s)) "basic" || String.eqb (lower (s_type s)) "full" = true).
    { cbn [loop] in RUN. destruct (rough_direct sep ephem s obs 0) as [ks|] eqn:E; cbn [bind] in RUN; [|discriminate].
      exact (rough_full_or_basic s obs 0 ks E). }
    rewrite <- EOB in *. clear EOB.
    destruct (rough_direct_eq sep ephem s obs mp H NE (letter_dynamics _ _ LP) TY ET) as [g [G RD]].
    apply (run_rows sep camera ephem int_of color s m obs objs _
             (fun i k => in_circle sep s (place_of (ephem i mp (g (v_time (nth k obs dv))))) (nth k obs dv) (s_rough_tol s))) in RUN.
    2: apply letter_dynamics; assumption.
    2: { intros i ks E. rewrite RD in E. injection E as <-. reflexivity. }
    destruct RUN as [_ RUN]. revert RUN. apply rows_weaken. intros i k. split.
    - intros [I [K T]]. split; [assumption|]. apply keep_iff in T; [|assumption]. destruct T as [_ [v [E F]]]. exists v. split; [assumption|].
      apply fov_sound; [|assumption]. intro R. apply (PR i v I (nth_error_In _ _ E)). assumption.
    - intros [I [v [E F]]]. pose proof (nth_error_In _ _ E) as IV.
      assert (K : (k < length obs)%nat) by (apply nth_error_Some; congruence).
      split; [assumption|]. split; [assumption|]. apply keep_iff; [assumption|]. split.
      + rewrite (nth_error_nth _ _ dv E). apply circle_iff. unfold distance.
        eapply Rle_trans; [apply (TRI _ _ (fst (exact_place m i v)) (snd (exact_place m i v)))|].
        pose proof (MOVE i v (g (v_time v)) I IV (G v IV)) as MV. pose proof (RAD i v I IV F) as RD'. unfold distance in RD'.
        cbn [place_of fst snd]. lra.
      + exists v. split; [assumption|]. apply fov_complete; [apply PR; assumption | assumption].
  Qed.

  (** nothing is missed with pre-computed positions *)
  Lemma run_pre : forall s m obs objs mjds positions rows s' rad, metric sep ->
    letter (lower (s_mode s)) m -> StronglySorted Rlt mjds -> mjds <> [] -> covered obs mjds = true ->
    (forall i, (i < length objs)%nat -> exists l, nth_error positions i = Some l /\ length l = length mjds) ->
    (forall i v, (i < length objs)%nat -> In v obs -> plain_rectangle s (exact_place m i v) v) ->
    (forall i v, (i < length objs)%nat -> In v obs -> seen sep camera s (exact_place m i v) v -> distance sep s (exact_place m i v) v <= rad) ->
    (forall i v l j p, (i < length objs)%nat -> In v obs -> nth_error positions i = Some l -> nth_error l j = Some p -> is_nearest mjds (v_time v) j ->
       sep (fst p) (snd p) (fst (exact_place m i v)) (snd (exact_place m i v)) + rad <= s_r_fov s + swing sep l j + s_pre_tol s) ->
    run sep camera ephem int_of color s obs objs (Some (mjds, positions)) = Ok (rows, s') ->
    rows_for (fun i k => (i < length objs)%nat /\ exists v, nth_error obs k = Some v /\ seen sep camera s (exact_place m i v) v)
      (right_row ephem color m obs objs) rows.
  Proof.
    intros s m obs objs mjds positions rows s' rad [_ TRI] L SO NM C PL PR RAD MOVE RUN.
    unfold run in RUN. destruct obs as [|v0 obs0] eqn:EO; [discriminate|]. rewrite <- EO in *.
    assert (NE : obs <> []) by (rewrite EO; discriminate). clear EO. rewrite C in RUN.
    set (J := fun t => match nearest mjds t with Ok j => j | Err _ => 0%nat end).
    set (rb := fun i k => let l := nth i positions [] in let v := nth k obs dv in
                 in_circle sep s (nth (J (v_time v)) l (0, 0)) v (s_r_fov s + (swing sep l (J (v_time v)) + s_pre_tol s))).
    set (rough := rough_precomputed sep s obs mjds positions) in *.
    assert (RB : forall i ks, (i < length objs)%nat -> rough i = Ok ks -> ks = filter (rb i) (seq 0 (length obs))).
    { intros i ks I E. destruct (PL i I) as [l [EP EL]].
      destruct (rough_pre_eq sep s obs mjds positions i l SO C NE NM EP EL) as [j [JN R]].
      unfold rough in E. rewrite R in E. injection E as <-. apply filter_ext_in. intros k IK. unfold rb. cbv zeta.
      rewrite (nth_error_nth _ _ [] EP). apply in_seq in IK.
      assert (IV : In (nth k obs dv) obs) by (apply nth_In; lia). destruct (JN _ IV) as [_ [_ N]]. unfold J. rewrite N. reflexivity. }
    set (rough' := fun i => if (i <? length objs)%nat then rough i else Err IndexError).
    assert (EQ : loop sep camera ephem int_of rough s obs 0 objs = loop sep camera ephem int_of rough' s obs 0 objs).
    { assert (GEN : forall l a s, (a + length l <= length objs)%nat -> loop sep camera ephem int_of rough s obs a l = loop sep camera ephem int_of rough' s obs a l).
      { induction l as [|o l IH]; intros a s1 LE; [reflexivity|]. cbn [loop length] in *. unfold rough' at 1.
        destruct (Nat.ltb_spec a (length objs)); [|lia]. destruct (rough a) as [ka|]; [|reflexivity]. cbn [bind].
        destruct (precise sep camera ephem int_of s1 obs a o ka) as [q|]; [|reflexivity]. cbn [bind]. rewrite IH by lia. reflexivity. }
      apply GEN. lia. }
    rewrite EQ in RUN.
    apply (run_rows sep camera ephem int_of color s m obs objs rough' rb) in RUN.
    2: apply letter_dynamics; assumption.
    2: { intros i ks E. unfold rough' in E. destruct (Nat.ltb_spec i (length objs)); [|discriminate]. apply RB; assumption. }
    destruct RUN as [_ RUN]. revert RUN. apply rows_weaken. intros i k. split.
    - intros [I [K T]]. split; [assumption|]. apply keep_iff in T; [|assumption]. destruct T as [_ [v [E F]]]. exists v. split; [assumption|].
      apply fov_sound; [|assumption]. intro R. apply (PR i v I (nth_error_In _ _ E)). assumption.
    - intros [I [v [E F]]]. pose proof (nth_error_In _ _ E) as IV.
      assert (K : (k < length obs)%nat) by (apply nth_error_Some; congruence).
      split; [assumption|]. split; [assumption|]. apply keep_iff; [assumption|]. split.
      + unfold rb. cbv zeta. rewrite (nth_error_nth _ _ dv E). destruct (PL i I) as [l [EP EL]]. rewrite (nth_error_nth _ _ [] EP).
        destruct (rough_pre_eq sep s obs mjds positions i l SO C NE NM EP EL) as [j [JN _]]. destruct (JN v IV) as [N1 [N2 N3]].
        unfold J. rewrite N3. apply circle_iff. unfold distance.
        assert (EPJ : nth_error l (j (v_time v)) = Some (nth (j (v_time v)) l (0, 0))) by (apply nth_error_nth'; rewrite EL; exact N2).
        pose proof (MOVE i v l _ _ I IV EP EPJ N1) as MV.
        eapply Rle_trans; [apply (TRI _ _ (fst (exact_place m i v)) (snd (exact_place m i v)))|].
        pose proof (RAD i v I IV F) as RD'. unfold distance in RD'. lra.
      + exists v. split; [assumption|]. apply fov_complete; [apply PR; assumption | assumption].
  Qed.

  Lemma covered_iff : forall obs mjds, obs <> [] -> mjds <> [] -> (covered obs mjds = true <-> spans obs mjds).
  Proof.
    intros obs mjds NO NM. unfold covered, spans, ltb. split.
    - intros C v I. apply negb_true_iff, orb_false_iff in C. destruct C as [C1 C2].
      destruct (Rlt_dec (minimum (map v_time obs)) (minimum mjds)); [discriminate|]. destruct (Rlt_dec (maximum mjds) (maximum (map v_time obs))); [discriminate|].
      pose proof (minimum_le (map v_time obs) (v_time v) (in_map _ _ _ I)). pose proof (maximum_ge (map v_time obs) (v_time v) (in_map _ _ _ I)).
      split; [exists (minimum mjds); split; [apply minimum_in; assumption | lra] | exists (maximum mjds); split; [apply maximum_in; assumption | lra]].
    - intro H. assert (NT : map v_time obs <> []) by (destruct obs; [contradiction | discriminate]).
      pose proof (minimum_in _ NT) as M1. apply in_map_iff in M1. destruct M1 as [v1 [E1 I1]].
      pose proof (maximum_in _ NT) as M2. apply in_map_iff in M2. destruct M2 as [v2 [E2 I2]].
      destruct (H v1 I1) as [[a [A1 A2]] _]. destruct (H v2 I2) as [_ [b [B1 B2]]].
      pose proof (minimum_le _ _ A1). pose proof (maximum_ge _ _ B1).
      destruct (Rlt_dec (minimum (map v_time obs)) (minimum mjds)); [lra|]. destruct (Rlt_dec (maximum mjds) (maximum (map v_time obs))); [lra|]. reflexivity.
  Qed.

  (** * run succeeds *)
  Lemma precise_ok_ex : forall s obs i obj b m z, letter (lower (s_mode s)) m -> basic_type s -> to_int int_of (fst obj) = Ok z ->
    exists l, precise sep camera ephem int_of s obs i obj (filter b (seq 0 (length obs))) = Ok (l, s) \/
              precise sep camera ephem int_of s obs i obj (filter b (seq 0 (length obs))) = Ok (l, settled s).
  Proof.
    intros s obs i obj b m z L TY EZ. set (rough := filter b (seq 0 (length obs))).
    assert (RK : forall k, In k rough -> (k < length obs)%nat).
    { intros k I. apply filter_In in I. destruct I as [I _]. apply in_seq in I. lia. }
    unfold precise. destruct rough as [|k0 rest] eqn:ER; [exists []; left; reflexivity|]. rewrite <- ER in *.
    rewrite (all_ok_of (arr_get obs) (fun k => nth k obs dv)).
    2: { intros k I. unfold arr_get. rewrite (nth_error_nth' obs dv) by (apply RK; assumption). reflexivity. }
    cbn [bind]. unfold ephemerides. destruct (map v_time (map (fun k => nth k obs dv) rough)) as [|t0 ts] eqn:ET; [rewrite ER in ET; discriminate|].
    rewrite <- ET. clear ET t0 ts. rewrite (letter_dynamics _ _ L). cbn [bind]. rewrite TY. cbn [String.eqb Ascii.eqb Bool.eqb Datatypes.orb bind].
    rewrite in_fov_eq. rewrite !map_map, combine_map2. rewrite EZ. cbn [bind].
    rewrite pick. cbn [bind].
    pose proof (pick (fun k : nat => k) (fun k => (place_of (ephem i m (v_time (nth k obs dv))), nth k obs dv)) (fun q => fov sep camera s (fst q) (snd q)) rough) as P.
    rewrite map_id in P. rewrite P. cbn [bind]. eexists. right. reflexivity.
  Qed.
  Lemma loop_ok_ex : forall rough s0 m obs, letter (lower (s_mode s0)) m -> basic_type s0 ->
    forall objs i s, alike s0 s -> (forall o, In o objs -> exists z, to_int int_of (fst o) = Ok z) ->
    (forall j, (i <= j < i + length objs)%nat -> exists b, rough j = Ok (filter b (seq 0 (length obs)))) ->
    exists q, loop sep camera ephem int_of rough s obs i objs = Ok q.
  Proof.
    intros rough s0 m obs L TY objs. induction objs as [|o objs IH]; intros i s A Z R; cbn [loop]; [eexists; reflexivity|].
    destruct (R i ltac:(cbn [length]; lia)) as [b B]. rewrite B. cbn [bind].
    destruct (Z o (or_introl eq_refl)) as [z EZ].
    assert (L' : letter (lower (s_mode s)) m) by (destruct A as [-> | ->]; [|rewrite settled_mode]; assumption).
    assert (TY' : basic_type s) by (unfold basic_type in *; destruct A as [-> | ->]; [|rewrite settled_type]; assumption).
    assert (X : exists l s1, precise sep camera ephem int_of s obs i o (filter b (seq 0 (length obs))) = Ok (l, s1) /\ alike s0 s1).
    { destruct (precise_ok_ex s obs i o b m z L' TY' EZ) as [l [E | E]]; rewrite E; eexists; eexists; (split; [reflexivity|]); [assumption | apply alike_settled; assumption]. }
    destruct X as [l [s1 [E A1]]]. rewrite E. cbn [bind fst snd].
    destruct (IH (S i) s1 A1) as [q Q].
    { intros o' I. apply Z. right. assumption. }
    { intros j J. apply R. cbn [length]. lia. }
    rewrite Q. cbn [bind]. eexists. reflexivity.
  Qed.
  Lemma run_succeeds_gen : forall rough s m obs objs, letter (lower (s_mode s)) m -> basic_type s ->
    (forall o, In o objs -> exists z, to_int int_of (fst o) = Ok z) ->
    (forall o v, In o objs -> In v obs -> exists c, (String.length (snd o) <= 40)%nat /\ color (snd o) (v_band v) = Ok c) ->
    some_rough rough obs ->
    (forall j, (0 <= j < 0 + length objs)%nat -> exists b, rough j = Ok (filter b (seq 0 (length obs)))) ->
    exists r, (do p <- loop sep camera ephem int_of rough s obs 0 objs; do rows <- all_ok (map (add_info color obs) (fst p)); Ok (rows, snd p)) = Ok r.
  Proof.
    intros rough s m obs objs L TY Z C SR R.
    destruct (loop_ok_ex rough s m obs L TY objs 0 s (or_introl eq_refl) Z R) as [[q sq] Q].
    destruct (rough_fun rough obs SR) as [rb RB]. pose proof Q as Q'.
    apply (loop_ok sep camera ephem int_of rough rb s m obs objs (letter_dynamics _ _ L) RB objs 0 s) in Q'; [|left; reflexivity | reflexivity].
    destruct Q' as [_ F]. rewrite Q. cbn [bind fst snd].
    assert (PV : forall p, In p (pairs sep camera ephem rb s m obs 0 (length objs)) -> (snd p < length obs)%nat).
    { intros [i k] I. apply pairs_in in I. cbn. lia. }
    assert (A : forall x, In x q -> exists r, add_info color obs x = Ok r).
    { intros x I. apply In_nth_error in I. destruct I as [n N]. clear Q SR R.
      revert n N PV. induction F as [|p y ps ys FD F IH]; intros n N PV; [destruct n; discriminate|].
      destruct n as [|n]; [|apply (IH n N); intros p' I'; apply PV; right; assumption]. injection N as ->.
      destruct FD as [o [id [EO [EI ->]]]]. unfold add_info. unfold arr_get.
      specialize (PV p (or_introl eq_refl)). rewrite (nth_error_nth' obs dv) by assumption. cbn [bind].
      destruct (C o (nth (snd p) obs dv)) as [c [LE EC]]; [eapply nth_error_In; exact EO | apply nth_In; assumption|].
      rewrite to_u40_short by assumption. rewrite EC. cbn [bind]. eexists. reflexivity. }
    assert (B : exists rows, all_ok (map (add_info color obs) q) = Ok rows).
    { clear -A. induction q as [|x q IH]; [eexists; reflexivity|]. cbn [map all_ok]. destruct (A x (or_introl eq_refl)) as [r E]. rewrite E. cbn [bind].
      destruct IH as [rows E']; [intros y I; apply A; right; assumption|]. rewrite E'. cbn [bind]. eexists. reflexivity. }
    destruct B as [rows ->]. cbn [bind]. eexists. reflexivity.
  Qed.
  Lemma run_succeeds : forall s m mp obs objs, letter (lower (s_mode s)) m -> letter (lower (s_prelim s)) mp -> lower (s_type s) = "basic"%string ->
    0 < s_tstep s -> (forall i t, e_time (ephem i mp t) = t) -> obs <> [] ->
    (forall o, In o objs -> exists z, to_int int_of (fst o) = Ok z) ->
    (forall o v, In o objs -> In v obs -> exists c, (String.length (snd o) <= 40)%nat /\ color (snd o) (v_band v) = Ok c) ->
    exists r, run sep camera ephem int_of color s obs objs None = Ok r.
  Proof.
    intros s m mp obs objs L LP TY H ET NE Z C. unfold run. destruct obs as [|v0 obs0] eqn:EO; [contradiction|]. rewrite <- EO in *.
    apply (run_succeeds_gen _ s m obs objs L TY Z C (direct_some s obs)).
    assert (T2 : String.eqb (lower (s_type s)) "basic" || String.eqb (lower (s_type s)) "full" = true) by (rewrite TY; reflexivity).
    destruct (rough_direct_eq sep ephem s obs mp H NE (letter_dynamics _ _ LP) T2 ET) as [g [_ RD]].
    intros j _. eexists. apply RD.
  Qed.
  Lemma run_pre_succeeds : forall s m obs objs mjds positions, letter (lower (s_mode s)) m -> lower (s_type s) = "basic"%string ->
    obs <> [] -> StronglySorted Rlt mjds -> mjds <> [] -> covered obs mjds = true ->
    (forall i, (i < length objs)%nat -> exists l, nth_error positions i = Some l /\ length l = length mjds) ->
    (forall o, In o objs -> exists z, to_int int_of (fst o) = Ok z) ->
    (forall o v, In o objs -> In v obs -> exists c, (String.length (snd o) <= 40)%nat /\ color (snd o) (v_band v) = Ok c) ->
    exists r, run sep camera ephem int_of color s obs objs (Some (mjds, positions)) = Ok r.
  Proof.
    intros s m obs objs mjds positions L TY NE SO NM CV PL Z C. unfold run. destruct obs as [|v0 obs0] eqn:EO; [contradiction|]. rewrite <- EO in *. rewrite CV.
    apply (run_succeeds_gen _ s m obs objs L TY Z C (pre_some s obs mjds positions)).
    intros j [_ J]. destruct (PL j J) as [l [EP EL]].
    destruct (rough_pre_eq sep s obs mjds positions j l SO CV NE NM EP EL) as [jj [_ R]]. eexists. exact R.
  Qed.
End Whole.
