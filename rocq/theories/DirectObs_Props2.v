(** C229-C231: what DirectObs.run finds. *)
From Coq Require Import Reals Lra Lia Sorted.
From Verif Require Import Base Orbits_Model OrbitsIO_Model DirectObs_Model DirectObs_Spec DirectObs_Proofs DirectObs_Proofs2 DirectObs_Proofs3 DirectObs_Proofs4 DirectObs_Props.
Open Scope R_scope.

(** * C229: the rows are right *)
(** every row belongs to an object and a visit, no pair twice, in order of objects and visits; it carries the data of that visit, the
    ephemeris of that object at that time, the losses and the colour that go with them; and the object was in the footprint *)
Theorem C229_rows : forall sep camera ephem int_of color s m obs objs pre rows s', letter (lower (s_mode s)) m ->
  (s_footprint s = "rectangle"%string -> s_degrees s = true) ->
  run sep camera ephem int_of color s obs objs pre = Ok (rows, s') ->
  exists P, rows_for P (right_row ephem color m obs objs) rows /\
    forall i k, P i k -> exists v, nth_error obs k = Some v /\ seen sep camera s (exact_place ephem m i v) v.
Proof. intros sep camera ephem int_of color. apply run_sound. Qed.
Print Assumptions C229_rows.
(** run does not fail: basic ephemerides, a positive time step, identifiers that are integers, spectra and bands whose colours are known *)
Theorem C229_succeeds : forall sep camera ephem int_of color s m mp obs objs, letter (lower (s_mode s)) m -> letter (lower (s_prelim s)) mp ->
  lower (s_type s) = "basic"%string -> 0 < s_tstep s -> (forall i t, e_time (ephem i mp t) = t) -> obs <> [] ->
  (forall o, In o objs -> exists z, fst o = Num (IZR z)) ->
  (forall o v, In o objs -> In v obs -> exists c, (String.length (snd o) <= 40)%nat /\ color (snd o) (v_band v) = Ok c) ->
  exists r, run sep camera ephem int_of color s obs objs None = Ok r.
Proof.
  intros sep camera ephem int_of color s m mp obs objs L LP TY H ET NE Z C. eapply run_succeeds; try eassumption.
  intros o I. destruct (Z o I) as [z E]. exists z. rewrite E. apply to_int_Z.
Qed.
Print Assumptions C229_succeeds.

(** an object that stays where it is *)
Definition ex_eph (ra : R) (i : nat) (m : string) (t : R) : eph :=
  {| e_time := t; e_ra := ra; e_dec := 0; e_dradt := 0; e_ddecdt := 0; e_phase := 0; e_elong := 180; e_helio := 2; e_geo := 1; e_magv := 20; e_anomaly := 0; e_velocity := 0 |}.
Definition no_camera (a b c d e : R) : bool := false.
Definition no_int (t : string) : option Z := None.
Definition some_color (s b : string) : result R := Ok 0.5.
Definition ex_objs : list (cell * string) := [(Num 12, "C.dat"%string)].
Lemma ex_succeeds : forall sep f ra obs, obs <> [] -> exists r, run sep no_camera (ex_eph ra) no_int some_color (ex_settings f) obs ex_objs None = Ok r.
Proof.
  intros sep f ra obs NE. apply C229_succeeds with (m := "N"%string) (mp := "2"%string).
  - left. split; [reflexivity | left; reflexivity].
  - right. split; [reflexivity | left; reflexivity].
  - reflexivity.
  - cbn. lra.
  - reflexivity.
  - assumption.
  - intros o [<- | []]. exists 12%Z. reflexivity.
  - intros o v [<- | []] _. exists 0.5. split; [cbn; lia | reflexivity].
Qed.
Example C229_case : exists rows s', run great_circle no_camera (ex_eph 1) no_int some_color (ex_settings "circle") [ex_visit 100 0; ex_visit 101 0] ex_objs None = Ok (rows, s') /\
  exists P, rows_for P (right_row (ex_eph 1) some_color "N" [ex_visit 100 0; ex_visit 101 0] ex_objs) rows.
Proof.
  destruct (ex_succeeds great_circle "circle" 1 [ex_visit 100 0; ex_visit 101 0] ltac:(discriminate)) as [[rows s'] E]. exists rows, s'. split; [exact E|].
  apply C229_rows with (m := "N"%string) in E; [|left; split; [reflexivity | left; reflexivity] | intro; discriminate].
  destruct E as [P [R _]]. exists P. exact R.
Qed.

(** * C230: nothing is missed if objects are slow enough *)
(** if no object moves, between a visit and the next grid time, further than the rough tolerance less the radius of the footprint, the rows
    are exactly those of the visits that have the object in the footprint *)
Theorem C230_complete : forall sep camera ephem int_of color s m mp obs objs rows s' rad, metric sep ->
  letter (lower (s_mode s)) m -> letter (lower (s_prelim s)) mp -> 0 < s_tstep s -> (forall i t, e_time (ephem i mp t) = t) ->
  (forall i v, (i < length objs)%nat -> In v obs -> plain_rectangle s (exact_place ephem m i v) v) ->
  (forall i v, (i < length objs)%nat -> In v obs -> seen sep camera s (exact_place ephem m i v) v -> distance sep s (exact_place ephem m i v) v <= rad) ->
  (forall i v g, (i < length objs)%nat -> In v obs -> v_time v <= g < v_time v + s_tstep s ->
     sep (e_ra (ephem i mp g)) (e_dec (ephem i mp g)) (fst (exact_place ephem m i v)) (snd (exact_place ephem m i v)) + rad <= s_rough_tol s) ->
  run sep camera ephem int_of color s obs objs None = Ok (rows, s') ->
  rows_for (fun i k => (i < length objs)%nat /\ exists v, nth_error obs k = Some v /\ seen sep camera s (exact_place ephem m i v) v)
    (right_row ephem color m obs objs) rows.
Proof.
  intros. eapply (run_direct sep camera ephem int_of color s m mp obs objs None rows s' rad); try eassumption. left. reflexivity.
Qed.
Print Assumptions C230_complete.
(** a circle of radius r_fov on the sphere *)
Theorem C230_circle : forall camera ephem int_of color s m mp obs objs rows s', s_footprint s = "circle"%string ->
  letter (lower (s_mode s)) m -> letter (lower (s_prelim s)) mp -> 0 < s_tstep s -> (forall i t, e_time (ephem i mp t) = t) ->
  (forall i v g, (i < length objs)%nat -> In v obs -> v_time v <= g < v_time v + s_tstep s ->
     great_circle (e_ra (ephem i mp g)) (e_dec (ephem i mp g)) (fst (exact_place ephem m i v)) (snd (exact_place ephem m i v)) <= s_rough_tol s - s_r_fov s) ->
  run great_circle camera ephem int_of color s obs objs None = Ok (rows, s') ->
  rows_for (fun i k => (i < length objs)%nat /\ exists v, nth_error obs k = Some v /\ distance great_circle s (exact_place ephem m i v) v <= s_r_fov s)
    (right_row ephem color m obs objs) rows.
Proof.
  intros camera ephem int_of color s m mp obs objs rows s' F L LP H ET MV RUN.
  assert (SE : forall p v, seen great_circle camera s p v <-> distance great_circle s p v <= s_r_fov s).
  { intros p v. unfold seen. rewrite F. destruct (string_dec "circle" "camera"); [discriminate|]. destruct (string_dec "circle" "rectangle"); [discriminate|]. reflexivity. }
  eapply (C230_complete great_circle camera ephem int_of color s m mp obs objs rows s' (s_r_fov s)) in RUN; try eassumption.
  - revert RUN. apply rows_weaken. intros i k. split; intros [I [v [E S]]]; (split; [assumption|]); exists v; (split; [assumption|]); apply SE; assumption.
  - apply great_circle_metric.
  - intros i v _ _ R. rewrite F in R. discriminate.
  - intros i v _ _ S. apply SE. assumption.
  - intros i v g I IV G. pose proof (MV i v g I IV G). lra.
Qed.
Print Assumptions C230_circle.
Lemma one_pair : forall (P : nat -> nat -> Prop) right rows, rows_for P right rows -> (forall i k, P i k <-> i = 0%nat /\ k = 0%nat) -> length rows = 1%nat.
Proof.
  intros P right rows [ps [S [F I]]] H.
  assert (L : length rows = length ps) by (clear -F; induction F; [reflexivity | cbn; congruence]). rewrite L.
  destruct ps as [|[i k] ps].
  - exfalso. apply (proj2 (I 0%nat 0%nat)). apply H. split; reflexivity.
  - destruct ps as [|[i' k'] ps]; [reflexivity|]. exfalso.
    assert (A : i = 0%nat /\ k = 0%nat) by (apply H, I; left; reflexivity).
    assert (B : i' = 0%nat /\ k' = 0%nat) by (apply H, I; right; left; reflexivity).
    inversion S as [|x l S' G]. inversion G as [|y l' Q]. subst. destruct A, B; subst. destruct Q as [Q | [Q Q']]; cbn in *; lia.
Qed.
(** the object of the example is found in the visit one degree away, and not in the one four degrees away *)
Example C230_case : forall rows s', run great_circle no_camera (ex_eph 4) no_int some_color (ex_settings "circle") [ex_visit 100 3; ex_visit 101 0] ex_objs None = Ok (rows, s') ->
  length rows = 1%nat.
Proof.
  intros rows s' E. apply C230_circle with (m := "N"%string) (mp := "2"%string) in E; try reflexivity.
  - apply (one_pair _ _ _ E). intros i k. split.
    + intros [I [v [V D]]]. cbn in I. split; [lia|]. destruct k as [|[|k]]; [reflexivity | | destruct k; discriminate]. exfalso. injection V as <-.
      unfold distance, pointing in D. cbn [ex_settings s_degrees s_r_fov exact_place ex_eph ex_visit v_ra v_dec e_ra e_dec fst snd] in D. rewrite circle_0 in D by lra. lra.
    + intros [-> ->]. split; [cbn; lia|]. exists (ex_visit 100 3). split; [reflexivity|].
      unfold distance, pointing. cbn [ex_settings s_degrees s_r_fov exact_place ex_eph ex_visit v_ra v_dec e_ra e_dec fst snd]. rewrite circle_0 by lra. lra.
  - left. split; [reflexivity | left; reflexivity].
  - right. split; [reflexivity | left; reflexivity].
  - cbn. lra.
  - intros i v g _ _ _. cbn [ex_settings s_rough_tol s_r_fov exact_place ex_eph e_ra e_dec fst snd]. rewrite circle_0 by lra. lra.
Qed.

(** * C231: pre-computed positions *)
(** if no object is further from its nearest pre-computed position than it moves there from one position to the next, with the tolerance and
    the size of the footprint taken into account, nothing is missed *)
Theorem C231_complete : forall sep camera ephem int_of color s m obs objs mjds positions rows s' rad, metric sep ->
  letter (lower (s_mode s)) m -> StronglySorted Rlt mjds -> mjds <> [] -> spans obs mjds ->
  (forall i, (i < length objs)%nat -> exists l, nth_error positions i = Some l /\ length l = length mjds) ->
  (forall i v, (i < length objs)%nat -> In v obs -> plain_rectangle s (exact_place ephem m i v) v) ->
  (forall i v, (i < length objs)%nat -> In v obs -> seen sep camera s (exact_place ephem m i v) v -> distance sep s (exact_place ephem m i v) v <= rad) ->
  (forall i v l j p, (i < length objs)%nat -> In v obs -> nth_error positions i = Some l -> nth_error l j = Some p -> is_nearest mjds (v_time v) j ->
     sep (fst p) (snd p) (fst (exact_place ephem m i v)) (snd (exact_place ephem m i v)) + rad <= s_r_fov s + swing sep l j + s_pre_tol s) ->
  run sep camera ephem int_of color s obs objs (Some (mjds, positions)) = Ok (rows, s') ->
  rows_for (fun i k => (i < length objs)%nat /\ exists v, nth_error obs k = Some v /\ seen sep camera s (exact_place ephem m i v) v)
    (right_row ephem color m obs objs) rows.
Proof.
  intros sep camera ephem int_of color s m obs objs mjds positions rows s' rad ME L SO NM SP PL PR RAD MV RUN.
  assert (NE : obs <> []) by (intros ->; discriminate).
  eapply (run_pre sep camera ephem int_of color s m obs objs mjds positions rows s' rad); try eassumption. apply covered_iff; assumption.
Qed.
Print Assumptions C231_complete.
(** and run does not fail *)
Theorem C231_succeeds : forall sep camera ephem int_of color s m obs objs mjds positions, letter (lower (s_mode s)) m -> lower (s_type s) = "basic"%string ->
  obs <> [] -> StronglySorted Rlt mjds -> mjds <> [] -> spans obs mjds ->
  (forall i, (i < length objs)%nat -> exists l, nth_error positions i = Some l /\ length l = length mjds) ->
  (forall o, In o objs -> exists z, fst o = Num (IZR z)) ->
  (forall o v, In o objs -> In v obs -> exists c, (String.length (snd o) <= 40)%nat /\ color (snd o) (v_band v) = Ok c) ->
  exists r, run sep camera ephem int_of color s obs objs (Some (mjds, positions)) = Ok r.
Proof.
  intros sep camera ephem int_of color s m obs objs mjds positions L TY NE SO NM SP PL Z C.
  eapply run_pre_succeeds; try eassumption; [apply covered_iff; assumption|].
  intros o I. destruct (Z o I) as [z E]. exists z. rewrite E. apply to_int_Z.
Qed.
Print Assumptions C231_succeeds.
(** times that do not reach over all visits are not used *)
Theorem C231_fallback : forall sep camera ephem int_of color s obs objs mjds positions, mjds <> [] -> ~ spans obs mjds ->
  run sep camera ephem int_of color s obs objs (Some (mjds, positions)) = run sep camera ephem int_of color s obs objs None.
Proof.
  intros sep camera ephem int_of color s obs objs mjds positions NM N. unfold run. destruct obs as [|v0 obs0] eqn:EO; [reflexivity|]. rewrite <- EO in *.
  assert (NE : obs <> []) by (rewrite EO; discriminate).
  destruct (covered obs mjds) eqn:C; [exfalso; apply N; apply (covered_iff obs mjds NE NM); assumption | reflexivity].
Qed.
Print Assumptions C231_fallback.
(** one object, pre-computed for two times *)
Lemma ex_pre_succeeds : forall f ra t, 100 <= t <= 102 -> exists r, run great_circle no_camera (ex_eph ra) no_int some_color (ex_settings f) [ex_visit t 0] ex_objs
  (Some ([100; 102], [[(ra, 0); (ra, 0)]])) = Ok r.
Proof.
  intros f ra t HT. apply C231_succeeds with (m := "N"%string).
  - left. split; [reflexivity | left; reflexivity].
  - reflexivity.
  - discriminate.
  - repeat constructor. lra.
  - discriminate.
  - intros v [<- | []]. cbn. split; [exists 100 | exists 102]; (split; [tauto | lra]).
  - intros i I. cbn in I. assert (i = 0)%nat by lia. subst i. eexists. split; reflexivity.
  - intros o [<- | []]. exists 12%Z. reflexivity.
  - intros o v [<- | []] _. exists 0.5. split; [cbn; lia | reflexivity].
Qed.
Example C231_case : forall rows s', run great_circle no_camera (ex_eph 1) no_int some_color (ex_settings "circle") [ex_visit 101 0] ex_objs
  (Some ([100; 102], [[(1, 0); (1, 0)]])) = Ok (rows, s') -> length rows = 1%nat.
Proof.
  intros rows s' E. apply C231_complete with (m := "N"%string) (rad := 1.75) in E.
  - apply (one_pair _ _ _ E). intros i k. split.
    + intros [I [v [V D]]]. cbn in I. split; [lia|]. destruct k as [|k]; [reflexivity | destruct k; discriminate].
    + intros [-> ->]. split; [cbn; lia|]. exists (ex_visit 101 0). split; [reflexivity|].
      unfold seen, pointing. cbn [ex_settings s_degrees s_r_fov s_footprint exact_place ex_eph ex_visit v_ra v_dec e_ra e_dec fst snd].
      destruct (string_dec "circle" "camera"); [discriminate|]. destruct (string_dec "circle" "rectangle"); [discriminate|]. rewrite circle_0 by lra. lra.
  - apply great_circle_metric.
  - left. split; [reflexivity | left; reflexivity].
  - repeat constructor. lra.
  - discriminate.
  - intros v [<- | []]. cbn. split; [exists 100 | exists 102]; (split; [tauto | lra]).
  - intros i I. cbn in I. assert (i = 0)%nat by lia. subst i. eexists. split; reflexivity.
  - intros i v _ _ R. discriminate.
  - intros i v _ _ S. unfold seen in S. cbn [ex_settings s_footprint s_r_fov] in S.
    destruct (string_dec "circle" "camera"); [discriminate|]. destruct (string_dec "circle" "rectangle"); [discriminate|]. exact S.
  - intros i v l j p I _ EP EJ _. cbn in I. assert (i = 0)%nat by lia. subst i. injection EP as <-.
    assert (p = (1, 0)) as -> by (destruct j as [|[|j]]; cbn in EJ; [congruence | congruence | destruct j; discriminate]).
    cbn [ex_settings s_r_fov s_pre_tol exact_place ex_eph e_ra e_dec fst snd]. rewrite circle_0 by lra.
    assert (0 <= swing great_circle [(1, 0); (1, 0)] j).
    { unfold swing. eapply Rle_trans; [|apply Rmax_l]. unfold step. destruct j as [|[|j]]; cbn [nth_error]; [|lra | destruct j; cbn; lra].
      cbn [fst snd]. rewrite circle_0 by lra. lra. }
    lra.
Qed.
