(** C230 (the condition is needed), C232-C235: pre-computed positions, kinds of ephemerides and identifiers, what is recorded. *)
From Coq Require Import Reals Lra Lia Sorted.
From Verif Require Import Base Orbits_Model OrbitsIO_Model DirectObs_Model DirectObs_Spec DirectObs_Proofs DirectObs_Proofs2 DirectObs_Proofs3 DirectObs_Proofs4 DirectObs_Props DirectObs_Props2.
Open Scope R_scope.

(** the rough selection of an object that stays within ten degrees of a single visit *)
Definition typed (f t : string) : settings :=
  {| s_footprint := f; s_r_fov := 1.75; s_x_tol := 5; s_y_tol := 3; s_mode := "nbody"; s_prelim := "2body"; s_type := t; s_degrees := true;
     s_tstep := 1; s_rough_tol := 10; s_pre_tol := 2.08 |}.
Lemma ex_rough : forall f t ra time, 0 <= ra <= 10 -> (t = "basic" \/ t = "full")%string ->
  rough_direct great_circle (ex_eph ra) (typed f t) [ex_visit time 0] 0 = Ok [0%nat].
Proof.
  intros f t ra time H T.
  destruct (rough_direct_eq great_circle (ex_eph ra) (typed f t) [ex_visit time 0] "2") as [g [_ E]].
  - cbn. lra.
  - discriminate.
  - reflexivity.
  - destruct T as [-> | ->]; reflexivity.
  - reflexivity.
  - rewrite E. cbn [length seq filter nth].
    assert (C : in_circle great_circle (typed f t) (place_of (ex_eph ra 0 "2" (g (v_time (ex_visit time 0))))) (ex_visit time 0) (s_rough_tol (typed f t)) = true).
    { apply circle_iff. unfold distance, pointing. cbn [typed s_degrees s_rough_tol place_of ex_eph ex_visit e_ra e_dec v_ra v_dec fst snd]. rewrite circle_0 by lra. lra. }
    rewrite C. reflexivity.
Qed.

(** * C232: pre-computed positions do not change what is found *)
(** with a circle: slow objects give rows for the same objects and visits *)
Theorem C232_circle_partial : forall camera ephem int_of color s m mp obs objs mjds positions rows1 s1 rows2 s2, s_footprint s = "circle"%string ->
  letter (lower (s_mode s)) m -> letter (lower (s_prelim s)) mp -> 0 < s_tstep s -> (forall i t, e_time (ephem i mp t) = t) ->
  StronglySorted Rlt mjds -> mjds <> [] -> spans obs mjds ->
  (forall i, (i < length objs)%nat -> exists l, nth_error positions i = Some l /\ length l = length mjds) ->
  (forall i v g, (i < length objs)%nat -> In v obs -> v_time v <= g < v_time v + s_tstep s ->
     great_circle (e_ra (ephem i mp g)) (e_dec (ephem i mp g)) (fst (exact_place ephem m i v)) (snd (exact_place ephem m i v)) <= s_rough_tol s - s_r_fov s) ->
  (forall i v l j p, (i < length objs)%nat -> In v obs -> nth_error positions i = Some l -> nth_error l j = Some p -> is_nearest mjds (v_time v) j ->
     great_circle (fst p) (snd p) (fst (exact_place ephem m i v)) (snd (exact_place ephem m i v)) <= swing great_circle l j + s_pre_tol s) ->
  run great_circle camera ephem int_of color s obs objs None = Ok (rows1, s1) ->
  run great_circle camera ephem int_of color s obs objs (Some (mjds, positions)) = Ok (rows2, s2) ->
  exists P, rows_for P (right_row ephem color m obs objs) rows1 /\ rows_for P (right_row ephem color m obs objs) rows2.
Proof.
  intros camera ephem int_of color s m mp obs objs mjds positions rows1 s1 rows2 s2 F L LP H ET SO NM SP PL MV MV' R1 R2.
  assert (SE : forall p v, seen great_circle camera s p v <-> distance great_circle s p v <= s_r_fov s).
  { intros p v. unfold seen. rewrite F. destruct (string_dec "circle" "camera"); [discriminate|]. destruct (string_dec "circle" "rectangle"); [discriminate|]. reflexivity. }
  eexists. split; [eapply C230_circle with (mp := mp); eassumption|].
  eapply (C231_complete great_circle camera ephem int_of color s m obs objs mjds positions rows2 s2 (s_r_fov s)) in R2; try eassumption.
  - revert R2. apply rows_weaken. intros i k. split; intros [I [v [E S]]]; (split; [assumption|]); exists v; (split; [assumption|]); apply SE; assumption.
  - apply great_circle_metric.
  - intros i v _ _ R. rewrite F in R. discriminate.
  - intros i v _ _ S. apply SE. assumption.
  - intros i v l j p I IV EP EJ N. pose proof (MV' i v l j p I IV EP EJ N). lra.
Qed.
Print Assumptions C232_circle_partial.
(** the rectangle of ten by six degrees: an object four degrees from the centre that does not move at all is found without pre-computed
    positions and lost with them, since 1.75 + 2.08 degrees are the limit *)
Theorem C232_rectangle_refuted : exists s obs objs mjds positions rows1 s1 rows2 s2,
  run great_circle no_camera (ex_eph 4) no_int some_color s obs objs None = Ok (rows1, s1) /\
  run great_circle no_camera (ex_eph 4) no_int some_color s obs objs (Some (mjds, positions)) = Ok (rows2, s2) /\
  spans obs mjds /\ positions = [[(4, 0); (4, 0)]] /\ length rows1 = 1%nat /\ rows2 = [].
Proof.
  destruct (ex_succeeds great_circle "rectangle" 4 [ex_visit 101 0] ltac:(discriminate)) as [[rows1 s1] E1].
  destruct (ex_pre_succeeds "rectangle" 4 101 ltac:(lra)) as [[rows2 s2] E2].
  exists (ex_settings "rectangle"), [ex_visit 101 0], ex_objs, [100; 102], [[(4, 0); (4, 0)]], rows1, s1, rows2, s2.
  split; [exact E1|]. split; [exact E2|].
  assert (SP : spans [ex_visit 101 0] [100; 102]).
  { intros v [<- | []]. cbn. split; [exists 100 | exists 102]; (split; [tauto | lra]). }
  split; [exact SP|]. split; [reflexivity|]. split.
  - assert (SEEN : seen great_circle no_camera (ex_settings "rectangle") (4, 0) (ex_visit 101 0)).
    { unfold seen. cbn [ex_settings s_footprint]. destruct (string_dec "rectangle" "camera"); [discriminate|]. destruct (string_dec "rectangle" "rectangle") as [_|NQ]; [|contradiction].
      apply rectangle_sound; [reflexivity|]. apply rectangle_iff; [reflexivity|]. cbn [fst snd v_ra v_dec ex_visit ex_settings s_x_tol s_y_tol].
      replace (0 * PI / 180) with 0 by field. rewrite cos_0, Rminus_0_r, Rabs_R0. split; [lra|]. replace ((4 - 0) * 1) with 4 by lra. rewrite Rabs_right by lra. lra. }
    apply C230_complete with (m := "N"%string) (mp := "2"%string) (rad := 4) in E1.
    + apply (one_pair _ _ _ E1). intros i k. split.
      * intros [I [v [V D]]]. cbn in I. split; [lia|]. destruct k as [|k]; [reflexivity | destruct k; discriminate].
      * intros [-> ->]. split; [cbn; lia|]. exists (ex_visit 101 0). split; [reflexivity | exact SEEN].
    + apply great_circle_metric.
    + left. split; [reflexivity | left; reflexivity].
    + right. split; [reflexivity | left; reflexivity].
    + cbn. lra.
    + reflexivity.
    + intros i v _ [<- | []] _. split; [reflexivity|]. cbn. rewrite Rabs_right by lra. lra.
    + intros i v _ [<- | []] _. unfold distance, pointing. cbn [ex_settings s_degrees exact_place ex_eph ex_visit v_ra v_dec e_ra e_dec fst snd].
      rewrite circle_0 by lra. lra.
    + intros i v g _ _ _. cbn [ex_settings s_rough_tol exact_place ex_eph e_ra e_dec fst snd]. rewrite circle_0 by lra. lra.
  - destruct (rough_pre_eq great_circle (ex_settings "rectangle") [ex_visit 101 0] [100; 102] [[(4, 0); (4, 0)]] 0 [(4, 0); (4, 0)]) as [j [J R]].
    + repeat constructor. lra.
    + apply covered_iff; [discriminate | discriminate | exact SP].
    + discriminate.
    + discriminate.
    + reflexivity.
    + reflexivity.
    + destruct (J (ex_visit 101 0) (or_introl eq_refl)) as [_ [JL _]]. cbn [length] in JL.
      assert (FE : in_circle great_circle (ex_settings "rectangle") (nth (j (v_time (ex_visit 101 0))) [(4, 0); (4, 0)] (0, 0)) (ex_visit 101 0)
                (s_r_fov (ex_settings "rectangle") + (swing great_circle [(4, 0); (4, 0)] (j (v_time (ex_visit 101 0))) + s_pre_tol (ex_settings "rectangle"))) = false).
      { destruct (in_circle _ _ _ _ _) eqn:C; [|reflexivity]. exfalso. apply circle_iff in C.
        assert (N : nth (j (v_time (ex_visit 101 0))) [(4, 0); (4, 0)] (0, 0) = (4, 0)) by (destruct (j (v_time (ex_visit 101 0))) as [|[|q]]; [reflexivity | reflexivity | lia]).
        assert (W : swing great_circle [(4, 0); (4, 0)] (j (v_time (ex_visit 101 0))) = 0).
        { unfold swing, step. destruct (j (v_time (ex_visit 101 0))) as [|[|q]]; cbn [nth_error fst snd]; [| |lia]; rewrite circle_0 by lra; unfold Rmax; destruct Rle_dec; lra. }
        rewrite N, W in C. unfold distance, pointing in C. cbn [ex_settings s_degrees s_r_fov s_pre_tol ex_visit v_ra v_dec fst snd] in C.
        rewrite circle_0 in C by lra. lra. }
      assert (RN : rough_precomputed great_circle (ex_settings "rectangle") [ex_visit 101 0] [100; 102] [[(4, 0); (4, 0)]] 0 = Ok []).
      { rewrite R. cbn [length seq filter]. match goal with |- Ok (if ?c then _ else _) = _ => replace c with false by (symmetry; exact FE) end. reflexivity. }
      unfold run in E2. assert (C : covered [ex_visit 101 0] [100; 102] = true) by (apply covered_iff; [discriminate | discriminate | exact SP]).
      rewrite C in E2. unfold ex_objs in E2. cbn [loop] in E2. rewrite RN in E2. cbn [bind precise fst snd app map all_ok] in E2. injection E2 as <- _. reflexivity.
Qed.
Print Assumptions C232_rectangle_refuted.
(** the hypotheses of C232_circle_partial hold of the object that stays one degree from the visit *)
Example C232_case : forall rows1 s1 rows2 s2,
  run great_circle no_camera (ex_eph 1) no_int some_color (ex_settings "circle") [ex_visit 101 0] ex_objs None = Ok (rows1, s1) ->
  run great_circle no_camera (ex_eph 1) no_int some_color (ex_settings "circle") [ex_visit 101 0] ex_objs (Some ([100; 102], [[(1, 0); (1, 0)]])) = Ok (rows2, s2) ->
  exists P, rows_for P (right_row (ex_eph 1) some_color "N" [ex_visit 101 0] ex_objs) rows1 /\ rows_for P (right_row (ex_eph 1) some_color "N" [ex_visit 101 0] ex_objs) rows2.
Proof.
  intros rows1 s1 rows2 s2 E1 E2.
  eapply C232_circle_partial with (mp := "2"%string); try exact E1; try exact E2; try reflexivity.
  - left. split; [reflexivity | left; reflexivity].
  - right. split; [reflexivity | left; reflexivity].
  - cbn. lra.
  - repeat constructor. lra.
  - discriminate.
  - intros v [<- | []]. cbn. split; [exists 100 | exists 102]; (split; [tauto | lra]).
  - intros i I. cbn in I. assert (i = 0)%nat by lia. subst i. eexists. split; reflexivity.
  - intros i v g _ _ _. cbn [ex_settings s_rough_tol s_r_fov exact_place ex_eph e_ra e_dec fst snd]. rewrite circle_0 by lra. lra.
  - intros i v l j p I _ EP EJ _. cbn in I. assert (i = 0)%nat by lia. subst i. injection EP as <-.
    assert (p = (1, 0)) as -> by (destruct j as [|[|j]]; cbn in EJ; [congruence | congruence | destruct j; discriminate]).
    cbn [ex_settings s_pre_tol exact_place ex_eph e_ra e_dec fst snd]. rewrite circle_0 by lra.
    assert (0 <= swing great_circle [(1, 0); (1, 0)] j).
    { unfold swing. eapply Rle_trans; [|apply Rmax_l]. unfold step. destruct j as [|[|j]]; cbn [nth_error]; [|lra | destruct j; cbn; lra].
      cbn [fst snd]. rewrite circle_0 by lra. lra. }
    lra.
Qed.

(** * C233: every kind of ephemeris and of identifier can be used *)
(** full ephemerides: the first object that comes near a visit ends the run with an error *)
Theorem C233_full_refuted : ~ (forall s objs, (lower (s_type s) = "basic" \/ lower (s_type s) = "full")%string -> s_mode s = "nbody"%string -> s_prelim s = "2body"%string ->
  0 < s_tstep s -> (forall o, In o objs -> exists z, fst o = Num (IZR z)) ->
  exists r, run great_circle no_camera (ex_eph 1) no_int some_color s [ex_visit 101 0] objs None = Ok r).
Proof.
  intro H. destruct (H (typed "circle" "full") ex_objs) as [r E].
  - right. reflexivity.
  - reflexivity.
  - reflexivity.
  - cbn. lra.
  - intros o [<- | []]. exists 12%Z. reflexivity.
  - unfold run, ex_objs in E. cbn [loop] in E. rewrite (ex_rough "circle" "full" 1 101) in E; [|lra | right; reflexivity].
    cbn [bind] in E. unfold precise in E. cbn [map arr_get nth_error all_ok bind] in E. unfold ephemerides in E. cbn [map v_time ex_visit] in E.
    change (dynamics (s_mode (typed "circle" "full"))) with (Ok "N"%string) in E. cbn [bind] in E.
    change (String.eqb (lower (s_type (typed "circle" "full"))) "basic" || String.eqb (lower (s_type (typed "circle" "full"))) "full") with true in E.
    cbn [bind] in E. rewrite in_fov_eq in E. cbn [fst] in E. change 12 with (IZR 12) in E. rewrite to_int_Z in E. cbn [bind] in E.
    change (String.eqb (lower (s_type (typed "circle" "full"))) "full") with true in E. discriminate.
Qed.
Print Assumptions C233_full_refuted.
(** an identifier that is text, "2011 AA": ValueError *)
Theorem C233_text_refuted : exists objs, run great_circle no_camera (ex_eph 1) no_int some_color (ex_settings "circle") [ex_visit 101 0] objs None = Err ValueError /\
  objs = [(Txt "2011 AA", "C.dat"%string)].
Proof.
  eexists. split; [|reflexivity]. change (ex_settings "circle") with (typed "circle" "basic"). unfold run. cbn [loop]. rewrite (ex_rough "circle" "basic" 1 101); [|lra | left; reflexivity].
  cbn [bind]. unfold precise. cbn [map arr_get nth_error all_ok bind]. unfold ephemerides. cbn [map v_time ex_visit].
  change (dynamics (s_mode (typed "circle" "basic"))) with (Ok "N"%string). cbn [bind].
  change (String.eqb (lower (s_type (typed "circle" "basic"))) "basic" || String.eqb (lower (s_type (typed "circle" "basic"))) "full") with true.
  cbn [bind]. rewrite in_fov_eq. reflexivity.
Qed.
Print Assumptions C233_text_refuted.
(** an identifier that is no integer is cut: objects 1.25 and 1.75 both become 1 *)
Theorem C233_cut_refuted : ~ (forall x y i j, to_int no_int (Num x) = Ok i -> to_int no_int (Num y) = Ok j -> x <> y -> i <> j).
Proof.
  assert (IP : forall x, 1 <= x < 2 -> to_int no_int (Num x) = Ok 1%Z).
  { intros x X. cbn. destruct (Rle_dec 0 x); [|lra]. f_equal. unfold Int_part. rewrite <- (tech_up x 2); [lia | cbn; lra | cbn; lra]. }
  intro H. apply (H 1.25 1.75 1%Z 1%Z); [apply IP; lra | apply IP; lra | lra | reflexivity].
Qed.
Print Assumptions C233_cut_refuted.
(** basic ephemerides, and identifiers that are integers or text that reads as one: no error *)
Theorem C233_basic_partial : forall sep camera ephem int_of color s m mp obs objs, letter (lower (s_mode s)) m -> letter (lower (s_prelim s)) mp ->
  lower (s_type s) = "basic"%string -> 0 < s_tstep s -> (forall i t, e_time (ephem i mp t) = t) -> obs <> [] ->
  (forall o, In o objs -> (exists z, fst o = Num (IZR z)) \/ (exists t z, fst o = Txt t /\ int_of t = Some z)) ->
  (forall o v, In o objs -> In v obs -> exists c, (String.length (snd o) <= 40)%nat /\ color (snd o) (v_band v) = Ok c) ->
  exists r, run sep camera ephem int_of color s obs objs None = Ok r.
Proof.
  intros sep camera ephem int_of color s m mp obs objs L LP TY H ET NE Z C. eapply run_succeeds; try eassumption.
  intros o I. destruct (Z o I) as [[z E] | [t [z [E F]]]]; exists z; rewrite E; [apply to_int_Z|]. cbn. rewrite F. reflexivity.
Qed.
Print Assumptions C233_basic_partial.
Example C233_case : exists r, run great_circle no_camera (ex_eph 1) no_int some_color (ex_settings "circle") [ex_visit 101 0] ex_objs None = Ok r.
Proof. apply ex_succeeds. discriminate. Qed.

(** * C234: info tells the footprint *)
(** the known names *)
Theorem C234_known_partial : forall s0 s sep camera l, new_obs s0 = Ok s -> (s_footprint s = "camera" \/ s_footprint s = "rectangle" \/ s_footprint s = "circle")%string ->
  In ("footprint"%string, InfoText (s_footprint (snd (sso_in_fov sep camera s l)))) (info s) /\
  (s_footprint s = "circle"%string -> In ("r_fov"%string, InfoNumber (s_r_fov s)) (info s)).
Proof.
  intros s0 s sep camera l _ K. split.
  - left. f_equal. f_equal. rewrite in_fov_eq. cbn [snd]. unfold settled. destruct K as [E | [E | E]]; rewrite E; symmetry; exact E.
  - intro E. unfold info. rewrite E. cbn. tauto.
Qed.
Print Assumptions C234_known_partial.
(** "circular" (the name that the documentation uses) is recorded, but a circle is used and its radius is not recorded *)
Theorem C234_info_refuted : exists s0 s sep camera l, new_obs s0 = Ok s /\ s_footprint s = "circular"%string /\
  s_footprint (snd (sso_in_fov sep camera s l)) = "circle"%string /\
  ~ In ("footprint"%string, InfoText (s_footprint (snd (sso_in_fov sep camera s l)))) (info s) /\ (forall x, ~ In ("r_fov"%string, InfoNumber x) (info s)).
Proof.
  exists (ex_settings "Circular"), (ex_settings "circular"), great_circle, no_camera, []. split; [reflexivity|]. split; [reflexivity|]. split; [reflexivity|]. split.
  - cbn. intros [H | [H | [H | []]]]; discriminate.
  - intros x. cbn. intros [H | [H | [H | []]]]; discriminate.
Qed.
Print Assumptions C234_info_refuted.
Example C234_case : new_obs (ex_settings "Camera") = Ok (ex_settings "camera").
Proof. reflexivity. Qed.

(** * C235: make_lsst_obs writes to the output directory *)
(** what os.path.join gives for a directory without a slash at its end and a relative name *)
Theorem C235_absolute_partial : forall out_dir name, is_abs out_dir = true -> output_path out_dir name = path_join out_dir name.
Proof.
  intros d n A. unfold output_path. cbv zeta. unfold path_join at 1.
  assert (B : is_abs (path_join d n) = true).
  { unfold path_join. destruct (is_abs n) eqn:N; [exact N|]. destruct d as [|a d]; [discriminate|]. destruct (String.eqb (String a d) "" || ends_slash (String a d)); exact A. }
  rewrite B. reflexivity.
Qed.
Print Assumptions C235_absolute_partial.
(** a relative directory is used twice *)
Theorem C235_relative_refuted : ~ (forall out_dir name, is_abs name = false -> output_path out_dir name = path_join out_dir name).
Proof. intro H. specialize (H "out" "obs.npz" eq_refl)%string. vm_compute in H. discriminate. Qed.
Print Assumptions C235_relative_refuted.
Example C235_case : output_path "/data" "obs.npz" = "/data/obs.npz"%string /\ output_path "out" "obs.npz" = "out/out/obs.npz"%string.
Proof. split; reflexivity. Qed.

(** * C230 again: the condition is needed *)
(** an object that moves forty degrees a day is missed although it is at the centre of the visit *)
Definition fast_eph (i : nat) (m : string) (t : R) : eph :=
  {| e_time := t; e_ra := 40 * (t - 0.5); e_dec := 0; e_dradt := 40; e_ddecdt := 0; e_phase := 0; e_elong := 180; e_helio := 2; e_geo := 1; e_magv := 20; e_anomaly := 0; e_velocity := 40 |}.
Lemma int_part_at : forall x z, IZR z <= x < IZR z + 1 -> Int_part x = z.
Proof. intros x z H. unfold Int_part. rewrite <- (tech_up x (z + 1)); [lia | rewrite plus_IZR; lra | rewrite plus_IZR; lra]. Qed.
Theorem C230_needed : exists r, run great_circle no_camera fast_eph no_int some_color (ex_settings "circle") [ex_visit 0.5 0] ex_objs None = Ok r /\ fst r = [] /\
  seen great_circle no_camera (ex_settings "circle") (exact_place fast_eph "N" 0 (ex_visit 0.5 0)) (ex_visit 0.5 0).
Proof.
  assert (G : rough_times (ex_settings "circle") [ex_visit 0.5 0] = Ok [-1 + INR 0 * 1; -1 + INR 1 * 1; -1 + INR 2 * 1; -1 + INR 3 * 1; -1 + INR 4 * 1]).
  { unfold rough_times, arange. cbn [ex_settings s_tstep map ex_visit v_time minimum maximum fold_left].
    destruct (Req_EM_T 1 0); [lra|]. unfold floor, ceil.
    rewrite (int_part_at (0.5 + 0.16 - 0.5) 0) by lra. rewrite (int_part_at (- (0.5 + 0.16 + 0.5)) (-2)) by lra.
    replace (0 - 1) with (-1) by lra. rewrite (int_part_at (- ((IZR (- (-2)) + 1 + 1 / 2 - -1) / 1)) (-5)) by (cbn; lra). reflexivity. }
  assert (R : rough_direct great_circle fast_eph (ex_settings "circle") [ex_visit 0.5 0] 0 = Ok []).
  { unfold rough_direct. rewrite G. cbn [bind]. unfold ephemerides.
    change (dynamics (s_prelim (ex_settings "circle"))) with (Ok "2"%string). cbn [bind].
    change (String.eqb (lower (s_type (ex_settings "circle"))) "basic" || String.eqb (lower (s_type (ex_settings "circle"))) "full") with true. cbn [bind].
    cbn [map fast_eph e_time v_time ex_visit searchsorted INR].
    destruct (Rlt_dec (-1 + 0 * 1) 0.5); [|lra]. destruct (Rlt_dec (-1 + 1 * 1) 0.5); [|lra]. destruct (Rlt_dec (-1 + (1 + 1) * 1) 0.5); [lra|].
    cbn [arr_get nth_error all_ok bind]. unfold where_. cbn [combine length seq filter snd fst].
    assert (C : in_circle great_circle (ex_settings "circle") (place_of (fast_eph 0 "2" (-1 + (1 + 1) * 1))) (ex_visit 0.5 0) (s_rough_tol (ex_settings "circle")) = false).
    { destruct (in_circle _ _ _ _ _) eqn:C; [|reflexivity]. exfalso. apply circle_iff in C. unfold distance, pointing in C.
      cbn [ex_settings s_degrees s_rough_tol place_of fast_eph ex_visit v_ra v_dec e_ra e_dec fst snd] in C. rewrite circle_0 in C by lra. lra. }
    match goal with |- Ok (map _ (if ?c then _ else _)) = _ => replace c with false by (symmetry; exact C) end. reflexivity. }
  exists ([], ex_settings "circle"). split; [|split; [reflexivity|]].
  - unfold run, ex_objs. cbn [loop]. rewrite R. reflexivity.
  - unfold seen. cbn [ex_settings s_footprint]. destruct (string_dec "circle" "camera"); [discriminate|]. destruct (string_dec "circle" "rectangle"); [discriminate|].
    unfold pointing. cbn [ex_settings s_degrees s_r_fov exact_place fast_eph ex_visit v_time v_ra v_dec e_ra e_dec fst snd]. rewrite circle_0 by lra. lra.
Qed.
Print Assumptions C230_needed.
