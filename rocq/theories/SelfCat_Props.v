(** C243-C247: the catalogue of selfcal. *)
From Coq Require Import Reals Lra Lia Psatz.
From Verif Require Import Base Astrom_Model Orbits_Model DirectObs_Spec DirectObs_Proofs SelfCat_Model SelfCat_Spec SelfCat_Proofs SelfCat_Proofs2.
Open Scope R_scope.

(** ** C243: visit by visit, the catalogue has exactly the stars of the field *)
Theorem C243_visits : forall proj stars offs band n radius fl visits rows,
  generate_catalog proj visits stars (Some offs) band n radius fl = Ok (Some rows) <->
  visits <> [] /\ exists blocks, rows = concat blocks /\
    Forall2 (fun v b => generate_catalog proj [v] stars (Some offs) band n radius fl = Ok (Some b)) visits blocks.
Proof. intros. apply cat_many. Qed.
Print Assumptions C243_visits.
Theorem C243_field : forall proj stars offs band n radius fl v rows, 0 <= radius <= 180 ->
  generate_catalog proj [v] stars (Some offs) band n radius fl = Ok (Some rows) ->
  Forall2 (of_star band) (filter (in_field radius v) stars) rows.
Proof.
  intros proj stars offs band n radius fl v rows R E. apply cat_one in E. destruct E as [_ E]. apply obs_stars in E.
  rewrite (filter_ext (in_field radius v) (in_ball radius v)); [exact E|]. intros s. symmetry. apply in_ball_field. exact R.
Qed.
Print Assumptions C243_field.

(** ** C244: patches are squares of the focal plane of a visit *)
Theorem C244_squares_partial : forall stars offs band k radius fl v rows, 0 <= radius <= 180 -> (0 < k)%Z ->
  (forall s, In s stars -> off_axis v s <= radius -> off_axis v s < 1.8) ->
  generate_catalog gnomonic [v] stars (Some offs) band (k * k) radius fl = Ok (Some rows) ->
  Forall2 (fun s r => exists a b, r_patch r = (v_id v * (k * k) + a + b * k)%Z /\ in_column k a (fst (focal v s)) /\ in_column k b (snd (focal v s)))
    (filter (in_field radius v) stars) rows.
Proof.
  intros stars offs band k radius fl v rows R K I E. apply cat_one in E. destruct E as [_ E]. apply obs_patches in E.
  rewrite (filter_ext (in_field radius v) (in_ball radius v)) by (intros s; symmetry; apply in_ball_field; exact R).
  assert (Q : forall s, In s (filter (in_ball radius v) stars) -> off_axis v s < 1.8).
  { intros s J. apply filter_In in J. destruct J as [J B]. rewrite in_ball_field in B by exact R. unfold in_field in B.
    destruct (Rle_dec (off_axis v s) radius) as [L|]; [exact (I s J L)|discriminate B]. }
  revert Q. induction E as [|s r l rows H F IH]; intros Q; constructor.
  - destruct (patch_form v k s K (Q s (or_introl eq_refl))) as [a [b [P [X Y]]]]. exists a, b. rewrite H. split; [exact P|split; assumption].
  - apply IH. intros s' J. apply Q. right. exact J.
Qed.
Print Assumptions C244_squares_partial.
(** so that rows of different visits never share a patch *)
Lemma forall2_in_r : forall {A B} (P : A -> B -> Prop) l m y, Forall2 P l m -> In y m -> exists x, In x l /\ P x y.
Proof.
  intros A B P l m y F. induction F as [|x z l m H F IH]; [intros []|]. intros [<-|I]; [exists x; split; [left; reflexivity|exact H]|].
  destruct (IH I) as [x' [J Q]]. exists x'. split; [right; exact J|exact Q].
Qed.
Theorem C244_visits_partial : forall stars offs band k radius fl v v' rows rows' r r', 0 <= radius < 1.8 -> (0 < k)%Z -> v_id v <> v_id v' ->
  generate_catalog gnomonic [v] stars (Some offs) band (k * k) radius fl = Ok (Some rows) ->
  generate_catalog gnomonic [v'] stars (Some offs) band (k * k) radius fl = Ok (Some rows') ->
  In r rows -> In r' rows' -> r_patch r <> r_patch r'.
Proof.
  intros stars offs band k radius fl v v' rows rows' r r' R K D E E' I I'.
  apply C244_squares_partial in E; [|lra|exact K|intros; lra]. apply C244_squares_partial in E'; [|lra|exact K|intros; lra].
  destruct (forall2_in_r _ _ _ _ E I) as [s [_ [a [b [P [[A _] [B _]]]]]]]. destruct (forall2_in_r _ _ _ _ E' I') as [s' [_ [a' [b' [P' [[A' _] [B' _]]]]]]].
  rewrite P, P'. intros Q. apply D.
  assert (X : (0 <= a + b * k < k * k)%Z) by nia. assert (X' : (0 <= a' + b' * k < k * k)%Z) by nia.
  destruct (Z.lt_trichotomy (v_id v) (v_id v')) as [L|[L|L]]; [exfalso; nia|exact L|exfalso; nia].
Qed.
Print Assumptions C244_visits_partial.

(** a wider field is not given to the patches: visits share patches *)
Lemma off_equator : forall v s, v_dec v = 0 -> off_axis v s = acos (cos (radians (s_dec s)) * cos (radians (s_ra s - v_ra v))) * 180 / PI.
Proof.
  intros v s D. rewrite off_axis_dot, D. f_equal. f_equal. f_equal. unfold dot, ux, uy, uz. replace (radians 0) with 0 by (unfold radians; field).
  rewrite cos_0, sin_0. replace (radians (s_ra s - v_ra v)) with (radians (s_ra s) - radians (v_ra v)) by (unfold radians; field). rewrite cos_minus. ring.
Qed.
Definition at_ (i : Z) (ra dec mag : R) : star := {| s_id := i; s_ra := ra; s_dec := dec; s_mag := fun _ => mag |}.
Definition to (i : Z) (ra : R) : visit := {| v_id := i; v_ra := ra; v_dec := 0; v_rot := 0; v_m5 := 24 |}.
Lemma off_near : forall i j ra dec m, 0 <= dec <= 90 -> off_axis (to i ra) (at_ j ra dec m) = dec.
Proof.
  intros i j ra dec m D. rewrite off_equator by reflexivity. cbn [s_dec s_ra at_ to v_ra]. replace (ra - ra) with 0 by ring. replace (radians 0) with 0 by (unfold radians; field).
  assert (P := PI_RGT_0). rewrite cos_0, Rmult_1_r, acos_cos by (unfold radians; split; nra). unfold radians. field. lra.
Qed.
Lemma off_far : forall i j ra ra' dec m, 0 <= dec <= 90 -> ra' - ra = 180 \/ ra' - ra = - 180 -> off_axis (to i ra) (at_ j ra' dec m) = 180 - dec.
Proof.
  intros i j ra ra' dec m D E. rewrite off_equator by reflexivity. cbn [s_dec s_ra at_ to v_ra]. assert (P := PI_RGT_0).
  replace (cos (radians (ra' - ra))) with (-1).
  2:{ destruct E as [-> | ->]; [replace (radians 180) with PI by (unfold radians; field); symmetry; apply cos_PI|].
      replace (radians (-180)) with (- PI) by (unfold radians; field). rewrite cos_neg. symmetry. apply cos_PI. }
  replace (cos (radians dec) * -1) with (cos (PI - radians dec)).
  - rewrite acos_cos by (unfold radians; split; nra). unfold radians. field. lra.
  - rewrite cos_minus, cos_PI, sin_PI. ring.
Qed.
Lemma see : forall radius v s, 0 <= radius <= 180 -> off_axis v s <= radius -> in_ball radius v s = true.
Proof. intros radius v s R H. rewrite in_ball_field by exact R. unfold in_field. destruct (Rle_dec (off_axis v s) radius); [reflexivity|contradiction]. Qed.
Lemma not_see : forall radius v s, 0 <= radius <= 180 -> radius < off_axis v s -> in_ball radius v s = false.
Proof. intros radius v s R H. rewrite in_ball_field by exact R. unfold in_field. destruct (Rle_dec (off_axis v s) radius); [lra|reflexivity]. Qed.
Lemma tree_ok : forall l, l <> [] -> (forall s, In s l -> Rabs (s_ra s) <= 360 /\ Rabs (s_dec s) <= 360) -> build_tree l = Ok tt.
Proof.
  intros l N H. unfold build_tree. assert (P := PI_RGT_0).
  assert (A : forall x, Rabs x <= 360 -> ~ PI * 2 < Rabs (radians x)).
  { intros x X L. unfold radians in L. replace (x * PI / 180) with (x * (PI / 180)) in L by field. rewrite Rabs_mult, (Rabs_right (PI / 180)) in L by lra. nra. }
  match goal with |- (if existsb ?f l then _ else _) = _ => assert (F : existsb f l = false) end.
  { clear N. induction l as [|s l IH]; [reflexivity|]. cbn [existsb]. destruct (H s (or_introl eq_refl)) as [H1 H2].
    destruct (Rlt_dec (PI * 2) (Rabs (radians (s_ra s)))) as [X|_]; [destruct (A _ H1 X)|]. destruct (Rlt_dec (PI * 2) (Rabs (radians (s_dec s)))) as [X|_]; [destruct (A _ H2 X)|].
    apply IH. intros s' I. apply H. right. exact I. }
  rewrite F. destruct l; [destruct (N eq_refl)|reflexivity].
Qed.
(** north of the centre by dec *)
Lemma patch_north : forall i j ra dec m p, 0 <= dec < 90 -> (tan (radians dec) + half) / (2 * half) * 4 = p ->
  f_patch (assign_patch gnomonic (to i ra) 16 1.8 (at_ j ra dec m)) = (trunc (2 + IZR (floor p) * 4) + i * 16)%Z.
Proof.
  intros i j ra dec m p D E. unfold assign_patch. rewrite project_focal, maxy_half. destruct half_pos as [HP _].
  assert (F : focal (to i ra) (at_ j ra dec m) = (0, tan (radians dec))).
  { unfold focal, gnomonic, tan. cbv zeta. cbn [s_ra s_dec at_ to v_ra v_dec v_rot fst snd].
    replace (ra * PI / 180 - ra * PI / 180) with 0 by ring. replace (0 * PI / 180) with 0 by field. rewrite sin_0, cos_0. fold (radians dec).
    f_equal; [unfold Rdiv; ring|]. unfold Rdiv. replace (0 * sin (radians dec) + 1 * cos (radians dec) * 1) with (cos (radians dec)) by ring. ring. }
  rewrite F. replace (sqrt (IZR 16)) with 4 by (symmetry; rewrite <- (sqrt_square 4) by lra; f_equal; lra).
  replace ((0 + half) / (2 * half) * 4) with (IZR 2) by (field; lra). rewrite E. cbn [f_patch v_id to].
  assert (X : floor (IZR 2) = 2%Z) by (apply int_part_eq; lra). rewrite X. reflexivity.
Qed.
Lemma tan_small : 0 < half <= 1 / 4.
Proof.
  destruct half_pos as [HP _]. split; [exact HP|]. assert (P := PI_RGT_0). set (a := 1.8 * PI / 180) in *.
  assert (C1 : 0 < cos a) by (apply cos_gt_0; unfold a; lra). assert (C2 : 0 < cos (2 * a)) by (apply cos_gt_0; unfold a; lra). assert (C4 : 0 < cos (2 * (2 * a))) by (apply cos_gt_0; unfold a; lra).
  assert (T : forall x, 0 < cos x -> 0 < cos (2 * x) -> tan (2 * x) * (1 - tan x * tan x) = 2 * tan x).
  { intros x X Y. assert (Z : cos (2 * x) = cos x * cos x - sin x * sin x) by apply cos_2a. assert (W : sin (2 * x) = 2 * sin x * cos x) by apply sin_2a.
    unfold tan. rewrite W. rewrite Z in *. field. split; lra. }
  assert (T1 := T a C1 C2). assert (T2 := T (2 * a) C2 C4).
  assert (L : tan (2 * (2 * a)) < 1) by (rewrite <- tan_PI4; apply tan_increasing; unfold a; lra).
  assert (G2 : 0 < tan (2 * a)) by (apply tan_gt_0; unfold a; lra). assert (G4 : 0 < tan (2 * (2 * a))) by (apply tan_gt_0; unfold a; lra).
  change half with (tan a) in *. nra.
Qed.
Lemma tan_36 : (tan (radians 3.6) + half) / (2 * half) * 4 = 2 + 4 / (1 - half * half).
Proof.
  destruct tan_small as [T0 T1]. assert (P := PI_RGT_0). destruct half_pos as [_ CP].
  assert (X : radians 3.6 = 2 * (1.8 * PI / 180)) by (unfold radians; lra). rewrite X. unfold half in *. set (a := 1.8 * PI / 180) in *.
  assert (C2 : 0 < cos (2 * a)) by (apply cos_gt_0; unfold a; lra).
  rewrite (tan_2a a); [|lra|lra|nra]. unfold Rdiv. set (t := tan a) in *. field. nra.
Qed.
Definition far_stars : list star := [at_ 1 0 3.6 20; at_ 2 180 0 20].
Theorem C244_radius_refuted : exists visits stars radius rows r r',
  generate_catalog gnomonic visits stars (Some []) "r" 16 radius 0 = Ok (Some rows) /\ NoDup (map v_id visits) /\ rows = [r; r'] /\
  filter (in_field radius (to 1 0)) stars = [at_ 1 0 3.6 20] /\ filter (in_field radius (to 2 180)) stars = [at_ 2 180 0 20] /\ visits = [to 1 0; to 2 180] /\
  r_id r = 1%Z /\ r_id r' = 2%Z /\ r_patch r = r_patch r'.
Proof.
  assert (S1 : in_ball 4 (to 1 0) (at_ 1 0 3.6 20) = true) by (apply see; [lra|rewrite off_near; lra]).
  assert (S2 : in_ball 4 (to 1 0) (at_ 2 180 0 20) = false) by (apply not_see; [lra|rewrite off_far by lra; lra]).
  assert (S3 : in_ball 4 (to 2 180) (at_ 1 0 3.6 20) = false) by (apply not_see; [lra|rewrite off_far by lra; lra]).
  assert (S4 : in_ball 4 (to 2 180) (at_ 2 180 0 20) = true) by (apply see; [lra|rewrite off_near; lra]).
  assert (P1 : f_patch (assign_patch gnomonic (to 1 0) 16 1.8 (at_ 1 0 3.6 20)) = 42%Z).
  { rewrite (patch_north 1 1 0 3.6 20 _ ltac:(lra) tan_36). destruct tan_small as [T0 T1].
    assert (F : floor (2 + 4 / (1 - half * half)) = 6%Z).
    { apply int_part_eq. assert (4 <= 4 / (1 - half * half) < 5); [|lra]. split; [apply (Rmult_le_reg_r (1 - half * half))|apply (Rmult_lt_reg_r (1 - half * half))]; try nra;
        unfold Rdiv; rewrite Rmult_assoc, Rinv_l by nra; nra. }
    rewrite F. replace (2 + 6 * 4) with (IZR 26) by lra. rewrite trunc_Z by lia. reflexivity. }
  assert (P2 : f_patch (assign_patch gnomonic (to 2 180) 16 1.8 (at_ 2 180 0 20)) = 42%Z).
  { destruct half_pos as [HP _]. rewrite (patch_north _ _ _ _ _ 2); [|lra|].
    - assert (F : floor 2 = 2%Z) by (apply int_part_eq; lra). rewrite F. replace (2 + 2 * 4) with (IZR 10) by lra. rewrite trunc_Z by lia. reflexivity.
    - replace (radians 0) with 0 by (unfold radians; field). rewrite tan_0. field. lra. }
  assert (E : exists r r', generate_catalog gnomonic [to 1 0; to 2 180] far_stars (Some []) "r" 16 4 0 = Ok (Some [r; r']) /\ r_id r = 1%Z /\ r_id r' = 2%Z /\ r_patch r = 42%Z /\ r_patch r' = 42%Z).
  { unfold generate_catalog. rewrite tree_ok; [|discriminate|].
    2:{ intros s [<-|[<-|[]]]; cbn [s_ra s_dec at_]; rewrite !Rabs_right by lra; lra. }
    unfold bind at 1, far_stars, observe. cbn [map filter]. rewrite S1, S2, S3, S4. cbn [map all_ok call_offsets add_all bind concat app combine].
    rewrite !assign_star, P1, P2. eexists. eexists. repeat split. }
  destruct E as [r [r' [E [I1 [I2 [Q1 Q2]]]]]].
  exists [to 1 0; to 2 180], far_stars, 4, [r; r'], r, r'. split; [exact E|]. split.
  { cbn. repeat constructor; cbn; intuition lia. }
  split; [reflexivity|]. unfold far_stars. cbn [filter]. rewrite <- !in_ball_field by lra. rewrite S1, S2, S3, S4. repeat split; try assumption. rewrite Q1, Q2. reflexivity.
Qed.
Print Assumptions C244_radius_refuted.
(** neither is a star at the very edge of the default field *)
Theorem C244_edge_refuted : exists s rows r, off_axis (to 1 0) s = 1.8 /\
  generate_catalog gnomonic [to 1 0] [s] (Some []) "r" 16 1.8 0 = Ok (Some rows) /\ In r rows /\ r_patch r = (2 * 16 + 2)%Z.
Proof.
  exists (at_ 1 0 1.8 20). destruct half_pos as [HP _]. assert (O : off_axis (to 1 0) (at_ 1 0 1.8 20) = 1.8) by (apply off_near; lra).
  assert (S1 : in_ball 1.8 (to 1 0) (at_ 1 0 1.8 20) = true) by (apply see; [lra|rewrite O; lra]).
  assert (P1 : f_patch (assign_patch gnomonic (to 1 0) 16 1.8 (at_ 1 0 1.8 20)) = 34%Z).
  { rewrite (patch_north _ _ _ _ _ 4); [|lra|].
    - assert (F : floor 4 = 4%Z) by (apply int_part_eq; lra). rewrite F. replace (2 + 4 * 4) with (IZR 18) by lra. rewrite trunc_Z by lia. reflexivity.
    - change (tan (radians 1.8)) with half. field. lra. }
  assert (E : exists r, generate_catalog gnomonic [to 1 0] [at_ 1 0 1.8 20] (Some []) "r" 16 1.8 0 = Ok (Some [r]) /\ r_patch r = 34%Z).
  { unfold generate_catalog. rewrite tree_ok; [|discriminate|].
    2:{ intros s [<-|[]]; cbn [s_ra s_dec at_]; rewrite !Rabs_right by lra; lra. }
    unfold bind at 1, observe. cbn [map filter]. rewrite S1. cbn [map all_ok call_offsets add_all bind concat app combine]. rewrite !assign_star, P1. eexists. repeat split. }
  destruct E as [r [E Q]]. exists [r], r. split; [exact O|]. split; [exact E|]. split; [left; reflexivity|exact Q].
Qed.
Print Assumptions C244_edge_refuted.

(** ** C245: the observed magnitude is the magnitude plus the offsets *)
Theorem C245_sum_partial : forall proj stars offs band n radius fl v rows, 0 <= radius <= 180 -> NoDup (map newkey offs) ->
  (forall o seen prev d, In o offs -> call o seen v prev = Ok d -> exists l, d = Plain l) ->
  generate_catalog proj [v] stars (Some offs) band n radius fl = Ok (Some rows) ->
  exists seen ds, map f_star seen = filter (in_field radius v) stars /\ called seen v offs [] ds /\
    forall j r, nth_error rows j = Some r -> r_obs r = r_mag r + total (map (fun d => nth j d 0) ds).
Proof.
  intros proj stars offs band n radius fl v rows R N P E. apply cat_one in E. destruct E as [_ E]. apply obs_sum in E; [|exact N|exact P].
  rewrite (filter_ext (in_field radius v) (in_ball radius v)) by (intros s; symmetry; apply in_ball_field; exact R). exact E.
Qed.
Print Assumptions C245_sum_partial.
(** in particular the systematic and the photon noise offsets are both added *)
Theorem C245_both : forall proj stars error_sys r1 lsst_filter r2 band n radius fl v rows, 0 <= radius <= 180 ->
  generate_catalog proj [v] stars (Some [offset_sys error_sys r1; offset_snr lsst_filter r2]) band n radius fl = Ok (Some rows) ->
  exists seen key d2, map f_star seen = filter (in_field radius v) stars /\
    call (offset_snr lsst_filter r2) seen v [(key, Plain (map (fun z => z * error_sys) (r1 (length seen))))] = Ok (Plain d2) /\
    forall j r, nth_error rows j = Some r -> r_obs r = r_mag r + (nth j (map (fun z => z * error_sys) (r1 (length seen))) 0 + nth j d2 0).
Proof.
  intros proj stars es r1 lf r2 band n radius fl v rows R E. apply C245_sum_partial in E; [|exact R| |].
  - destruct E as [seen [ds [S [C O]]]]. inversion C as [|? ? ? d1 ds1 C1 L1 C2]; subst.
    inversion C2 as [|? ? ? d2 ds2 C3 L2 C4]; subst. inversion C4; subst.
    cbn [call offset_sys] in C1. injection C1 as <-.
    exists seen, (newkey (offset_sys es r1)), d2. split; [exact S|]. split; [exact C3|].
    intros j r J. rewrite (O j r J). cbn [map total fold_right]. lra.
  - cbn; repeat constructor; cbn; intuition discriminate.
  - intros o seen prev d [<-|[<-|[]]] H; cbn [call offset_sys offset_snr] in H.
    + injection H as <-. eexists. reflexivity.
    + destruct (add_all _ prev); [|discriminate H]. cbn [bind] in H. injection H as <-. eexists. reflexivity.
Qed.
Print Assumptions C245_both.
(** of two systematic offsets only the last counts *)
Theorem C245_same_name_refuted : exists rows r,
  generate_catalog gnomonic [to 1 0] [at_ 1 0 0 20] (Some [offset_sys 1 (repeat 1); offset_sys 2 (repeat 1)]) "r" 16 1.8 0 = Ok (Some rows) /\ In r rows /\
  (forall seen v prev, call (offset_sys 1 (repeat 1)) seen v prev = Ok (Plain (repeat 1 (length seen)))) /\
  (forall seen v prev, call (offset_sys 2 (repeat 1)) seen v prev = Ok (Plain (repeat 2 (length seen)))) /\
  r_mag r = 20 /\ r_obs r = 22.
Proof.
  assert (S1 : in_ball 1.8 (to 1 0) (at_ 1 0 0 20) = true) by (apply see; [lra|rewrite off_near; lra]).
  assert (E : exists r, generate_catalog gnomonic [to 1 0] [at_ 1 0 0 20] (Some [offset_sys 1 (repeat 1); offset_sys 2 (repeat 1)]) "r" 16 1.8 0 = Ok (Some [r]) /\ r_mag r = 20 /\ r_obs r = 20 + 1 * 2).
  { unfold generate_catalog. rewrite tree_ok; [|discriminate|].
    2:{ intros s [<-|[]]; cbn [s_ra s_dec at_]; rewrite !Rabs_right by lra; lra. }
    unfold bind at 1, observe. cbn [map filter]. rewrite S1.
    cbn [map all_ok call_offsets call offset_sys newkey dset length repeat add_all add_array Nat.eqb add2 bind concat app combine]. rewrite !assign_star.
    change (String.eqb "dmag_sys" "dmag_sys") with true. cbn [add_all add_array bind length Nat.eqb add2 combine map concat app]. eexists. split; [reflexivity|]. split; [reflexivity|]. reflexivity. }
  destruct E as [r [E [M O]]]. exists [r], r. split; [exact E|]. split; [left; reflexivity|].
  assert (RP : forall c n, map (fun z => z * c) (repeat 1 n) = repeat c n) by (intros c; induction n as [|n IH]; [reflexivity|]; cbn [repeat map]; rewrite IH; f_equal; ring).
  split; [intros; cbn; rewrite RP; reflexivity|]. split; [intros; cbn; rewrite RP; reflexivity|]. split; [exact M|rewrite O; lra].
Qed.
Print Assumptions C245_same_name_refuted.
(** and the offset that should do nothing does not work *)
Theorem C245_no_offset_refuted : forall proj visits stars band n radius fl, visits <> [] -> build_tree stars = Ok tt ->
  generate_catalog proj visits stars (Some [no_offset]) band n radius fl = Err TypeError.
Proof.
  intros proj visits stars band n radius fl N T. unfold generate_catalog. rewrite T. destruct visits as [|v t]; [destruct (N eq_refl)|]. reflexivity.
Qed.
Print Assumptions C245_no_offset_refuted.

(** ** C246: the uncertainties *)
Theorem C246_uncertainty : forall proj stars offs band n radius fl v rows, 0 <= fl ->
  generate_catalog proj [v] stars (Some offs) band n radius fl = Ok (Some rows) ->
  forall r, In r rows -> fl <= r_unc r /\ error_at (r_obs r) (v_m5 v) <= r_unc r /\ r_unc r ^ 2 = error_at (r_obs r) (v_m5 v) ^ 2 + fl ^ 2 /\
    forall r', In r' rows -> r_obs r < r_obs r' -> r_unc r < r_unc r'.
Proof.
  intros proj stars offs band n radius fl v rows F E r I. apply cat_one in E. destruct E as [_ E]. assert (U := obs_unc _ _ _ _ _ _ _ _ _ r E I). rewrite U.
  assert (P := error_pos (r_obs r) (v_m5 v)). split; [apply quad_ge; exact F|]. split; [rewrite Rplus_comm; apply quad_ge; lra|]. split.
  - set (e := error_at (r_obs r) (v_m5 v)) in *. assert (A := Rle_0_sqr e). assert (B := Rle_0_sqr fl). unfold Rsqr in A, B.
    replace (sqrt (e ^ 2 + fl ^ 2) ^ 2) with (sqrt (e ^ 2 + fl ^ 2) * sqrt (e ^ 2 + fl ^ 2)) by ring. apply sqrt_sqrt. nra.
  - intros r' I' L. rewrite (obs_unc _ _ _ _ _ _ _ _ _ r' E I'). apply quad_mono; [lra|]. apply error_mono. lra.
Qed.
Print Assumptions C246_uncertainty.
(** a deeper visit gives a smaller error, and at the depth the error is that of a signal to noise of five *)
Theorem C246_depth : forall m m5 m5', m5 < m5' -> error_at m m5' < error_at m m5 /\ error_at m5 m5 = 2.5 * (ln (1 + / 5) / ln 10).
Proof.
  intros m m5 m5' L. split; [apply error_mono; lra|]. unfold error_at. replace (0.4 * (m5 - m5)) with 0 by ring. rewrite Rpower_O by lra. rewrite Rmult_1_r. reflexivity.
Qed.
Print Assumptions C246_depth.

(** ** C247: when there is a catalogue *)
Definition sound (offs : list offset) : Prop := forall o seen v prev, In o offs -> sized (length seen) prev ->
  exists l, call o seen v prev = Ok (Plain l) /\ length l = length seen.
Theorem C247_succeeds : forall proj visits stars offs band n radius fl, sound offs ->
  (exists rows, generate_catalog proj visits stars (Some offs) band n radius fl = Ok (Some rows)) <->
  visits <> [] /\ stars <> [] /\ forall s, In s stars -> Rabs (s_ra s) <= 360 /\ Rabs (s_dec s) <= 360.
Proof.
  intros proj visits stars offs band n radius fl SO. split.
  - intros [rows E]. apply cat_many in E. destruct E as [N [blocks [_ F]]]. split; [exact N|]. destruct F as [|v b vs bs V F]; [destruct (N eq_refl)|]. apply cat_one in V. destruct V as [T _].
    unfold build_tree in T. match type of T with (if existsb ?f _ then _ else _) = _ => destruct (existsb f stars) eqn:X; [discriminate T|]; set (g := f) in * end.
    split; [intros ->; discriminate T|]. intros s I.
    assert (GS : g s = false).
    { destruct (g s) eqn:G; [|reflexivity]. assert (Y : existsb g stars = true) by (apply existsb_exists; exists s; split; assumption). rewrite Y in X. discriminate X. }
    unfold g in GS. assert (P := PI_RGT_0).
    assert (A : forall x, ~ PI * 2 < Rabs (radians x) -> Rabs x <= 360).
    { intros x L. apply Rnot_lt_le in L. unfold radians in L. replace (x * PI / 180) with (x * (PI / 180)) in L by field. rewrite Rabs_mult, (Rabs_right (PI / 180)) in L by lra.
      apply (Rmult_le_reg_r (PI / 180)); [lra|]. lra. }
    destruct (Rlt_dec (PI * 2) (Rabs (radians (s_ra s)))) as [|A1]; [discriminate GS|]. destruct (Rlt_dec (PI * 2) (Rabs (radians (s_dec s)))) as [|A2]; [discriminate GS|].
    split; apply A; assumption.
  - intros [N [NS H]]. assert (T := tree_ok stars NS H).
    assert (O : forall v, exists b, observe proj stars offs band n radius fl v = Ok b).
    { intros v. unfold observe. set (seen := map (assign_patch proj v n 1.8) (filter (in_ball radius v) stars)).
      destruct (call_sized seen v offs []) as [out [C Z]]; [intros k d []|intros o prev I; apply SO; exact I|]. rewrite C. cbn [bind].
      destruct (add_all_sized out (map (fun f => s_mag (f_star f) band) seen)) as [m A]; [rewrite map_length; exact Z|]. rewrite A. cbn [bind]. eexists. reflexivity. }
    assert (B : exists blocks, Forall2 (fun v b => observe proj stars offs band n radius fl v = Ok b) visits blocks).
    { clear N. induction visits as [|v t [bs IH]]; [exists []; constructor|]. destruct (O v) as [b E]. exists (b :: bs). constructor; assumption. }
    destruct B as [blocks B]. exists (concat blocks). unfold generate_catalog. rewrite T. cbn [bind]. apply (proj2 (forall2_map_l (observe proj stars offs band n radius fl) (fun x y => x = Ok y) _ _)) in B. apply forall2_all_ok in B. rewrite B. cbn [bind].
    destruct blocks; [|reflexivity]. apply all_ok_forall2 in B. inversion B as [X|]. destruct visits; [destruct (N eq_refl)|discriminate X].
Qed.
Print Assumptions C247_succeeds.
Theorem C247_fails : forall proj visits stars offs band n radius fl, sound offs ->
  ~ (visits <> [] /\ stars <> [] /\ forall s, In s stars -> Rabs (s_ra s) <= 360 /\ Rabs (s_dec s) <= 360) ->
  generate_catalog proj visits stars (Some offs) band n radius fl = Err ValueError.
Proof.
  intros proj visits stars offs band n radius fl SO H. destruct (generate_catalog proj visits stars (Some offs) band n radius fl) as [[rows|]|e] eqn:E.
  - destruct H. apply (C247_succeeds proj visits stars offs band n radius fl SO). exists rows. exact E.
  - unfold generate_catalog in E. destruct (build_tree stars); [|discriminate E]. cbn [bind] in E. destruct (all_ok _) as [[|]|]; discriminate E.
  - unfold generate_catalog in E. destruct (build_tree stars) as [u|e'] eqn:T.
    + cbn [bind] in E.
      assert (O : forall v, exists b, observe proj stars offs band n radius fl v = Ok b).
      { intros v. unfold observe. set (seen := map (assign_patch proj v n 1.8) (filter (in_ball radius v) stars)).
        destruct (call_sized seen v offs []) as [out [C Z]]; [intros k d []|intros o prev I; apply SO; exact I|]. rewrite C. cbn [bind].
        destruct (add_all_sized out (map (fun f => s_mag (f_star f) band) seen)) as [m A]; [rewrite map_length; exact Z|]. rewrite A. cbn [bind]. eexists. reflexivity. }
      assert (B : exists blocks, Forall2 (fun v b => observe proj stars offs band n radius fl v = Ok b) visits blocks).
      { clear H E. induction visits as [|v t [bs IH]]; [exists []; constructor|]. destruct (O v) as [b E]. exists (b :: bs). constructor; assumption. }
      destruct B as [blocks B]. apply (proj2 (forall2_map_l (observe proj stars offs band n radius fl) (fun x y => x = Ok y) _ _)) in B. apply forall2_all_ok in B. rewrite B in E. cbn [bind] in E. destruct blocks; [injection E as <-; reflexivity|discriminate E].
    + cbn [bind] in E. injection E as <-. unfold build_tree in T.
      match type of T with (if existsb ?f _ then _ else _) = _ => destruct (existsb f stars); [injection T as <-; reflexivity|] end. destruct stars; [injection T as <-; reflexivity|discriminate T].
Qed.
Print Assumptions C247_fails.
(** OffsetSys and OffsetSNR are such offsets *)
Theorem C247_sound : forall e band randn randn', (forall n, length (randn n) = n) -> (forall n, length (randn' n) = n) -> sound [offset_sys e randn; offset_snr band randn'].
Proof.
  intros e band randn randn' L L' o seen v prev [<-|[<-|[]]] Z; cbn [call offset_sys offset_snr].
  - exists (map (fun z => z * e) (randn (length seen))). split; [reflexivity|]. rewrite map_length. apply L.
  - destruct (add_all_sized prev (map (fun f => s_mag (f_star f) band) seen)) as [m A]; [rewrite map_length; exact Z|]. rewrite A. cbn [bind]. eexists. split; [reflexivity|].
    apply add_all_length in A. rewrite map_length in A. unfold mul2. rewrite map_length, combine_length, map_length, L', Nat.min_id. exact A.
Qed.
Print Assumptions C247_sound.

(** a star at the centre and one on the other side of the sky, with both offsets *)
Example C247_case : exists rows, generate_catalog gnomonic [to 1 0] [at_ 1 0 0 20; at_ 2 180 0 21] (Some [offset_sys 1 (repeat 1); offset_snr "r" (repeat 1)]) "r" 16 1 0.01 = Ok (Some rows).
Proof.
  apply C247_succeeds; [apply C247_sound; intros n; apply repeat_length|]. split; [discriminate|]. split; [discriminate|].
  intros s [<-|[<-|[]]]; cbn [s_ra s_dec at_]; rewrite !Rabs_right by lra; lra.
Qed.
Example C243_case : filter (in_field 1 (to 1 0)) [at_ 1 0 0 20; at_ 2 180 0 21] = [at_ 1 0 0 20].
Proof. cbn [filter]. rewrite <- !in_ball_field by lra. rewrite see by (rewrite ?off_near; lra). rewrite not_see by (rewrite ?off_far by lra; lra). reflexivity. Qed.
Example C244_case : forall s, In s [at_ 1 0 0 20; at_ 2 180 0 21] -> off_axis (to 1 0) s <= 1 -> off_axis (to 1 0) s < 1.8.
Proof. intros s _. lra. Qed.
Example C245_case : NoDup (map newkey [offset_sys 1 (repeat 1); offset_snr "r" (repeat 1)]) /\
  forall v o seen prev d, In o [offset_sys 1 (repeat 1); offset_snr "r" (repeat 1)] -> call o seen v prev = Ok d -> exists l, d = Plain l.
Proof.
  split; [cbn; repeat constructor; cbn; intuition discriminate|]. intros v o seen prev d [<-|[<-|[]]] E; cbn [call offset_sys offset_snr] in E.
  - injection E as <-. eexists. reflexivity.
  - destruct (add_all _ prev); [|discriminate E]. cbn [bind] in E. injection E as <-. eexists. reflexivity.
Qed.
Example C246_case : 0 <= 0.01. Proof. lra. Qed.
