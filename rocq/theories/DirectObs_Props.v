(** C225-C228: trailing losses and footprints. *)
From Coq Require Import Reals Lra Lia Sorted.
From Verif Require Import Base Orbits_Model OrbitsIO_Model DirectObs_Model DirectObs_Spec DirectObs_Proofs DirectObs_Proofs2 DirectObs_Proofs3.
Open Scope R_scope.

(** * C225: trailing losses *)
(** an object that does not move loses nothing *)
Theorem C225_rest : forall seeing texp, 0 < seeing -> dmag_trail 0 seeing texp = 0 /\ dmag_detect 0 seeing texp = 0.
Proof. intros s t H. rewrite trail_is_loss, detect_is_loss. split; apply loss_rest; lra. Qed.
Print Assumptions C225_rest.
(** losses are never negative *)
Theorem C225_nonnegative : forall velocity seeing texp, 0 <= velocity -> 0 < seeing -> 0 <= texp ->
  0 <= dmag_trail velocity seeing texp /\ 0 <= dmag_detect velocity seeing texp.
Proof. intros v s t Hv Hs Ht. rewrite trail_is_loss, detect_is_loss. split; apply loss_nonneg; lra. Qed.
Print Assumptions C225_nonnegative.
(** faster objects and longer exposures lose more, worse seeing makes losses smaller *)
Theorem C225_grows : forall f, f = dmag_trail \/ f = dmag_detect ->
  forall velocity seeing texp, 0 <= velocity -> 0 < seeing -> 0 <= texp ->
  (forall velocity', velocity < velocity' -> 0 < texp -> f velocity seeing texp < f velocity' seeing texp) /\
  (forall texp', texp < texp' -> 0 < velocity -> f velocity seeing texp < f velocity seeing texp') /\
  (forall seeing', seeing < seeing' -> 0 < velocity -> 0 < texp -> f velocity seeing' texp < f velocity seeing texp).
Proof.
  intros f F v s t Hv Hs Ht.
  assert (X : exists a b, 0 < a /\ 0 <= b /\ forall v s t, f v s t = loss a b v s t).
  { destruct F as [-> | ->]; [exists 0.761, 1.162 | exists 0.420, 0.003]; (split; [lra|]); (split; [lra|]); intros; [apply trail_is_loss | apply detect_is_loss]. }
  destruct X as [a [b [Ha [Hb E]]]]. pose proof (Rinv_0_lt_compat s Hs) as Hi.
  assert (DIV : forall p q r, 0 < r -> p < q -> p / r / 24 < q / r / 24).
  { intros p q r Hr Hpq. unfold Rdiv. apply Rmult_lt_compat_r; [lra|]. apply Rmult_lt_compat_r; [apply Rinv_0_lt_compat; assumption | assumption]. }
  repeat split.
  - intros v' L Lt. rewrite !E. apply loss_lt; try assumption; [apply x_nonneg; assumption|]. apply DIV; [assumption|]. apply Rmult_lt_compat_r; assumption.
  - intros t' L Lv. rewrite !E. apply loss_lt; try assumption; [apply x_nonneg; assumption|]. apply DIV; [assumption|]. apply Rmult_lt_compat_l; assumption.
  - intros s' L Lv Lt. rewrite !E. apply loss_lt; try assumption; [apply x_nonneg; lra|]. unfold Rdiv. apply Rmult_lt_compat_r; [lra|].
    apply Rmult_lt_compat_l; [apply Rmult_lt_0_compat; assumption|]. apply Rinv_lt_contravar; [|assumption]. apply Rmult_lt_0_compat; lra.
Qed.
Print Assumptions C225_grows.
(** an object of 0.25 degrees a day, seeing of 0.7 arcseconds, 30 seconds *)
Example C225_case : 0 < dmag_trail 0.25 0.7 30 /\ dmag_trail 0.25 0.7 30 < dmag_trail 0.5 0.7 30.
Proof.
  destruct (C225_grows dmag_trail (or_introl eq_refl) 0 0.7 30 ltac:(lra) ltac:(lra) ltac:(lra)) as [G _].
  destruct (C225_grows dmag_trail (or_introl eq_refl) 0.25 0.7 30 ltac:(lra) ltac:(lra) ltac:(lra)) as [G' _].
  destruct (C225_rest 0.7 30 ltac:(lra)) as [Z _]. split.
  - rewrite <- Z. apply G; lra.
  - apply G'; lra.
Qed.

(** * C226: detection is affected more than signal to noise *)
(** the loss at detection is at least the loss of signal to noise exactly if the object does not move, or the trail is long enough *)
Theorem C226_slow_partial : forall velocity seeing texp, 0 <= velocity -> 0 < seeing -> 0 <= texp ->
  (dmag_trail velocity seeing texp <= dmag_detect velocity seeing texp <->
   velocity * texp = 0 \/ 0.341 <= 0.485757 * (velocity * texp / (24 * seeing))).
Proof.
  intros v s t Hv Hs Ht. rewrite trail_is_loss, detect_is_loss, !loss_bump.
  pose proof (x_nonneg v s t Hv Hs Ht) as X.
  rewrite log_le_iff by (apply bump_nonneg; lra).
  replace (v * t / (24 * s)) with (v * t / s / 24) by (field; lra).
  destruct X as [X | X].
  - rewrite bump_cmp by assumption. split; [intro; right; assumption|]. intros [Z | Z]; [|assumption]. exfalso.
    rewrite Z in X. replace (0 / s / 24) with 0 in X by (field; lra). lra.
  - rewrite <- X, !bump_0. split; [|intros; lra]. intros _. left.
    assert (E : v * t / s / 24 * (24 * s) = v * t) by (field; lra). rewrite <- X in E. lra.
Qed.
Print Assumptions C226_slow_partial.
(** an asteroid of the main belt, 0.25 degrees a day, loses more signal to noise than at detection *)
Theorem C226_greater_refuted : ~ (forall velocity seeing texp, 0 < velocity -> 0 < seeing -> 0 < texp ->
  dmag_trail velocity seeing texp <= dmag_detect velocity seeing texp).
Proof.
  intro H. specialize (H 0.25 1 30 ltac:(lra) ltac:(lra) ltac:(lra)).
  apply C226_slow_partial in H; [|lra|lra|lra]. destruct H as [H | H]; [lra|].
  rewrite Rmult_1_r in H. lra.
Qed.
Print Assumptions C226_greater_refuted.
(** an object of one degree a day meets the condition *)
Example C226_case : dmag_trail 1 1 30 <= dmag_detect 1 1 30.
Proof. refine (proj2 (C226_slow_partial 1 1 30 _ _ _) _); [lra | lra | lra | right; rewrite Rmult_1_r; lra]. Qed.

(** * C227: circular and camera footprints *)
Theorem C227_exact : forall sep camera s l, s_footprint s <> "rectangle"%string ->
  let r := sso_in_fov sep camera s l in
  StronglySorted lt (fst r) /\
  (forall k, In k (fst r) <-> exists p v, nth_error l k = Some (p, v) /\ seen sep camera s p v).
Proof.
  intros sep camera s l NR. cbv zeta. rewrite in_fov_eq. cbn [fst].
  assert (W : where_ (fun q => fov sep camera s (fst q) (snd q)) l =
              filter (fun k => match nth_error l k with Some q => fov sep camera s (fst q) (snd q) | None => false end) (seq 0 (length l))).
  { destruct l as [|d l]; [reflexivity|]. rewrite <- (nth_seq_id d (d :: l)) at 1. rewrite where_seq. apply filter_ext_in. intros k I.
    apply in_seq in I. rewrite (nth_error_nth' (d :: l) d) by lia. reflexivity. }
  rewrite W. split; [apply filter_sorted, seq_sorted|]. intro k. rewrite filter_In, in_seq. split.
  - intros [_ H]. destruct (nth_error l k) as [[p v]|]; [|discriminate]. exists p, v. split; [reflexivity|].
    apply fov_sound; [intro; contradiction | exact H].
  - intros [p [v [E H]]]. split.
    + assert (k < length l)%nat by (apply nth_error_Some; congruence). lia.
    + rewrite E. cbn [fst snd]. apply fov_complete; [intro; contradiction | exact H].
Qed.
Print Assumptions C227_exact.
(** visits in radians and in degrees are treated alike *)
Theorem C227_units : forall sep camera s l, s_footprint s <> "rectangle"%string -> s_degrees s = false ->
  let deg s := {| s_footprint := s_footprint s; s_r_fov := s_r_fov s; s_x_tol := s_x_tol s; s_y_tol := s_y_tol s; s_mode := s_mode s;
                  s_prelim := s_prelim s; s_type := s_type s; s_degrees := true; s_tstep := s_tstep s; s_rough_tol := s_rough_tol s; s_pre_tol := s_pre_tol s |} in
  let conv v := {| v_id := v_id v; v_time := v_time v; v_ra := v_ra v * 180 / PI; v_dec := v_dec v * 180 / PI; v_rot := v_rot v * 180 / PI;
                   v_seeing := v_seeing v; v_exp := v_exp v; v_m5 := v_m5 v; v_night := v_night v; v_band := v_band v |} in
  fst (sso_in_fov sep camera s l) = fst (sso_in_fov sep camera (deg s) (map (fun q => (fst q, conv (snd q))) l)).
Proof.
  intros sep camera s l NR D deg conv. rewrite !in_fov_eq. cbn [fst].
  assert (F : forall q, fov sep camera s (fst q) (snd q) = fov sep camera (deg s) (fst q) (conv (snd q))).
  { intros [p v]. unfold fov, in_camera, in_circle, deg. cbn [s_footprint s_degrees s_r_fov negb]. rewrite D. cbn [negb].
    destruct (String.eqb (s_footprint s) "camera"); [reflexivity|].
    apply String.eqb_neq in NR. rewrite NR. reflexivity. }
  unfold where_. rewrite map_length. generalize 0%nat. induction l as [|q l IH]; intro a; [reflexivity|].
  cbn [length seq combine map filter snd fst]. rewrite <- F. destruct (fov sep camera s (fst q) (snd q)); cbn [map fst]; rewrite IH; reflexivity.
Qed.
Print Assumptions C227_units.
(** names of footprints may be written in any case; an unknown one is replaced by the circle *)
Theorem C227_unknown : forall sep camera s l, s_footprint s <> "rectangle"%string -> s_footprint s <> "camera"%string ->
  s_footprint (snd (sso_in_fov sep camera s l)) = "circle"%string.
Proof.
  intros sep camera s l A B. unfold sso_in_fov. apply String.eqb_neq in A, B. rewrite A, B.
  destruct (String.eqb (s_footprint s) "circle") eqn:C; [apply String.eqb_eq in C; exact C | reflexivity].
Qed.
Print Assumptions C227_unknown.
(** settings and visits of the examples *)
Definition ex_settings (f : string) : settings :=
  {| s_footprint := f; s_r_fov := 1.75; s_x_tol := 5; s_y_tol := 3; s_mode := "nbody"; s_prelim := "2body"; s_type := "basic"; s_degrees := true;
     s_tstep := 1; s_rough_tol := 10; s_pre_tol := 2.08 |}.
Definition ex_visit (t ra : R) : visit :=
  {| v_id := 7; v_time := t; v_ra := ra; v_dec := 0; v_rot := 0; v_seeing := 0.7; v_exp := 30; v_m5 := 24; v_night := 1; v_band := "r" |}.
Lemma circle_0 : forall a b, 0 <= a - b <= 180 -> great_circle a 0 b 0 = a - b.
Proof.
  intros a b H. unfold great_circle. cbv zeta. replace (0 * PI / 180) with 0 by field. rewrite sin_0, cos_0.
  replace (0 * 0 + 1 * 1 * cos (a * PI / 180 - b * PI / 180)) with (cos ((a - b) * (PI / 180))).
  - pose proof PI_RGT_0. rewrite acos_cos; [field; lra|]. split; [apply Rmult_le_pos; lra|].
    assert ((a - b) * (PI / 180) <= 180 * (PI / 180)) by (apply Rmult_le_compat_r; lra). lra.
  - replace (a * PI / 180 - b * PI / 180) with ((a - b) * (PI / 180)) by field. ring.
Qed.
(** one position in the circle and one outside *)
Example C227_case : fst (sso_in_fov great_circle (fun _ _ _ _ _ => false) (ex_settings "circle") [((1, 0), ex_visit 0 0); ((4, 0), ex_visit 0 0)]) = [0%nat].
Proof.
  rewrite in_fov_eq. unfold where_. cbn [fst length seq combine filter snd].
  assert (A : forall p, fov great_circle (fun _ _ _ _ _ => false) (ex_settings "circle") p (ex_visit 0 0) = leb (great_circle (fst p) (snd p) 0 0) 1.75) by reflexivity.
  rewrite !A. cbn [fst snd]. rewrite !circle_0 by lra. unfold leb.
  destruct (Rle_dec (1 - 0) 1.75); [|lra]. destruct (Rle_dec (4 - 0) 1.75); [lra|]. reflexivity.
Qed.

(** * C228: rectangular footprints *)
(** visits in degrees, right ascensions that do not differ by more than 180 degrees *)
Theorem C228_plain_partial : forall s p v, s_degrees s = true -> Rabs (fst p - v_ra v) <= 180 ->
  (in_rectangle s p v = true <-> inside_rectangle s p v).
Proof. intros s p v D W. split; [apply rectangle_sound | apply rectangle_complete]; assumption. Qed.
Print Assumptions C228_plain_partial.
(** on the other side of right ascension 0 objects are lost: a position at 359.5 and a visit at 0.5 degrees *)
Theorem C228_wrap_refuted : ~ (forall s p v, s_degrees s = true -> 0 <= fst p < 360 -> 0 <= v_ra v < 360 -> inside_rectangle s p v -> in_rectangle s p v = true).
Proof.
  intro H. specialize (H (ex_settings "rectangle") (359.5, 0) (ex_visit 0 0.5) eq_refl ltac:(cbn; lra) ltac:(cbn; lra)).
  assert (C : cos (0 * PI / 180) = 1) by (replace (0 * PI / 180) with 0 by field; apply cos_0).
  assert (I : inside_rectangle (ex_settings "rectangle") (359.5, 0) (ex_visit 0 0.5)).
  { unfold inside_rectangle. cbn [pointing ex_settings s_degrees fst snd v_ra v_dec ex_visit s_x_tol s_y_tol]. split.
    - rewrite Rminus_0_r, Rabs_R0. lra.
    - exists 1%Z. rewrite C. replace ((359.5 - 0.5 - 360 * 1) * 1) with (-1) by lra. rewrite Rabs_left by lra. lra. }
  specialize (H I). apply rectangle_iff in H; [|reflexivity]. destruct H as [_ H].
  cbn [fst snd v_ra v_dec ex_visit ex_settings s_x_tol] in H. rewrite C in H. replace ((359.5 - 0.5) * 1) with 359 in H by lra.
  rewrite Rabs_right in H by lra. lra.
Qed.
Print Assumptions C228_wrap_refuted.
(** visits in radians are not converted: the position is 89 degrees away from the visit, at right ascension pi/2 = 90 degrees *)
Theorem C228_radians_refuted : ~ (forall s p v, s_degrees s = false -> in_rectangle s p v = true -> inside_rectangle s p v).
Proof.
  intro H.
  set (s := {| s_footprint := "rectangle"; s_r_fov := 1.75; s_x_tol := 5; s_y_tol := 3; s_mode := "nbody"; s_prelim := "2body"; s_type := "basic"; s_degrees := false;
     s_tstep := 1; s_rough_tol := 10; s_pre_tol := 2.08 |}).
  set (v := ex_visit 0 (PI / 2)).
  assert (C : cos (0 * PI / 180) = 1) by (replace (0 * PI / 180) with 0 by field; apply cos_0).
  pose proof PI_RGT_0 as P0. pose proof PI_4 as P4. pose proof PI2_1 as P1.
  specialize (H s (1, 0) v eq_refl).
  assert (I : in_rectangle s (1, 0) v = true).
  { unfold in_rectangle, to_radians. cbn [fst snd v v_ra v_dec ex_visit s s_x_tol s_y_tol]. rewrite C. apply andb_true_iff. rewrite !leb_iff. split.
    - rewrite Rminus_0_r, Rabs_R0. lra.
    - rewrite Rmult_1_r. rewrite Rabs_left by lra. lra. }
  specialize (H I). unfold inside_rectangle in H. cbn [pointing s s_degrees fst snd v v_ra v_dec ex_visit s_x_tol] in H. destruct H as [_ [k H]].
  replace (PI / 2 * 180 / PI) with 90 in H by (field; lra). replace (0 * 180 / PI) with 0 in H by (field; lra). rewrite C in H.
  replace ((1 - 90 - 360 * IZR k) * 1) with (- 89 - 360 * IZR k) in H by lra.
  destruct (Z_lt_le_dec k 0) as [L | L].
  - assert (IZR k <= -1) by (apply (IZR_le k (-1)); lia). rewrite Rabs_right in H by lra. lra.
  - assert (0 <= IZR k) by (apply (IZR_le 0 k); lia). rewrite Rabs_left in H by lra. lra.
Qed.
Print Assumptions C228_radians_refuted.
(** a position four degrees east of a visit *)
Example C228_case : in_rectangle (ex_settings "rectangle") (14, 0) (ex_visit 0 10) = true.
Proof.
  apply rectangle_iff; [reflexivity|]. cbn [fst snd v_ra v_dec ex_visit ex_settings s_x_tol s_y_tol].
  replace (0 * PI / 180) with 0 by field. rewrite cos_0, Rminus_0_r, Rabs_R0. split; [lra|]. replace ((14 - 10) * 1) with 4 by lra. rewrite Rabs_right by lra. lra.
Qed.
