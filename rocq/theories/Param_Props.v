(** C320 altitude and azimuth; C321 coordinate columns. *)
From Coq Require Import String Ascii Reals ZArith List Bool Lia Lra.
From Verif Require Import Base Depth_Model Depth_Proofs Template_Model Sky_Spec Sky_Proofs Param_Model Param_Spec.
From Verif Require Sky_Model Maps_Proofs.
Import ListNotations.
Open Scope R_scope.

Lemma clip_id : forall x, -1 <= x <= 1 -> clip x = x.
Proof.
  intros x [A B]. unfold clip.
  destruct (rltb x (-1)) eqn:E; [apply rltb_true in E; lra|].
  destruct (rltb 1 x) eqn:F; [apply rltb_true in F; lra|]. reflexivity.
Qed.

Lemma square_le_one : forall x, x * x <= 1 -> -1 <= x <= 1.
Proof. intros x H. split; nra. Qed.

Lemma sc2 : forall x, sin x * sin x + cos x * cos x = 1.
Proof. intros x. pose proof (sin2_cos2 x) as H. unfold Rsqr in H. exact H. Qed.

(** the unit vector in the horizontal frame has length one *)
Lemma horizon_norm : forall h d l,
  (sin d * sin l + cos d * cos l * cos h) * (sin d * sin l + cos d * cos l * cos h)
  + (sin d * cos l - cos d * sin l * cos h) * (sin d * cos l - cos d * sin l * cos h)
  + (cos d * sin h) * (cos d * sin h) = 1.
Proof.
  intros h d l. pose proof (sc2 h) as H. pose proof (sc2 d) as D. pose proof (sc2 l) as L.
  set (sh := sin h) in *. set (ch := cos h) in *. set (sd := sin d) in *. set (cd := cos d) in *. set (sl := sin l) in *. set (cl := cos l) in *.
  replace ((sd * sl + cd * cl * ch) * (sd * sl + cd * cl * ch) + (sd * cl - cd * sl * ch) * (sd * cl - cd * sl * ch) + cd * sh * (cd * sh))
    with ((sl * sl + cl * cl) * (sd * sd) + (sl * sl + cl * cl) * (cd * cd) * (ch * ch) + cd * cd * (sh * sh)) by ring.
  rewrite L. replace (1 * (sd * sd) + 1 * (cd * cd) * (ch * ch) + cd * cd * (sh * sh)) with (sd * sd + cd * cd * (sh * sh + ch * ch)) by ring.
  rewrite H. lra.
Qed.

Lemma sin_alt_range : forall h d l, -1 <= sin d * sin l + cos d * cos l * cos h <= 1.
Proof.
  intros h d l. apply square_le_one. pose proof (horizon_norm h d l) as N.
  pose proof (Rle_0_sqr (sin d * cos l - cos d * sin l * cos h)) as A. pose proof (Rle_0_sqr (cos d * sin h)) as B. unfold Rsqr in *. lra.
Qed.

(** ** C320: the altitude is the true one for every position, site and time: the clipping never changes anything *)
Theorem C320_altitude : forall altonly lmst ra dec lat, Altitude (lmst / 12 * PI - ra) dec lat (fst (alt_az altonly lmst ra dec lat)).
Proof.
  intros altonly lmst ra dec lat. unfold alt_az, Altitude. cbv zeta. cbn [fst].
  set (h := lmst / 12 * PI - ra). pose proof (sin_alt_range h dec lat) as R1.
  rewrite (clip_id _ R1). split; [|apply sin_asin; exact R1].
  pose proof (asin_bound (sin dec * sin lat + cos dec * cos lat * cos h)). lra.
Qed.
Print Assumptions C320_altitude.

(** the azimuth as well, wherever it is defined: not at a pole and not at the zenith or nadir *)
Theorem C320_azimuth : forall lmst ra dec lat,
  let ha := lmst / 12 * PI - ra in
  let alt := fst (alt_az false lmst ra dec lat) in
  - PI / 2 <= dec <= PI / 2 -> - PI / 2 < lat < PI / 2 -> cos alt <> 0 ->
  exists az, snd (alt_az false lmst ra dec lat) = Some az /\ Azimuth ha dec lat alt az.
Proof.
  intros lmst ra dec lat ha alt HD HL HA.
  pose proof (C320_altitude false lmst ra dec lat) as [AB AS]. fold alt ha in AB, AS.
  assert (CL : 0 < cos lat) by (apply cos_gt_0; lra).
  assert (CD : 0 <= cos dec) by (apply cos_ge_0; lra).
  assert (CA : 0 < cos alt) by (pose proof (cos_ge_0 alt ltac:(lra) ltac:(lra)); lra).
  unfold alt_az. cbv zeta. cbn [snd]. fold ha.
  change (asin (clip (sin dec * sin lat + cos dec * cos lat * cos ha))) with alt.
  set (N := sin dec * cos lat - cos dec * sin lat * cos ha).
  assert (NN : sin dec - sin alt * sin lat = cos lat * N).
  { rewrite AS. unfold N. pose proof (sc2 lat) as L.
    replace (sin dec) with (sin dec * (sin lat * sin lat + cos lat * cos lat)) at 1 by (rewrite L; ring). ring. }
  assert (Q : (sin dec - sin alt * sin lat) / (cos alt * cos lat) = N / cos alt) by (rewrite NN; field; lra).
  rewrite Q.
  assert (C2 : cos alt * cos alt = N * N + (cos dec * sin ha) * (cos dec * sin ha)).
  { pose proof (sc2 alt) as S. rewrite AS in S. pose proof (horizon_norm ha dec lat) as H. fold N in H. lra. }
  set (c := N / cos alt).
  assert (CN : cos alt * c = N) by (unfold c; field; lra).
  assert (C1 : c * c <= 1).
  { assert (X : (cos alt * cos alt) * (c * c) <= (cos alt * cos alt) * 1).
    { replace (cos alt * cos alt * (c * c)) with ((cos alt * c) * (cos alt * c)) by ring. rewrite CN.
      pose proof (Rle_0_sqr (cos dec * sin ha)) as P. unfold Rsqr in P. lra. }
    apply Rmult_le_reg_l in X; [exact X|nra]. }
  pose proof (square_le_one c C1) as CR. rewrite (clip_id c CR).
  assert (SN : cos alt * sin (acos c) = Rabs (cos dec * sin ha)).
  { rewrite sin_acos by exact CR. rewrite <- (sqrt_Rsqr_abs (cos dec * sin ha)).
    rewrite <- (sqrt_square (cos alt)) at 1 by lra. rewrite <- sqrt_mult_alt by nra. f_equal. unfold Rsqr.
    replace (cos alt * cos alt * (1 - c * c)) with (cos alt * cos alt - (cos alt * c) * (cos alt * c)) by ring. rewrite CN. lra. }
  pose proof (acos_bound c) as AC.
  eexists. split; [reflexivity|]. unfold Azimuth. fold N.
  destruct (rltb 0 (sin ha)) eqn:E.
  - apply rltb_true in E. split; [lra|].
    assert (A1 : cos (2 * PI - acos c) = cos (acos c)).
    { rewrite cos_minus. rewrite cos_2PI, sin_2PI. ring. }
    assert (A2 : sin (2 * PI - acos c) = - sin (acos c)).
    { rewrite sin_minus. rewrite cos_2PI, sin_2PI. ring. }
    rewrite A1, A2. split; [rewrite cos_acos by exact CR; exact CN|].
    replace (cos alt * - sin (acos c)) with (- (cos alt * sin (acos c))) by ring. rewrite SN.
    rewrite Rabs_right; [reflexivity|]. apply Rle_ge. apply Rmult_le_pos; lra.
  - apply rltb_false in E. split; [lra|]. split; [rewrite cos_acos by exact CR; exact CN|].
    rewrite SN. rewrite Rabs_left1; [reflexivity|]. nra.
Qed.
Print Assumptions C320_azimuth.

(** asking for the altitude only gives the same altitude and no azimuth *)
Theorem C320_altonly : forall lmst ra dec lat,
  fst (alt_az true lmst ra dec lat) = fst (alt_az false lmst ra dec lat) /\ snd (alt_az true lmst ra dec lat) = None.
Proof. intros. split; reflexivity. Qed.
Print Assumptions C320_altonly.

(** a direction is determined: two directions with the same altitude and azimuth have the same declination (and the hour angle
    components agree) *)
Theorem C320_determined : forall lat h1 d1 h2 d2 alt az,
  Altitude h1 d1 lat alt -> Azimuth h1 d1 lat alt az -> Altitude h2 d2 lat alt -> Azimuth h2 d2 lat alt az ->
  sin d1 = sin d2 /\ cos d1 * cos h1 = cos d2 * cos h2 /\ cos d1 * sin h1 = cos d2 * sin h2.
Proof.
  intros lat h1 d1 h2 d2 alt az [_ A1] (_ & B1 & C1) [_ A2] (_ & B2 & C2). pose proof (sc2 lat) as L.
  assert (X : sin d1 * sin lat + cos d1 * cos lat * cos h1 = sin d2 * sin lat + cos d2 * cos lat * cos h2) by lra.
  assert (Y : sin d1 * cos lat - cos d1 * sin lat * cos h1 = sin d2 * cos lat - cos d2 * sin lat * cos h2) by lra.
  split; [|split; [|lra]].
  - replace (sin d1) with (sin d1 * (sin lat * sin lat + cos lat * cos lat)) by (rewrite L; ring).
    replace (sin d2) with (sin d2 * (sin lat * sin lat + cos lat * cos lat)) by (rewrite L; ring).
    replace (sin d1 * (sin lat * sin lat + cos lat * cos lat))
      with (sin lat * (sin d1 * sin lat + cos d1 * cos lat * cos h1) + cos lat * (sin d1 * cos lat - cos d1 * sin lat * cos h1)) by ring.
    rewrite X, Y. ring.
  - replace (cos d1 * cos h1) with (cos d1 * cos h1 * (sin lat * sin lat + cos lat * cos lat)) by (rewrite L; ring).
    replace (cos d2 * cos h2) with (cos d2 * cos h2 * (sin lat * sin lat + cos lat * cos lat)) by (rewrite L; ring).
    replace (cos d1 * cos h1 * (sin lat * sin lat + cos lat * cos lat))
      with (cos lat * (sin d1 * sin lat + cos d1 * cos lat * cos h1) - sin lat * (sin d1 * cos lat - cos d1 * sin lat * cos h1)) by ring.
    rewrite X, Y. ring.
Qed.
Print Assumptions C320_determined.

(** on the meridian at the equator: a source at declination 0 and latitude 0 six hours before transit rises in the east *)
Example C320_case : fst (alt_az false 0 (PI / 2) 0 0) = 0 /\ Azimuth (0 / 12 * PI - PI / 2) 0 0 0 (PI / 2).
Proof.
  split.
  - unfold alt_az. cbv zeta. cbn [fst]. replace (0 / 12 * PI - PI / 2) with (- (PI / 2)) by lra.
    rewrite cos_neg, cos_PI2, sin_0. rewrite clip_id by lra. replace (0 * 0 + cos 0 * cos 0 * 0) with 0 by ring. apply asin_0.
  - unfold Azimuth. pose proof PI_RGT_0. replace (0 / 12 * PI - PI / 2) with (- (PI / 2)) by lra.
    rewrite cos_neg, sin_neg, cos_PI2, sin_PI2, sin_0, cos_0. lra.
Qed.

(** ** C321: positions added to the visits *)
(** with [degrees] the Galactic columns are said to be in degrees but hold radians *)
Theorem C321_galactic_refuted : ~ (forall galactic degrees visits old k v p,
  nth_error visits k = Some v -> nth_error (galactic_run galactic degrees false visits old) k = Some p ->
  let angle := if degrees then galactic (fst v * PI / 180) (snd v * PI / 180) else galactic (fst v) (snd v) in
  InUnit (unit_label degrees) (fst p) (fst angle) /\ InUnit (unit_label degrees) (snd p) (snd angle)).
Proof.
  intros H. specialize (H (fun _ _ => (1, 1)) true [(0, 0)] [] 0%nat (0, 0) (1, 1) eq_refl eq_refl). cbn in H.
  destruct H as [[[L _]|[_ E]] _]; [discriminate L|]. cbn in E.
  pose proof PI_RGT_0 as P. pose proof PI_4 as P4. assert (E' : 1 * PI = 180) by (rewrite E at 1; field; lra). lra.
Qed.
Print Assumptions C321_galactic_refuted.

Theorem C321_galactic_partial : forall galactic visits old k v p,
  nth_error visits k = Some v -> nth_error (galactic_run galactic false false visits old) k = Some p ->
  InUnit (unit_label false) (fst p) (fst (galactic (fst v) (snd v))) /\ InUnit (unit_label false) (snd p) (snd (galactic (fst v) (snd v))).
Proof.
  intros galactic visits old k v p V P. unfold galactic_run in P. rewrite (map_nth_error _ _ _ V) in P. injection P as <-.
  split; left; split; reflexivity.
Qed.
Print Assumptions C321_galactic_partial.

(** what is stored is right as radians, for both settings, one pair per visit; existing columns are kept *)
Theorem C321_galactic_radians : forall galactic degrees visits old,
  length (galactic_run galactic degrees false visits old) = length visits /\
  galactic_run galactic degrees true visits old = old /\
  forall k v, nth_error visits k = Some v ->
    nth_error (galactic_run galactic degrees false visits old) k
    = Some (if degrees then galactic (fst v * PI / 180) (snd v * PI / 180) else galactic (fst v) (snd v)).
Proof.
  intros galactic degrees visits old. unfold galactic_run. split; [destruct degrees; apply map_length|]. split; [reflexivity|].
  intros k v V. destruct degrees; rewrite (map_nth_error _ _ _ V); reflexivity.
Qed.
Print Assumptions C321_galactic_radians.

Lemma ecliptic_same : forall ecl sun times dg sb visits n cols c,
  ecliptic_pass ecl sun times dg sb visits = Ok c -> (0 < n)%nat -> ecliptic_loop ecl sun times dg sb visits n cols = Ok c.
Proof.
  intros ecl sun times dg sb visits n. induction n as [|n IH]; intros cols c H N; [lia|].
  cbn [ecliptic_loop]. rewrite H. cbn [bind]. destruct n as [|n]; [reflexivity|]. apply IH; [exact H|lia].
Qed.

(** the ecliptic columns are in the announced unit, each visit with its own position, although the loop makes them again and again *)
Theorem C321_ecliptic : forall ecliptic sun times degrees visits old k v,
  length old = length visits -> nth_error visits k = Some v ->
  exists cols p, ecliptic_run ecliptic sun times degrees false false visits old = Ok cols /\ nth_error cols k = Some p /\
  let angle := if degrees then ecliptic (fst (fst v) * PI / 180) (snd (fst v) * PI / 180) else ecliptic (fst (fst v)) (snd (fst v)) in
  InUnit (unit_label degrees) (fst p) (fst angle) /\ InUnit (unit_label degrees) (snd p) (snd angle).
Proof.
  intros ecliptic sun times degrees visits old k v L V.
  assert (N : (0 < length visits)%nat) by (assert (k < length visits)%nat by (apply nth_error_Some; congruence); lia).
  unfold ecliptic_run. erewrite ecliptic_same; [|reflexivity|exact N]. cbn [bind].
  destruct degrees; eexists; eexists; (split; [reflexivity|]); (split; [rewrite ?map_map; exact (map_nth_error _ _ _ V)|]); cbv zeta; cbn [fst snd]; unfold rad, deg.
  - split; right; split; reflexivity.
  - split; left; split; reflexivity.
Qed.
Print Assumptions C321_ecliptic.

(** with the sun's longitude taken off, the longitude is the difference brought into one turn *)
Theorem C321_sun : forall ecliptic sun times degrees visits old ts k v t,
  length old = length visits -> times (map snd visits) = Ok ts -> length ts = length visits ->
  nth_error visits k = Some v -> nth_error ts k = Some t ->
  exists cols p lon, ecliptic_run ecliptic sun times degrees true false visits old = Ok cols /\ nth_error cols k = Some p /\
  let angle := if degrees then ecliptic (fst (fst v) * PI / 180) (snd (fst v) * PI / 180) else ecliptic (fst (fst v)) (snd (fst v)) in
  Wrapped (fst angle - sun t) lon /\ InUnit (unit_label degrees) (fst p) lon /\ InUnit (unit_label degrees) (snd p) (snd angle).
Proof.
  intros ecliptic sun times degrees visits old ts k v t L T LT V W.
  assert (N : (0 < length visits)%nat) by (assert (k < length visits)%nat by (apply nth_error_Some; congruence); lia).
  assert (C : nth_error (combine visits ts) k = Some (v, t)).
  { clear -V W. revert ts k V W. induction visits as [|a vs IH]; intros [|b ts] [|k] V W; try discriminate.
    - cbn in *. injection V as ->. injection W as ->. reflexivity.
    - cbn in *. apply IH; assumption. }
  unfold ecliptic_run. erewrite ecliptic_same; [|unfold ecliptic_pass; rewrite T; reflexivity|exact N]. cbn [bind].
  destruct degrees; eexists; eexists; eexists; (split; [reflexivity|]); (split; [rewrite ?map_map; exact (map_nth_error _ _ _ C)|]); cbv zeta; cbn [fst snd]; unfold rad, deg.
  - split; [apply wrap_spec|]. split; right; split; reflexivity.
  - split; [apply wrap_spec|]. split; left; split; reflexivity.
Qed.
Print Assumptions C321_sun.

Theorem C321_present : forall ecliptic sun times degrees subtract visits old, ecliptic_run ecliptic sun times degrees subtract true visits old = Ok old.
Proof. reflexivity. Qed.
Print Assumptions C321_present.

Example C321_case : exists cols, ecliptic_run (fun a d => (a, d)) (fun _ => 1) (fun l => Ok l) true true false [((90, 45), 0); ((180, 0), 0)] [(0, 0); (0, 0)] = Ok cols /\ length cols = 2%nat.
Proof. eexists. split; [reflexivity|reflexivity]. Qed.

(** chip corners: the right ascensions in one turn, in radians; the declinations in radians; the inputs themselves are kept *)
Lemma sdss_spec : forall pairs data,
  NoDup (map snd pairs) -> (forall p n, In p (map fst pairs) -> In n (map snd pairs) -> p <> n) ->
  (forall p, In p (map fst pairs) -> exists c, dget String.eqb data p = Some c) ->
  exists out, sdss_cols pairs data = Ok out /\
    (forall j, ~ In j (map snd pairs) -> dget String.eqb out j = dget String.eqb data j) /\
    (forall p n c, In (p, n) pairs -> dget String.eqb data p = Some c ->
       dget String.eqb out n = Some (if String.eqb (substring 0 2 n) "RA" then map (fun x => Sky_Model.wrap_ra (rad x)) c else map rad c)).
Proof.
  induction pairs as [|[p n] t IH]; intros data ND DS IN.
  - exists data. split; [reflexivity|]. split; [reflexivity|]. intros ? ? ? [].
  - cbn [sdss_cols]. destruct (IN p (or_introl eq_refl)) as [c C]. rewrite C. cbv zeta.
    set (new := if String.eqb (substring 0 2 n) "RA" then map (fun x => Sky_Model.wrap_ra (rad x)) c else map rad c).
    cbn [map fst snd] in ND, DS. inversion ND as [|? ? NI ND']; subst.
    destruct (IH (dset String.eqb data n new)) as (out & O & K & Q).
    + exact ND'.
    + intros p' n' H1 H2. apply DS; right; assumption.
    + intros p' H. rewrite Maps_Proofs.dget_dset_other; [apply IN; right; exact H|]. apply DS; [right; exact H|left; reflexivity].
    + exists out. split; [exact O|]. split.
      * intros j H. rewrite K by (intros H'; apply H; right; exact H'). apply Maps_Proofs.dget_dset_other. intros ->. apply H. left. reflexivity.
      * intros p' n' c' [E|I] D.
        -- injection E as <- <-. rewrite D in C. injection C as ->. rewrite K by exact NI. apply Maps_Proofs.dget_dset_same.
        -- apply (Q p' n' c' I). rewrite Maps_Proofs.dget_dset_other; [exact D|].
           apply DS; [right; exact (in_map fst _ _ I)|left; reflexivity].
Qed.

(** the eight corner columns in order: four pairs (RA, Dec) *)
Theorem C321_sdss : forall p1 p2 p3 p4 p5 p6 p7 p8 data,
  let pcols := [p1; p2; p3; p4; p5; p6; p7; p8] in
  (forall p, In p pcols -> exists c, dget String.eqb data p = Some c) ->
  (forall p, In p pcols -> ~ In p ["RA1"; "Dec1"; "RA2"; "Dec2"; "RA3"; "Dec3"; "RA4"; "Dec4"]%string) ->
  exists out, sdss_run pcols data = Ok out /\
  (forall p, In p pcols -> dget String.eqb out p = dget String.eqb data p) /\
  (forall p n, In (p, n) [(p1, "RA1"); (p3, "RA2"); (p5, "RA3"); (p7, "RA4")]%string ->
     forall c k x, dget String.eqb data p = Some c -> nth_error c k = Some x ->
       exists c' y, dget String.eqb out n = Some c' /\ nth_error c' k = Some y /\ Wrapped (x * PI / 180) y) /\
  (forall p n, In (p, n) [(p2, "Dec1"); (p4, "Dec2"); (p6, "Dec3"); (p8, "Dec4")]%string ->
     forall c k x, dget String.eqb data p = Some c -> nth_error c k = Some x ->
       exists c', dget String.eqb out n = Some c' /\ nth_error c' k = Some (x * PI / 180)).
Proof.
  intros p1 p2 p3 p4 p5 p6 p7 p8 data pcols HI HN.
  destruct (sdss_spec (combine pcols sdss_added) data) as (out & O & K & Q).
  - cbn. repeat constructor; cbn; intuition discriminate.
  - intros p n H1 H2 ->. exact (HN n H1 H2).
  - exact HI.
  - exists out. split; [exact O|]. split.
    + intros p H. apply K. intros H'. exact (HN p H H').
    + split; intros p n H c k x D X.
      * exists (map (fun x => Sky_Model.wrap_ra (rad x)) c), (Sky_Model.wrap_ra (rad x)).
        assert (I : In (p, n) (combine pcols sdss_added)) by (cbn in H |- *; intuition congruence).
        split; [|split; [exact (map_nth_error _ _ _ X)|apply wrap_spec]].
        rewrite (Q p n c I D). cbn in H. repeat (destruct H as [H|H]; [injection H as <- <-; reflexivity|]). destruct H.
      * exists (map rad c). assert (I : In (p, n) (combine pcols sdss_added)) by (cbn in H |- *; intuition congruence).
        split; [|exact (map_nth_error _ _ _ X)].
        rewrite (Q p n c I D). cbn in H. repeat (destruct H as [H|H]; [injection H as <- <-; reflexivity|]). destruct H.
Qed.
Print Assumptions C321_sdss.
