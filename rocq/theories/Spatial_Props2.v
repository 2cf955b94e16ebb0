(** C259-C262: cases and counterexamples; C263: saving; C264: JSON; C265: OneDSlicer. *)
From Coq Require Import Reals Lra Lia Permutation Psatz.
From Verif Require Import Base Spatial_Model DirectObs_Spec DirectObs_Proofs Spatial_Spec Spatial_Proofs Spatial_Props.
Open Scope R_scope.

Lemma own_place : forall ra dec, great_circle ra dec ra dec = 0.
Proof.
  intros ra dec. unfold great_circle. cbv zeta. replace (ra * PI / 180 - ra * PI / 180) with 0 by ring. rewrite cos_0. assert (S := sin2_cos2 (dec * PI / 180)). unfold Rsqr in S.
  match goal with |- acos ?x * _ / _ = _ => replace x with 1 by lra end. rewrite acos_1. field. apply PI_neq0.
Qed.
Lemma far_place : great_circle PI 0 180 0 > 2.45.
Proof.
  unfold great_circle. cbv zeta. replace (0 * PI / 180) with 0 by field. rewrite sin_0, cos_0. replace (180 * PI / 180) with PI by field.
  assert (P := PI_RGT_0). assert (P4 := PI_4). 
  assert (X : forall y, (y = PI * PI / 180 - PI \/ y = PI - PI * PI / 180) -> cos y <= 0).
  { intros y Y. assert (C : cos y = - cos (PI * PI / 180)).
    { destruct Y as [-> | ->]; [rewrite <- (cos_neg (PI * PI / 180 - PI)); replace (- (PI * PI / 180 - PI)) with (PI - PI * PI / 180) by ring|]; rewrite Rtrigo_facts.cos_pi_minus; reflexivity. }
    rewrite C. assert (G : 0 <= cos (PI * PI / 180)) by (apply cos_ge_0; nra). lra. }
  match goal with |- acos (0 * 0 + 1 * 1 * cos ?a) * 180 / PI > _ => assert (N : cos a <= 0) by (apply X; first [left; reflexivity|right; reflexivity]); assert (B := COS_bound a); replace (0 * 0 + 1 * 1 * cos a) with (cos a) by ring; assert (A := acos_le (cos a) 0 ltac:(lra) ltac:(lra) ltac:(lra)) end.
  rewrite acos_0 in A. apply Rlt_gt. apply (Rmult_lt_reg_r PI); [lra|]. match goal with |- _ < ?a * 180 / PI * PI => replace (a * 180 / PI * PI) with (a * 180) by (field; lra) end. nra.
Qed.

Section Slicers.
  Context (galactic : R -> R -> R * R) (pix2ang : Z -> nat -> R * R) (isnsideok : Z -> bool) (npix : Z -> nat).
  Context (tree_ok : list R -> list R -> bool) (order : list nat -> list nat) (in_camera : R -> option string -> R -> R -> R -> R -> R -> bool).
  Context (permutes : forall l, Permutation (order l) l).
  Notation setup := (setup_slicer tree_ok).
  Notation slices := (slice order in_camera).

  (** ** C262: equality does not see everything *)
  Lemma equal_points : forall ra dec lonc latc deg radius camera cr file rotc deg' cr' file' a ia b ib,
    user_points galactic ra dec lonc latc deg radius camera cr file rotc = Ok (a, ia) -> user_points galactic ra dec lonc latc deg' radius camera cr' file' rotc = Ok (b, ib) -> py_eq a b = true.
  Proof.
    intros ra dec lonc latc deg radius camera cr file rotc deg' cr' file' a ia b ib EA EB. unfold user_points in *. destruct (Nat.eqb (length ra) (length dec)); [|discriminate EA]. cbn [negb] in *. injection EA as <- _. injection EB as <- _.
    unfold py_eq, eq_method, eq_points, entry_at_eqb, common. cbn [s_class s_points s_nslice s_lon s_lat s_radius s_camera s_rot s_shape dget forallb fst String.eqb Ascii.eqb Bool.eqb].
    rewrite !entry_eqb_refl, !Nat.eqb_refl, !String.eqb_refl, Bool.eqb_reflx. destruct (Req_EM_T radius radius); [reflexivity|contradiction].
  Qed.
  (** equal slicers that take the columns as degrees and as radians *)
Theorem C262_degrees_refuted : forall t a ia b ib da db, column t "fieldRA" = Ok [PI] -> column t "fieldDec" = Ok [0] -> column t "rotSkyPos" = Ok [0] ->
    user_points galactic [180] [0] "fieldRA" "fieldDec" true 2.45 false 1.94 None "rotSkyPos" = Ok (a, ia) ->
    user_points galactic [180] [0] "fieldRA" "fieldDec" false 2.45 false 1.94 None "rotSkyPos" = Ok (b, ib) -> setup a t [] = Ok da -> setup b t [] = Ok db ->
    py_eq a b = true /\ (exists i1, slices a da 0 = Ok ([], i1)) /\ (exists i2, slices b db 0 = Ok ([0%nat], i2)).
  Proof.
    intros t a ia b ib da db LO LA RO EA EB SA SB. split; [exact (equal_points _ _ _ _ _ _ _ _ _ _ _ _ _ _ _ _ _ EA EB)|]. assert (RAD : 0 <= 2.45 <= 180) by lra. assert (I1 : (0 < length [180])%nat) by (cbn; lia).
    destruct (C259_points galactic tree_ok order in_camera permutes _ _ _ _ _ _ _ _ _ _ a ia t [] da [PI] [0] [0] 0 RAD (Forall_nil _) EA SA LO LA RO eq_refl eq_refl I1) as [x1 [y1 [S1 P1]]].
    destruct (C259_points galactic tree_ok order in_camera permutes _ _ _ _ _ _ _ _ _ _ b ib t [] db [PI] [0] [0] 0 RAD (Forall_nil _) EB SB LO LA RO eq_refl eq_refl I1) as [x2 [y2 [S2 P2]]].
    assert (V1 : in_circle true 2.45 180 0 [PI] [0] 0 = false) by (unfold in_circle; cbn [nth in_degrees]; assert (F := far_place); destruct (Rle_dec _ _); [lra|reflexivity]).
    assert (V2 : in_circle false 2.45 180 0 [PI] [0] 0 = true) by (unfold in_circle; cbn [nth in_degrees]; replace (PI * 180 / PI) with 180 by (field; apply PI_neq0); replace (0 * 180 / PI) with 0 by (field; apply PI_neq0); rewrite own_place; destruct (Rle_dec _ _); [reflexivity|lra]).
    cbn [length seq filter nth negb orb] in P1, P2. rewrite V1 in P1. rewrite V2 in P2. cbn [andb] in P1, P2. apply Permutation_sym, Permutation_nil in P1. apply Permutation_sym, Permutation_length_1_inv in P2. subst. split; eexists; eassumption.
  Qed.
  (** and that have different cameras, whenever the cameras do not agree about a visit *)
Theorem C262_camera_refuted : forall ra dec lonc latc deg radius cr cr' file file' rotc a ia b ib t lon lat rot da db i k, 0 <= radius <= 180 ->
    user_points galactic ra dec lonc latc deg radius true cr file rotc = Ok (a, ia) -> user_points galactic ra dec lonc latc deg radius true cr' file' rotc = Ok (b, ib) ->
    column t lonc = Ok lon -> column t latc = Ok lat -> column t rotc = Ok rot -> length lat = length lon -> length rot = length lon -> (i < length ra)%nat -> (k < length lon)%nat ->
    in_circle deg radius (nth i ra 0) (nth i dec 0) lon lat k = true ->
    in_footprint (in_camera cr file) deg (nth i ra 0) (nth i dec 0) lon lat rot k <> in_footprint (in_camera cr' file') deg (nth i ra 0) (nth i dec 0) lon lat rot k ->
    setup a t [] = Ok da -> setup b t [] = Ok db -> py_eq a b = true /\ slices a da i <> slices b db i.
  Proof.
    intros ra dec lonc latc deg radius cr cr' file file' rotc a ia b ib t lon lat rot da db i k RAD EA EB LO LA RO L1 L2 I K IC NE SA SB. split; [exact (equal_points _ _ _ _ _ _ _ _ _ _ _ _ _ _ _ _ _ EA EB)|]. intros SE.
    destruct (C259_points galactic tree_ok order in_camera permutes _ _ _ _ _ _ _ _ _ _ a ia t [] da lon lat rot i RAD (Forall_nil _) EA SA LO LA RO L1 L2 I) as [x1 [y1 [S1 P1]]].
    destruct (C259_points galactic tree_ok order in_camera permutes _ _ _ _ _ _ _ _ _ _ b ib t [] db lon lat rot i RAD (Forall_nil _) EB SB LO LA RO L1 L2 I) as [x2 [y2 [S2 P2]]].
    rewrite S1, S2 in SE. injection SE as -> _. cbn [negb orb] in P1, P2. assert (P := Permutation_trans (Permutation_sym P1) P2).
    assert (Q : forall f g : nat -> bool, Permutation (filter f (seq 0 (length lon))) (filter g (seq 0 (length lon))) -> f k = g k).
    { clear - K. intros f g P. assert (IK : In k (seq 0 (length lon))) by (apply in_seq; lia). destruct (f k) eqn:F; destruct (g k) eqn:G; try reflexivity; exfalso.
      - assert (X : In k (filter g (seq 0 (length lon)))) by (apply (Permutation_in _ P); apply filter_In; split; assumption). apply filter_In in X. destruct X as [_ X]. congruence.
      - assert (X : In k (filter f (seq 0 (length lon)))) by (apply (Permutation_in _ (Permutation_sym P)); apply filter_In; split; assumption). apply filter_In in X. destruct X as [_ X]. congruence. }
    specialize (Q _ _ P). cbn beta in Q. rewrite IC in Q. cbn [andb] in Q. contradiction.
  Qed.
  (** a slicer with points is equal to itself before the maps were run, but not the other way round *)
Theorem C262_symmetric_refuted : forall ra dec s ini t key e d, user_points galactic ra dec "fieldRA" "fieldDec" true 2.45 true 1.94 None "rotSkyPos" = Ok (s, ini) ->
    dget String.eqb (s_points s) key = None -> setup s t [adds_key key e] = Ok d -> py_eq (installed s d) s = true /\ py_eq s (installed s d) = false.
  Proof.
    intros ra dec s ini t key e d E NK SU. assert (P := setup_points _ _ _ _ _ SU). unfold run_maps, adds_key in P. cbn [fold_left bind] in P. injection P as P.
    unfold user_points in E. destruct (Nat.eqb (length ra) (length dec)); [|discriminate E]. cbn [negb] in E. injection E as <- _.
    match type of P with dset _ (s_points ?x) _ _ = _ => set (s := x) in * end.
    assert (CS : common (installed s d) s = true /\ common s (installed s d) = true) by (split; apply common_spec; repeat split; reflexivity). destruct CS as [CS1 CS2].
    assert (KEEP : forall k v, dget String.eqb (s_points s) k = Some v -> dget String.eqb (d_points d) k = Some v).
    { intros k v G. rewrite <- P. rewrite dget_dset. destruct (String.eqb_spec k key) as [->|]; [congruence|exact G]. }
    assert (EK : forall k v, dget String.eqb (s_points s) k = Some v -> entry_at_eqb (s_points s) (d_points d) k = true) by (intros k v G; unfold entry_at_eqb; rewrite G, (KEEP k v G); apply entry_eqb_refl).
    split.
    - unfold py_eq, eq_method. cbn [s_class installed s]. unfold eq_points. rewrite CS1. cbn [s_class s installed s_nslice s_points]. rewrite Nat.eqb_refl.
      change ((forallb (fun q => entry_at_eqb (s_points s) (d_points d) (fst q)) (s_points s) && true && true && entry_at_eqb (s_points s) (d_points d) "ra" && entry_at_eqb (s_points s) (d_points d) "dec" && true)%bool = true).
      rewrite (EK "ra"%string _ eq_refl), (EK "dec"%string _ eq_refl). cbn [forallb s_points s fst]. fold s.
      pose proof (EK "sid"%string _ eq_refl) as K1. pose proof (EK "ra"%string _ eq_refl) as K2. pose proof (EK "dec"%string _ eq_refl) as K3. pose proof (EK "gall"%string _ eq_refl) as K4. pose proof (EK "galb"%string _ eq_refl) as K5.
      cbn [s_points s] in K1, K2, K3, K4, K5. cbn [s_points s]. rewrite K1, K2, K3, K4, K5. reflexivity.
    - unfold py_eq, eq_method. cbn [s_class installed s]. unfold eq_points. apply Bool.andb_false_iff. left. apply Bool.andb_false_iff. left. apply Bool.andb_false_iff. left. apply Bool.andb_false_iff. left. apply Bool.andb_false_iff. left.
      cbn [s_points installed]. rewrite <- P. apply Bool.not_true_is_false. intros F. rewrite forallb_forall in F.
      assert (G : dget String.eqb (dset String.eqb (s_points s) key e) key = Some e) by (rewrite dget_dset, String.eqb_refl; reflexivity).
      assert (IN : exists q, In q (dset String.eqb (s_points s) key e) /\ fst q = key).
      { clear - G. revert G. generalize (dset String.eqb (s_points s) key e). intros l. induction l as [|[k v] l IH]; [discriminate|]. cbn [dget]. destruct (String.eqb_spec key k) as [<-|N]; intros G; [exists (key, v); split; [left; reflexivity|reflexivity]|]. destruct (IH G) as [q [Q1 Q2]]. exists q. split; [right; exact Q1|exact Q2]. }
      destruct IN as [q [Q1 Q2]]. specialize (F q Q1). rewrite Q2 in F. unfold entry_at_eqb in F. rewrite G, NK in F. discriminate F.
  Qed.

  (** ** C263: what is saved and restored *)
  Notation read := (read_data galactic pix2ang isnsideok npix).
  Definition parts (v : values) : list R * option (list bool) * option R := match v with Plain l => (l, None, None) | Masked l m f => (l, Some m, Some f) end.
Theorem C263_restored : forall s ini v, made galactic pix2ang isnsideok npix s ini -> exists s' ini',
    read (write_data s ini v) = Ok (parts v, s', ini') /\
    s_class s' = s_class s /\ s_points s' = s_points s /\ s_nslice s' = s_nslice s /\ s_shape s' = s_shape s /\ s_lon s' = s_lon s /\ s_lat s' = s_lat s /\ s_radius s' = s_radius s /\
    s_nside s' = s_nside s /\ s_hpid s' = s_hpid s.
  Proof.
    intros s ini v M. unfold read_data, write_data, parts.
    destruct M as [[ra [dec [lonc [latc [deg [radius [camera [cr [file [rotc E]]]]]]]]]]|[[nside [lonc [latc [deg [cache [radius [camera [cr [file [rotc E]]]]]]]]]]|[nside [hpid [lonc [latc [deg [cache [radius [camera [cr [file [rotc E]]]]]]]]]]]]].
    - unfold user_points in E. destruct (Nat.eqb (length ra) (length dec)) eqn:L; [|discriminate E]. cbn [negb] in E. injection E as <- <-. destruct v; cbn [f_class f_init s_class remake i_ra i_dec]; unfold user_points; rewrite !map_length, L; cbn [negb bind f_values f_mask f_fill f_points f_nslice f_shape];
        eexists; eexists; (split; [reflexivity|]); repeat split; reflexivity.
    - unfold healpix in E. destruct (isnsideok nside) eqn:O; [|discriminate E]. cbn [negb] in E. injection E as <- <-. destruct v; cbn [f_class f_init s_class remake i_nside]; unfold healpix; rewrite O; cbn [negb bind f_values f_mask f_fill f_points f_nslice f_shape];
        eexists; eexists; (split; [reflexivity|]); repeat split; reflexivity.
    - unfold subset, healpix in E. destruct (isnsideok nside) eqn:O; [|discriminate E]. cbn [negb bind] in E. destruct (existsb _ hpid) eqn:X; [discriminate E|]. injection E as <- <-.
      destruct v; cbn [f_class f_init s_class remake i_nside i_hpid]; unfold subset, healpix; rewrite O; cbn [negb bind]; cbn [s_nslice] in *; rewrite X; cbn [bind f_values f_mask f_fill f_points f_nslice f_shape];
        eexists; eexists; (split; [reflexivity|]); repeat split; reflexivity.
  Qed.
  (** when the restored slicer is equal, and when it slices in the same way *)
  Lemma restored_options : forall s ini v s' ini', made galactic pix2ang isnsideok npix s ini -> read (write_data s ini v) = Ok (parts v, s', ini') ->
    s_camera s' = true /\ s_rot s' = "rotSkyPos"%string /\ s_deg s' = true /\ s_camera_radius s' = 1.94 /\ s_camera_file s' = None /\ (s_class s <> UserPoints -> s_cache s' = true).
  Proof.
    intros s ini v s' ini' M E. unfold read_data, write_data, parts in E.
    destruct (remake _ _ _ _ (f_class _) (f_init _)) as [[r ir]|] eqn:R; [|discriminate E]. cbn [bind] in E. injection E as _ <- _ || injection E as _ _ _ <- _. cbn [s_camera s_rot s_deg s_camera_radius s_camera_file s_cache].
    assert (FC : forall x y z, f_class (let '(data, m, fill) := match v with Plain l => (l, None, None) | Masked l m f => (l, Some m, Some f) end in {| f_values := data; f_mask := m; f_fill := fill; f_init := ini; f_class := s_class s; f_points := x; f_nslice := y; f_shape := z |}) = s_class s) by (intros; destruct v; reflexivity).
    rewrite FC in R. destruct (s_class s); cbn [remake] in R.
    - unfold user_points in R. destruct (Nat.eqb _ _) in R; [|discriminate R]. cbn [negb] in R. injection R as <- _. repeat split. intros C. exfalso. apply C. reflexivity.
    - unfold healpix in R. destruct (isnsideok _) in R; [|discriminate R]. cbn [negb] in R. injection R as <- _. repeat split.
    - unfold subset, healpix in R. destruct (isnsideok _) in R; [|discriminate R]. cbn [negb bind] in R. destruct (existsb _ _) in R; [discriminate R|]. injection R as <- _. repeat split.
  Qed.
Theorem C263_equal : forall s ini v s' ini', made galactic pix2ang isnsideok npix s ini -> read (write_data s ini v) = Ok (parts v, s', ini') ->
    (py_eq s' s = true <-> s_camera s = true /\ s_rot s = "rotSkyPos"%string /\ (s_class s = Healpix -> s_cache s = true)).
  Proof.
    intros s ini v s' ini' M E. destruct (restored_options s ini v s' ini' M E) as [O1 [O2 [O3 [O4 [O5 O6]]]]]. destruct (C263_restored s ini v M) as [s'' [ini'' [E' [R1 [R2 [R3 [R4 [R5 [R6 [R7 [R8 R9]]]]]]]]]]]. rewrite E in E'. injection E' as <- _.
    unfold py_eq, eq_method. assert (CM : common s' s = true <-> s_camera s = true /\ s_rot s = "rotSkyPos"%string) by (rewrite common_spec; rewrite O1, O2, R4, R5, R6, R7; intuition). rewrite R1.
    destruct (s_class s) eqn:C.
    - unfold eq_points. rewrite C, R2, R3, Nat.eqb_refl.
      assert (KN : made galactic pix2ang isnsideok npix s ini -> s_class s = UserPoints -> forallb (fun q => entry_at_eqb (s_points s) (s_points s) (fst q)) (s_points s) = true /\ entry_at_eqb (s_points s) (s_points s) "ra" = true /\ entry_at_eqb (s_points s) (s_points s) "dec" = true).
      { clear. intros [[ra [dec [lonc [latc [deg [radius [camera [cr [file [rotc E]]]]]]]]]]|[[nside [lonc [latc [deg [cache [radius [camera [cr [file [rotc E]]]]]]]]]]|[nside [hpid [lonc [latc [deg [cache [radius [camera [cr [file [rotc E]]]]]]]]]]]]] C.
        - unfold user_points in E. destruct (Nat.eqb (length ra) (length dec)); [|discriminate E]. cbn [negb] in E. injection E as <- _. unfold entry_at_eqb. cbn [s_points dget forallb fst String.eqb Ascii.eqb Bool.eqb]. rewrite !entry_eqb_refl. repeat split.
        - unfold healpix in E. destruct (isnsideok nside); [|discriminate E]. cbn [negb] in E. injection E as <- _. discriminate C.
        - unfold subset, healpix in E. destruct (isnsideok nside); [|discriminate E]. cbn [negb bind] in E. destruct (existsb _ hpid); [discriminate E|]. injection E as <- _. discriminate C. }
      destruct (KN M C) as [K1 [K2 K3]]. rewrite K1, K2, K3. cbn [andb]. rewrite CM. intuition discriminate.
    - unfold eq_healpix. rewrite C, R8, Z.eqb_refl, O6 by discriminate. cbn [andb]. rewrite Bool.andb_true_iff, CM, Bool.eqb_true_iff. intuition.
    - unfold eq_subset. rewrite C, R8, Z.eqb_refl, R9. cbn [andb]. destruct (list_eq_dec Nat.eq_dec (s_hpid s) (s_hpid s)) as [_|N]; [|contradiction]. cbn [andb]. rewrite CM. intuition discriminate.
  Qed.
Theorem C263_slices : forall s ini v s' ini', made galactic pix2ang isnsideok npix s ini -> read (write_data s ini v) = Ok (parts v, s', ini') ->
    s_camera s = true -> s_rot s = "rotSkyPos"%string -> s_deg s = true -> s_camera_radius s = 1.94 -> s_camera_file s = None ->
    forall t maps, setup s' t maps = setup s t maps /\ forall d, iterate order in_camera s' d = iterate order in_camera s d.
  Proof.
    clear permutes. intros s ini v s' ini' M E A1 A2 A3 A4 A5. destruct (restored_options s ini v s' ini' M E) as [O1 [O2 [O3 [O4 [O5 O6]]]]]. destruct (C263_restored s ini v M) as [s'' [ini'' [E' [R1 [R2 [R3 [R4 [R5 [R6 [R7 [R8 R9]]]]]]]]]]]. rewrite E in E'. injection E' as <- _.
    intros t maps. split; [unfold setup_slicer; rewrite R2, R5, R6, O2, A2, O3, A3; reflexivity|]. intros d.
    assert (SL : forall i, slices s' d i = slices s d i).
    { intros i. unfold slice. assert (BS : forall st, base_slice order in_camera s' d st i = base_slice order in_camera s d st i) by (intros st; unfold base_slice, found, near; rewrite O1, A1, O4, A4, O5, A5, R3, R7; reflexivity). rewrite R1, R8, R9, !BS. reflexivity. }
    unfold iterate, order_of_slices. rewrite R1, R3, R9. generalize (match s_class s with HealpixSubset => s_hpid s | _ => seq 0 (s_nslice s) end). induction l as [|i l IH]; [reflexivity|]. cbn [all_slices]. rewrite SL, IH. reflexivity.
  Qed.
  (** what slicer_init holds of a UserPointsSlicer does not make it again: the positions are in radians, but read as degrees *)
Theorem C263_init_refuted : forall ra dec lonc latc deg radius camera cr file rotc s ini s2 ini2 x, user_points galactic ra dec lonc latc deg radius camera cr file rotc = Ok (s, ini) ->
    remake galactic pix2ang isnsideok npix UserPoints ini = Ok (s2, ini2) -> (In x ra \/ In x dec) -> x <> 0 -> py_eq s2 s = false.
  Proof.
    clear permutes tree_ok order in_camera. intros ra dec lonc latc deg radius camera cr file rotc s ini s2 ini2 x E R IX NZ. unfold user_points in E. destruct (Nat.eqb (length ra) (length dec)) eqn:L; [|discriminate E]. cbn [negb] in E. injection E as <- <-.
    cbn [remake i_ra i_dec] in R. unfold user_points in R. rewrite !map_length, L in R. cbn [negb] in R. injection R as <- _.
    apply Bool.not_true_is_false. intros Q. unfold py_eq, eq_method in Q. cbn [s_class] in Q. unfold eq_points in Q. rewrite !Bool.andb_true_iff in Q. destruct Q as [[[_ Q1] Q2] _]. unfold entry_at_eqb in Q1, Q2. cbn [s_points dget String.eqb Ascii.eqb Bool.eqb] in Q1, Q2. apply entry_eqb_eq in Q1. apply entry_eqb_eq in Q2. injection Q1 as Q1. injection Q2 as Q2.
    assert (X : forall l, map Num (map radians l) = map Num (map radians (map radians l)) -> forall y, In y l -> y = 0).
    { clear. induction l as [|z l IH]; intros H y I; [contradiction I|]. cbn [map] in H. injection H as H1 H2. destruct I as [<-|I]; [|exact (IH H2 y I)]. unfold radians in H1. assert (P := PI_RGT_0). assert (P4 := PI_4).
      assert (H3 : z * (PI * (1 - PI / 180)) = 0) by lra. apply Rmult_integral in H3. destruct H3 as [H3|H3]; [exact H3|]. apply Rmult_integral in H3. lra. }
    destruct IX as [I|I]; [exact (NZ (X _ Q1 x I))|exact (NZ (X _ Q2 x I))].
  Qed.
End Slicers.
Print Assumptions C262_degrees_refuted.
Print Assumptions C262_camera_refuted.
Print Assumptions C262_symmetric_refuted.
Print Assumptions C263_restored.
Print Assumptions C263_equal.
Print Assumptions C263_slices.
Print Assumptions C263_init_refuted.
