(** C259-C262: the slices of spatial slicers, and their comparison. *)
From Coq Require Import Reals Lra Lia Permutation Psatz.
From Verif Require Import Base Spatial_Model DirectObs_Spec Spatial_Spec Spatial_Proofs.
Open Scope R_scope.

Section Slicers.
  Context (galactic : R -> R -> R * R) (pix2ang : Z -> nat -> R * R) (isnsideok : Z -> bool) (npix : Z -> nat).
  Context (tree_ok : list R -> list R -> bool) (order : list nat -> list nat) (in_camera : R -> option string -> R -> R -> R -> R -> R -> bool).
  Context (permutes : forall l, Permutation (order l) l).
  Notation setup := (setup_slicer tree_ok).
  Notation slices := (slice order in_camera).

  Lemma nth_num : forall (l : list R) i, (i < length l)%nat -> nth_error (map Num (map radians l)) i = Some (Num (radians (nth i l 0))).
  Proof. intros l i L. rewrite !nth_error_map. rewrite (nth_error_nth' l 0 L). reflexivity. Qed.

  (** ** C259: a slice has the visits that cover its point *)
Theorem C259_points : forall ra dec lonc latc deg radius camera cr file rotc s ini t maps d lon lat rot i, 0 <= radius <= 180 -> Forall adds maps ->
    user_points galactic ra dec lonc latc deg radius camera cr file rotc = Ok (s, ini) -> setup s t maps = Ok d ->
    column t lonc = Ok lon -> column t latc = Ok lat -> column t rotc = Ok rot -> length lat = length lon -> length rot = length lon -> (i < length ra)%nat ->
    exists idxs info, slices s d i = Ok (idxs, info) /\
      Permutation idxs (filter (fun k => (in_circle deg radius (nth i ra 0) (nth i dec 0) lon lat k && (negb camera || in_footprint (in_camera cr file) deg (nth i ra 0) (nth i dec 0) lon lat rot k))%bool) (seq 0 (length lon))).
  Proof.
    intros ra dec lonc latc deg radius camera cr file rotc s ini t maps d lon lat rot i RAD MP E SU LO LA RO L1 L2 I. unfold user_points in E. destruct (Nat.eqb_spec (length ra) (length dec)) as [LE|]; [|discriminate E]. cbn [negb] in E. injection E as <- _.
    match type of SU with setup ?x _ _ = _ => set (s := x) in * end.
    assert (K := maps_keep maps _ _ MP (setup_points _ _ _ _ _ SU)).
    assert (R1 : at_point (d_points d) "ra" i = Ok (radians (nth i ra 0))) by (eapply point_at; [apply K; reflexivity|apply nth_num; exact I]).
    assert (D1 : at_point (d_points d) "dec" i = Ok (radians (nth i dec 0))) by (eapply point_at; [apply K; reflexivity|apply nth_num; rewrite <- LE; exact I]).
    unfold slice. cbn [s_class s]. unfold base_slice. rewrite R1, D1. cbn [bind].
    destruct (info_ok (s_nslice s) i (d_points d) [("sid"%string, Single (Id (Z.of_nat i)))]) as [info ->]; [cbn [s_nslice s]; rewrite map_length; exact I|]. cbn [bind].
    eexists. eexists. split; [reflexivity|]. exact (found_visits tree_ok order in_camera s t maps d lon lat rot (nth i ra 0) (nth i dec 0) permutes RAD SU LO LA RO L1 L2).
  Qed.
Theorem C259_healpix : forall nside lonc latc deg cache radius camera cr file rotc s ini t maps d lon lat rot i, 0 <= radius <= 180 -> Forall adds maps ->
    healpix galactic pix2ang isnsideok npix nside lonc latc deg cache radius camera cr file rotc = Ok (s, ini) -> setup s t maps = Ok d ->
    column t lonc = Ok lon -> column t latc = Ok lat -> column t rotc = Ok rot -> length lat = length lon -> length rot = length lon -> (i < npix nside)%nat ->
    let ra := snd (pix2ang nside i) * 180 / PI in let dec := 90 - fst (pix2ang nside i) * 180 / PI in
    exists idxs info, slices s d i = Ok (idxs, info) /\
      Permutation idxs (filter (fun k => (in_circle deg radius ra dec lon lat k && (negb camera || in_footprint (in_camera cr file) deg ra dec lon lat rot k))%bool) (seq 0 (length lon))).
  Proof.
    intros nside lonc latc deg cache radius camera cr file rotc s ini t maps d lon lat rot i RAD MP E SU LO LA RO L1 L2 I ra dec. unfold healpix in E. destruct (isnsideok nside); [|discriminate E]. cbn [negb] in E. injection E as <- _.
    match type of SU with setup ?x _ _ = _ => set (s := x) in * end.
    assert (K := maps_keep maps _ _ MP (setup_points _ _ _ _ _ SU)).
    assert (PX : radians ra = fst (pix2radec pix2ang nside i) /\ radians dec = snd (pix2radec pix2ang nside i)).
    { unfold ra, dec, pix2radec. destruct (pix2ang nside i) as [la r]. cbn [fst snd]. assert (P := PI_RGT_0). split; unfold radians; field; lra. }
    destruct PX as [PR PD].
    assert (NS : nth_error (seq 0 (npix nside)) i = Some i) by (rewrite (nth_error_nth' _ 0%nat) by (rewrite seq_length; exact I); rewrite seq_nth by exact I; reflexivity).
    assert (R1 : at_point (d_points d) "ra" i = Ok (radians ra)) by (eapply point_at; [apply K; reflexivity|rewrite !nth_error_map, NS; cbn [option_map]; rewrite PR; reflexivity]).
    assert (D1 : at_point (d_points d) "dec" i = Ok (radians dec)) by (eapply point_at; [apply K; reflexivity|rewrite !nth_error_map, NS; cbn [option_map]; rewrite PD; reflexivity]).
    unfold slice. cbn [s_class s]. unfold base_slice. rewrite R1, D1. cbn [bind].
    destruct (info_ok (s_nslice s) i (d_points d) [("sid"%string, Single (Id (Z.of_nat i)))]) as [info ->]; [cbn [s_nslice s]; exact I|]. cbn [bind].
    eexists. eexists. split; [reflexivity|]. exact (found_visits tree_ok order in_camera s t maps d lon lat rot ra dec permutes RAD SU LO LA RO L1 L2).
  Qed.
  (** without the column of rotations no slicer can be set up, even if the camera is not used *)
Theorem C259_rotation_refuted : forall s t lon lat, s_camera s = false -> column t (s_lon s) = Ok lon -> column t (s_lat s) = Ok lat -> dget String.eqb t (s_rot s) = None -> setup s t [] = Err ValueError.
  Proof. intros s t lon lat _ LO LA RO. unfold setup_slicer. cbn [run_maps fold_left bind]. rewrite LO, LA. unfold column. rewrite RO. reflexivity. Qed.

  (** ** C260: the information about a slice *)
Theorem C260_info : forall s t maps d i idxs info, s_class s <> HealpixSubset -> NoDup (map fst (d_points d)) -> setup s t maps = Ok d -> slices s d i = Ok (idxs, info) ->
    forall key e, dget String.eqb (d_points d) key = Some e ->
      match e with
      | Array l => if Nat.eqb (length l) (s_nslice s) then exists v, nth_error l i = Some v /\ dget String.eqb info key = Some (Single v) else dget String.eqb info key = Some e
      | Single _ => dget String.eqb info key = Some e
      end.
  Proof.
    intros s t maps d i idxs info C ND SU E key e G.
    assert (X : base_slice order in_camera s d [("sid"%string, Single (Id (Z.of_nat i)))] i = Ok (idxs, info)) by (unfold slice in E; destruct (s_class s); [exact E|exact E|exfalso; apply C; reflexivity]).
    unfold base_slice in X. destruct (at_point (d_points d) "ra" i) as [ra|]; [|discriminate X]. destruct (at_point (d_points d) "dec" i) as [dec|]; [|discriminate X]. cbn [bind] in X.
    destruct (point_info _ _ _ _) as [inf|] eqn:PI_; [|discriminate X]. cbn [bind] in X. injection X as _ <-. assert (H := info_keys _ _ _ _ _ PI_ ND key). rewrite G in H. destruct H as [r [H1 H2]]. rewrite H1. unfold told in H2. destruct e as [v|l]; [subst; reflexivity|].
    destruct (Nat.eqb (length l) (s_nslice s)); [destruct H2 as [v [N ->]]; exists v; split; [exact N|reflexivity]|subst; reflexivity].
  Qed.
  (** the identity and position of the slices of a UserPointsSlicer *)
Theorem C260_position : forall ra dec lonc latc deg radius camera cr file rotc s ini t d i idxs info,
    user_points galactic ra dec lonc latc deg radius camera cr file rotc = Ok (s, ini) -> setup s t [] = Ok d -> slices s d i = Ok (idxs, info) -> (i < length ra)%nat ->
    dget String.eqb info "sid"%string = Some (Single (Id (Z.of_nat i))) /\ dget String.eqb info "ra"%string = Some (Single (Num (rad (nth i ra 0)))) /\ dget String.eqb info "dec"%string = Some (Single (Num (rad (nth i dec 0)))).
  Proof.
    intros ra dec lonc latc deg radius camera cr file rotc s ini t d i idxs info E SU SL I. unfold user_points in E. destruct (Nat.eqb_spec (length ra) (length dec)) as [LE|]; [|discriminate E]. cbn [negb] in E. injection E as <- _.
    match type of SU with setup ?x _ _ = _ => set (s := x) in * end. assert (P := setup_points _ _ _ _ _ SU). injection P as P.
    assert (ND : NoDup (map fst (d_points d))) by (rewrite <- P; cbn; repeat constructor; cbn; intuition discriminate).
    assert (H := C260_info s t [] d i idxs info ltac:(discriminate) ND SU SL). rewrite <- P in H.
    split; [|split].
    - specialize (H "sid"%string _ eq_refl). cbn beta iota in H. rewrite !map_length, seq_length in H. cbn [s_nslice s] in H. rewrite map_length, Nat.eqb_refl in H. destruct H as [v [N G]]. rewrite G. rewrite nth_error_map in N. rewrite (nth_error_nth' _ 0%nat) in N by (rewrite seq_length; exact I). rewrite seq_nth in N by exact I. injection N as <-. reflexivity.
    - specialize (H "ra"%string _ eq_refl). cbn beta iota in H. rewrite !map_length in H. cbn [s_nslice s] in H. rewrite map_length, Nat.eqb_refl in H. destruct H as [v [N G]]. rewrite G. rewrite nth_num in N by exact I. injection N as <-. reflexivity.
    - specialize (H "dec"%string _ eq_refl). cbn beta iota in H. rewrite !map_length in H. cbn [s_nslice s] in H. rewrite map_length, LE, Nat.eqb_refl in H. destruct H as [v [N G]]. rewrite G. rewrite nth_num in N by (rewrite <- LE; exact I). injection N as <-. reflexivity.
  Qed.
  (** bins that a map adds for all points are cut down to one if they are as many as the points *)
Theorem C260_bins_refuted : forall ra dec bins s ini t d i idxs info, user_points galactic ra dec "fieldRA" "fieldDec" true 2.45 false 1.94 None "rotSkyPos" = Ok (s, ini) -> length bins = length ra ->
    setup s t [adds_key "starMapBins" (Array (map Num bins))] = Ok d -> slices s d i = Ok (idxs, info) -> (i < length ra)%nat ->
    dget String.eqb info "starMapBins"%string = Some (Single (Num (nth i bins 0))).
  Proof.
    intros ra dec bins s ini t d i idxs info E LB SU SL I. unfold user_points in E. destruct (Nat.eqb_spec (length ra) (length dec)) as [LE|]; [|discriminate E]. cbn [negb] in E. injection E as <- _.
    match type of SU with setup ?x _ _ = _ => set (s := x) in * end. assert (P := setup_points _ _ _ _ _ SU). unfold run_maps, adds_key in P. cbn [fold_left bind] in P. injection P as P.
    assert (ND : NoDup (map fst (d_points d))) by (rewrite <- P; cbn; repeat constructor; cbn; intuition discriminate).
    assert (H := C260_info s t _ d i idxs info ltac:(discriminate) ND SU SL). rewrite <- P in H. specialize (H "starMapBins"%string _ eq_refl). cbn beta iota in H. rewrite !map_length in H. cbn [s_nslice s] in H. rewrite map_length, LB, Nat.eqb_refl in H.
    destruct H as [v [N G]]. rewrite G. rewrite nth_error_map in N. rewrite (nth_error_nth' bins 0) in N by lia. injection N as <-. reflexivity.
  Qed.

  (** ** C261: a HealpixSubsetSlicer is the HealpixSlicer, for some pixels *)
Theorem C261_subset : forall nside hpid lonc latc deg cache radius camera cr file rotc s ini h inih t maps d,
    subset galactic pix2ang isnsideok npix nside hpid lonc latc deg cache radius camera cr file rotc = Ok (s, ini) ->
    healpix galactic pix2ang isnsideok npix nside lonc latc deg cache radius camera cr file rotc = Ok (h, inih) ->
    setup s t maps = Ok d ->
    setup h t maps = Ok d /\
    (forall i, In i hpid -> forall idxs info, slices h d i = Ok (idxs, info) -> exists info', slices s d i = Ok (idxs, info')) /\
    (forall i, ~ In i hpid -> exists info, slices s d i = Ok ([], info)) /\
    iterate order in_camera s d = all_slices order in_camera s d hpid /\ (forall i, In i hpid -> (i < npix nside)%nat).
  Proof.
    intros nside hpid lonc latc deg cache radius camera cr file rotc s ini h inih t maps d E EH SU. unfold subset in E. rewrite EH in E. cbn [bind] in E. destruct (existsb _ hpid) eqn:EX; [discriminate E|]. injection E as <- _.
    unfold healpix in EH. destruct (isnsideok nside); [|discriminate EH]. cbn [negb] in EH. injection EH as <- _. split; [exact SU|]. split; [|split; [|split]].
    - intros i I idxs info SL. unfold slice in *. cbn [s_class s_hpid s_nside s_nslice] in *. replace (existsb (Nat.eqb i) hpid) with true by (symmetry; apply existsb_exists; exists i; split; [exact I|apply Nat.eqb_refl]).
      unfold base_slice in *. destruct (at_point (d_points d) "ra" i) as [ra|]; [|discriminate SL]. destruct (at_point (d_points d) "dec" i) as [dec|]; [|discriminate SL]. cbn [bind] in *.
      destruct (point_info _ _ _ _) as [inf|]; [|discriminate SL]. cbn [bind] in SL. injection SL as <- _.
      assert (LT : (i < npix nside)%nat) by (cbn [s_nslice] in EX; apply Nat.nle_gt; intros G; assert (X : existsb (fun p => Nat.leb (npix nside) p) hpid = true) by (apply existsb_exists; exists i; split; [exact I|apply Nat.leb_le; exact G]); rewrite X in EX; discriminate EX).
      match goal with |- exists info', (do info <- point_info ?n ?i ?a ?b; _) = _ => destruct (info_ok n i a b LT) as [inf' ->] end. eexists. reflexivity.
    - intros i I. unfold slice. cbn [s_class s_hpid s_nside]. replace (existsb (Nat.eqb i) hpid) with false; [eexists; reflexivity|]. symmetry. apply Bool.not_true_is_false. intros X. apply existsb_exists in X. destruct X as [j [J Q]]. apply Nat.eqb_eq in Q. subst. contradiction.
    - reflexivity.
    - intros i I. cbn [s_nslice] in EX. apply Nat.nle_gt. intros G. assert (X : existsb (fun p => Nat.leb (npix nside) p) hpid = true) by (apply existsb_exists; exists i; split; [exact I|apply Nat.leb_le; exact G]). rewrite X in EX. discriminate EX.
  Qed.
Theorem C261_mask : forall nside hpid lonc latc deg cache radius camera cr file rotc s ini,
    subset galactic pix2ang isnsideok npix nside hpid lonc latc deg cache radius camera cr file rotc = Ok (s, ini) ->
    length (mask npix s) = npix nside /\ forall i, (i < npix nside)%nat -> (nth i (mask npix s) true = false <-> In i hpid).
  Proof.
    intros nside hpid lonc latc deg cache radius camera cr file rotc s ini E. unfold subset in E. destruct (healpix _ _ _ _ _ _ _ _ _ _ _ _ _ _) as [[h inih]|] eqn:EH; [|discriminate E]. cbn [bind] in E. destruct (existsb _ hpid); [discriminate E|]. injection E as <- _.
    unfold healpix in EH. destruct (isnsideok nside); [|discriminate EH]. cbn [negb] in EH. injection EH as <- _. unfold mask. cbn [s_hpid s_nside].
    assert (SN : forall (m : list bool) p i, length (set_nth m p false) = length m /\ ((i < length m)%nat -> nth i (set_nth m p false) true = if Nat.eqb i p then false else nth i m true)).
    { clear. induction m as [|b m IH]; intros p i; [split; [reflexivity|cbn; lia]|]. destruct p as [|p]; cbn [set_nth length].
      - split; [reflexivity|]. intros L. destruct i; reflexivity.
      - destruct (IH p (pred i)) as [I1 I2]. split; [rewrite I1; reflexivity|]. intros L. destruct i as [|i]; [reflexivity|]. cbn [nth Nat.eqb pred] in *. apply I2. lia. }
    assert (GEN : forall l m, length (fold_left (fun m p => set_nth m p false) l m) = length m /\ forall i, (i < length m)%nat -> (nth i (fold_left (fun m p => set_nth m p false) l m) true = false <-> In i l \/ nth i m true = false)).
    { clear - SN. induction l as [|p l IH]; intros m; [split; [reflexivity|]; intros i L; cbn; intuition|]. cbn [fold_left]. destruct (IH (set_nth m p false)) as [I1 I2]. destruct (SN m p 0%nat) as [S1 _]. split; [rewrite I1; exact S1|]. intros i L. rewrite I2 by (rewrite S1; exact L). destruct (SN m p i) as [_ S2]. rewrite (S2 L). cbn [In]. destruct (Nat.eqb_spec i p); intuition congruence. }
    destruct (GEN hpid (repeat true (npix nside))) as [G1 G2]. rewrite repeat_length in *. split; [exact G1|]. intros i L. rewrite (G2 i L). rewrite nth_repeat. intuition discriminate.
  Qed.
Theorem C261_circle : forall separation ra dec radius nside i, In i (circle_pixels pix2ang npix separation ra dec radius nside) <->
    (i < npix nside)%nat /\ separation ra dec (snd (pix2ang nside i) * 180 / PI) (90 - fst (pix2ang nside i) * 180 / PI) <= radius.
  Proof.
    intros separation ra dec radius nside i. unfold circle_pixels, pix2radec. rewrite filter_In, in_seq. destruct (pix2ang nside i) as [la r]. cbn [fst snd]. assert (P := PI_RGT_0). replace ((PI / 2 - la) * 180 / PI) with (90 - la * 180 / PI) by (field; lra).
    destruct (Rle_dec (separation ra dec (r * 180 / PI) (90 - la * 180 / PI)) radius); intuition; try lia; discriminate.
  Qed.

  (** ** C262: equal slicers slice alike *)
  Definition made (s : slicer) (ini : init) : Prop :=
    (exists ra dec lonc latc deg radius camera cr file rotc, user_points galactic ra dec lonc latc deg radius camera cr file rotc = Ok (s, ini)) \/
    (exists nside lonc latc deg cache radius camera cr file rotc, healpix galactic pix2ang isnsideok npix nside lonc latc deg cache radius camera cr file rotc = Ok (s, ini)) \/
    (exists nside hpid lonc latc deg cache radius camera cr file rotc, subset galactic pix2ang isnsideok npix nside hpid lonc latc deg cache radius camera cr file rotc = Ok (s, ini)).
  Lemma made_healpix : forall s ini, made s ini -> s_class s <> UserPoints -> s_points s = s_points (match healpix galactic pix2ang isnsideok npix (s_nside s) "" "" true true 0 true 0 None "" with Ok (h, _) => h | Err _ => s end) /\ s_nslice s = npix (s_nside s).
  Proof.
    intros s ini [[ra [dec [lonc [latc [deg [radius [camera [cr [file [rotc E]]]]]]]]]]|[[nside [lonc [latc [deg [cache [radius [camera [cr [file [rotc E]]]]]]]]]]|[nside [hpid [lonc [latc [deg [cache [radius [camera [cr [file [rotc E]]]]]]]]]]]]] C.
    - unfold user_points in E. destruct (Nat.eqb (length ra) (length dec)); [|discriminate E]. injection E as <- _. exfalso. apply C. reflexivity.
    - unfold healpix in *. destruct (isnsideok nside) eqn:OKN; [|discriminate E]. cbn [negb] in E. injection E as <- _. cbn [s_nside]. rewrite OKN. split; reflexivity.
    - unfold subset, healpix in *. destruct (isnsideok nside) eqn:OKN; [|discriminate E]. cbn [negb bind] in E. destruct (existsb _ hpid); [discriminate E|]. injection E as <- _. cbn [s_nside]. rewrite OKN. split; reflexivity.
  Qed.
Theorem C262_alike_partial : forall a ia b ib, made a ia -> made b ib -> py_eq a b = true -> s_deg a = s_deg b -> s_camera_radius a = s_camera_radius b -> s_camera_file a = s_camera_file b ->
    forall t maps, setup a t maps = setup b t maps /\ forall d, iterate order in_camera a d = iterate order in_camera b d.
  Proof.
    intros a ia b ib MA MB E D1 D2 D3.
    assert (X : s_class a = s_class b /\ common a b = true /\ s_points a = s_points b /\ s_nslice a = s_nslice b /\ (s_class b = HealpixSubset -> s_hpid a = s_hpid b /\ s_nside a = s_nside b)).
    { assert (HPX : s_class a <> UserPoints -> s_class b <> UserPoints -> s_nside a = s_nside b -> s_points a = s_points b /\ s_nslice a = s_nslice b).
      { intros CA CB N. destruct (made_healpix a ia MA CA) as [P1 N1]. destruct (made_healpix b ib MB CB) as [P2 N2]. rewrite P1, P2, N1, N2, N. split; [|reflexivity]. unfold healpix. destruct (isnsideok (s_nside b)) eqn:OKN; [reflexivity|]. exfalso.
        clear - MB CB OKN. destruct MB as [[ra [dec [lonc [latc [deg [radius [camera [cr [file [rotc E]]]]]]]]]]|[[nside [lonc [latc [deg [cache [radius [camera [cr [file [rotc E]]]]]]]]]]|[nside [hpid [lonc [latc [deg [cache [radius [camera [cr [file [rotc E]]]]]]]]]]]]].
        - unfold user_points in E. destruct (Nat.eqb (length ra) (length dec)); [|discriminate E]. injection E as <- _. apply CB. reflexivity.
        - unfold healpix in E. destruct (isnsideok nside) eqn:O; [|discriminate E]. injection E as <- _. cbn [s_nside] in OKN. rewrite O in OKN. discriminate OKN.
        - unfold subset, healpix in E. destruct (isnsideok nside) eqn:O; [|discriminate E]. cbn [negb bind] in E. destruct (existsb _ hpid); [discriminate E|]. injection E as <- _. cbn [s_nside] in OKN. rewrite O in OKN. discriminate OKN. }
      unfold py_eq in E. destruct (s_class a) eqn:CA; destruct (s_class b) eqn:CB; unfold eq_method in E; rewrite ?CA, ?CB in E; unfold eq_points, eq_healpix, eq_subset in E; rewrite ?CA, ?CB, ?Bool.andb_false_r in E; cbn [andb] in E; try discriminate E.
      - rewrite !Bool.andb_true_iff in E. destruct E as [[[[[_ _] N] ERA] EDE] CM]. apply Nat.eqb_eq in N. split; [reflexivity|]. split; [exact CM|].
        assert (PP : s_points a = s_points b).
        { destruct MA as [[ra [dec [lonc [latc [deg [radius [camera [cr [file [rotc EA]]]]]]]]]]|[[nside [lonc [latc [deg [cache [radius [camera [cr [file [rotc EA]]]]]]]]]]|[nside [hpid [lonc [latc [deg [cache [radius [camera [cr [file [rotc EA]]]]]]]]]]]]];
            [|unfold healpix in EA; destruct (isnsideok nside); [|discriminate EA]; injection EA as <- _; discriminate CA|unfold subset, healpix in EA; destruct (isnsideok nside); [|discriminate EA]; cbn [negb bind] in EA; destruct (existsb _ hpid); [discriminate EA|]; injection EA as <- _; discriminate CA].
          destruct MB as [[ra' [dec' [lonc' [latc' [deg' [radius' [camera' [cr' [file' [rotc' EB]]]]]]]]]]|[[nside [lonc' [latc' [deg' [cache [radius' [camera' [cr' [file' [rotc' EB]]]]]]]]]]|[nside [hpid [lonc' [latc' [deg' [cache [radius' [camera' [cr' [file' [rotc' EB]]]]]]]]]]]]];
            [|unfold healpix in EB; destruct (isnsideok nside); [|discriminate EB]; injection EB as <- _; discriminate CB|unfold subset, healpix in EB; destruct (isnsideok nside); [|discriminate EB]; cbn [negb bind] in EB; destruct (existsb _ hpid); [discriminate EB|]; injection EB as <- _; discriminate CB].
          unfold user_points in EA, EB. destruct (Nat.eqb (length ra) (length dec)); [|discriminate EA]. destruct (Nat.eqb (length ra') (length dec')); [|discriminate EB]. cbn [negb] in EA, EB. injection EA as <- _. injection EB as <- _.
          unfold entry_at_eqb in ERA, EDE. cbn [s_points dget String.eqb Ascii.eqb Bool.eqb] in *. apply entry_eqb_eq in ERA. apply entry_eqb_eq in EDE. injection ERA as ERA. injection EDE as EDE.
          assert (INJ : forall l m : list R, map Num l = map Num m -> l = m) by (clear; induction l as [|x l IH]; intros [|y m] H; try discriminate H; [reflexivity|]; injection H as -> H; f_equal; apply IH; exact H).
          apply INJ in ERA. apply INJ in EDE. rewrite ERA, EDE. reflexivity. }
        split; [exact PP|]. split; [symmetry; exact N|discriminate].
      - rewrite !Bool.andb_true_iff in E. destruct E as [[N CM] _]. apply Z.eqb_eq in N. destruct HPX as [P1 P2]; try discriminate; [congruence|]. split; [reflexivity|]. split; [exact CM|]. split; [exact P1|]. split; [exact P2|discriminate].
      - rewrite !Bool.andb_true_iff in E. destruct E as [[N HP] CM]. apply Z.eqb_eq in N. destruct HPX as [P1 P2]; try discriminate; [congruence|]. split; [reflexivity|]. split; [exact CM|]. split; [exact P1|]. split; [exact P2|]. intros _. destruct (list_eq_dec Nat.eq_dec (s_hpid b) (s_hpid a)) as [H|]; [|discriminate HP]. split; congruence. }
    destruct X as [C [CM [P [N HP]]]]. apply common_spec in CM. destruct CM as [C1 [C2 [C3 [C4 [C5 _]]]]]. intros t maps. split.
    - unfold setup_slicer. rewrite C1, C2, C5, P, D1. reflexivity.
    - intros d. assert (SL : forall i, slices a d i = slices b d i).
      { intros i. unfold slice. rewrite C. assert (BS : forall st, base_slice order in_camera a d st i = base_slice order in_camera b d st i) by (intros st; unfold base_slice, found, near; rewrite C3, C4, D2, D3, N; reflexivity).
        destruct (s_class b); rewrite ?BS; try reflexivity. destruct HP as [-> ->]; reflexivity. }
      unfold iterate, order_of_slices. rewrite C, N. assert (AS : forall l, all_slices order in_camera a d l = all_slices order in_camera b d l) by (induction l as [|i l IH]; [reflexivity|]; cbn [all_slices]; rewrite SL, IH; reflexivity).
      rewrite AS. destruct (s_class b); try reflexivity. destruct HP as [-> _]; reflexivity.
  Qed.
Theorem C262_symmetric_partial : forall a b, s_class a <> UserPoints -> s_class b <> UserPoints -> py_eq a b = py_eq b a.
  Proof.
    intros a b CA CB. unfold py_eq. destruct (s_class a) eqn:A; destruct (s_class b) eqn:B; try contradiction; try reflexivity; unfold eq_method; rewrite ?A, ?B; unfold eq_healpix, eq_subset; rewrite ?A, ?B; cbn [andb]; rewrite (common_sym a b), (Z.eqb_sym (s_nside b)).
    - destruct (s_cache a); destruct (s_cache b); reflexivity.
    - destruct (list_eq_dec Nat.eq_dec (s_hpid b) (s_hpid a)); destruct (list_eq_dec Nat.eq_dec (s_hpid a) (s_hpid b)); congruence.
  Qed.
End Slicers.
Print Assumptions C259_points.
Print Assumptions C259_healpix.
Print Assumptions C259_rotation_refuted.
Print Assumptions C260_info.
Print Assumptions C260_position.
Print Assumptions C260_bins_refuted.
Print Assumptions C261_subset.
Print Assumptions C261_mask.
Print Assumptions C261_circle.
Print Assumptions C262_alike_partial.
Print Assumptions C262_symmetric_partial.
