(** C264: JSON output of metric values; C265: OneDSlicer; cases for C259-C263. *)
From Coq Require Import Reals Lra Lia Permutation Psatz.
From Verif Require Import Base Spatial_Model DirectObs_Spec DirectObs_Proofs Spatial_Spec Spatial_Proofs Spatial_Props Spatial_Props2.
Open Scope R_scope.

(** a point, and a visit right there *)
Example C259_case : exists s ini d idxs info, user_points pair [10; 200] [20; -30] "fieldRA" "fieldDec" true 2.45 true 1.94 None "rotSkyPos" = Ok (s, ini) /\
  setup_slicer (fun _ _ => true) s [("fieldRA", [10; 90]); ("fieldDec", [20; 0]); ("rotSkyPos", [0; 0])]%string [] = Ok d /\
  slice (fun l => l) (fun _ _ _ _ _ _ _ => true) s d 0 = Ok (idxs, info) /\ In 0%nat idxs.
Proof.
  eexists. eexists. eexists. assert (RAD : 0 <= 2.45 <= 180) by lra. assert (I1 : (0 < length [10; 200])%nat) by (cbn; lia).
  destruct (C259_points pair (fun _ _ => true) (fun l => l) (fun _ _ _ _ _ _ _ => true) (fun l => Permutation_refl l) [10; 200] [20; -30] "fieldRA" "fieldDec" true 2.45 true 1.94 None "rotSkyPos" _ _ [("fieldRA", [10; 90]); ("fieldDec", [20; 0]); ("rotSkyPos", [0; 0])]%string [] _ [10; 90] [20; 0] [0; 0] 0 RAD (Forall_nil _) eq_refl eq_refl eq_refl eq_refl eq_refl eq_refl eq_refl I1) as [idxs [info [E P]]].
  exists idxs, info. split; [reflexivity|]. split; [reflexivity|]. split; [exact E|]. apply (Permutation_in _ (Permutation_sym P)). apply filter_In. split; [left; reflexivity|]. unfold in_circle, in_footprint. cbn [nth in_degrees]. rewrite own_place. destruct (Rle_dec 0 2.45); [reflexivity|lra].
Qed.
(** twelve pixels, two of which are asked for *)
Example C261_case : exists s ini h inih d, subset pair (fun _ i => (INR i / 10, 0)) (fun n => Z.eqb n 1) (fun n => Z.to_nat (12 * n * n)) 1 [3; 5]%nat "fieldRA" "fieldDec" true true 1.75 false 1.94 None "rotSkyPos" = Ok (s, ini) /\
  healpix pair (fun _ i => (INR i / 10, 0)) (fun n => Z.eqb n 1) (fun n => Z.to_nat (12 * n * n)) 1 "fieldRA" "fieldDec" true true 1.75 false 1.94 None "rotSkyPos" = Ok (h, inih) /\
  setup_slicer (fun _ _ => true) s [("fieldRA", [10; 90]); ("fieldDec", [20; 0]); ("rotSkyPos", [0; 0])]%string [] = Ok d /\
  mask (fun n => Z.to_nat (12 * n * n)) s = [true; true; true; false; true; false; true; true; true; true; true; true].
Proof. eexists. eexists. eexists. eexists. eexists. split; [reflexivity|]. split; [reflexivity|]. split; reflexivity. Qed.
(** a slicer that is saved and restored *)
Example C263_case : exists s ini s' ini', made pair (fun _ i => (INR i / 10, 0)) (fun n => Z.eqb n 1) (fun n => Z.to_nat (12 * n * n)) s ini /\
  read_data pair (fun _ i => (INR i / 10, 0)) (fun n => Z.eqb n 1) (fun n => Z.to_nat (12 * n * n)) (write_data s ini (Plain [1; 2])) = Ok (parts (Plain [1; 2]), s', ini') /\ s_camera s = false /\ s_camera s' = true.
Proof.
  eexists. eexists. eexists. eexists. split; [left; exists [10; 200], [20; -30], "fieldRA"%string, "fieldDec"%string, true, 2.45, false, 1.94, None, "rotSkyPos"%string; reflexivity|]. split; [reflexivity|]. split; reflexivity.
Qed.
(** two slicers that are equal *)
Example C262_case : exists a ia b ib, made pair (fun _ i => (INR i / 10, 0)) (fun n => Z.eqb n 1) (fun n => Z.to_nat (12 * n * n)) a ia /\ made pair (fun _ i => (INR i / 10, 0)) (fun n => Z.eqb n 1) (fun n => Z.to_nat (12 * n * n)) b ib /\
  s_radius a = 1.75 /\ py_eq a b = true /\ s_deg a = s_deg b /\ s_camera_radius a = s_camera_radius b /\ s_camera_file a = s_camera_file b.
Proof.
  destruct (user_points pair [10; 200] [20; -30] "fieldRA" "fieldDec" true 1.75 false 1.94 None "rotSkyPos") as [[a ia]|] eqn:E; [|discriminate E]. exists a, ia, a, ia.
  assert (M : made pair (fun _ i => (INR i / 10, 0)) (fun n => Z.eqb n 1) (fun n => Z.to_nat (12 * n * n)) a ia) by (left; exists [10; 200], [20; -30], "fieldRA"%string, "fieldDec"%string, true, 1.75, false, 1.94, None, "rotSkyPos"%string; exact E).
  split; [exact M|]. split; [exact M|]. split; [injection E as <- _; reflexivity|]. split; [exact (equal_points pair _ _ _ _ _ _ _ _ _ _ _ _ _ _ _ _ _ E E)|]. repeat split.
Qed.

(** ** C264 *)
Theorem C264_spatial : forall ra dec data m, length dec = length ra -> length data = length ra -> length m = length ra ->
  output_json Float (Positions ra dec) (MaArray data (Some m)) =
    Ok (Some (map (fun i => nums [nth i ra 0 * 180 / PI; nth i dec 0 * 180 / PI; nth i data 0]) (filter (fun i => negb (nth i m true)) (seq 0 (length ra))))).
Proof.
  intros ra dec data m L1 L2 L3. unfold output_json. cbn [json_allowed negb orb]. do 2 f_equal. unfold json_masked. revert dec data m L1 L2 L3.
  induction ra as [|r ra IH]; intros [|d dec] [|v data] [|b m] L1 L2 L3; try discriminate; [reflexivity|]. injection L1 as L1. injection L2 as L2. injection L3 as L3. cbn [combine flat_map length seq filter]. change (nth 0 (b :: m) true) with b.
  rewrite <- seq_shift. rewrite (IH dec data m L1 L2 L3).
  assert (SH : forall l, filter (fun i => negb (nth i (b :: m) true)) (map S l) = map S (filter (fun i => negb (nth i m true)) l)) by (induction l as [|i l H]; [reflexivity|]; cbn [map filter]; change (nth (S i) (b :: m) true) with (nth i m true); rewrite H; destruct (nth i m true); reflexivity).
  rewrite SH. destruct b; cbn [negb app map nth]; rewrite map_map; reflexivity.
Qed.
Print Assumptions C264_spatial.
Theorem C264_spatial_plain : forall ra dec data, length dec = length ra -> length data = length ra ->
  output_json Float (Positions ra dec) (NdArray data) = Ok (Some (map (fun i => nums [nth i ra 0 * 180 / PI; nth i dec 0 * 180 / PI; nth i data 0]) (seq 0 (length ra)))).
Proof.
  intros ra dec data L1 L2. unfold output_json. cbn [json_allowed negb orb]. do 2 f_equal. unfold json_plain. revert dec data L1 L2.
  induction ra as [|r ra IH]; intros [|d dec] [|v data] L1 L2; try discriminate; [reflexivity|]. injection L1 as L1. injection L2 as L2. cbn [combine map length seq nth]. rewrite <- seq_shift, map_map. f_equal. exact (IH dec data L1 L2).
Qed.
Print Assumptions C264_spatial_plain.
Lemma bins_rows : forall data bins m i, (i + length data <= length bins)%nat -> (i + length data <= length m)%nat ->
  json_bins_ bins data m i = Ok (map (fun j => nums [nth (i + j) bins 0; if nth (i + j) m true then 0 else nth j data 0]) (seq 0 (length data))).
Proof.
  induction data as [|v data IH]; intros bins m i L1 L2; [reflexivity|]. cbn [length] in L1, L2. cbn [json_bins_]. unfold arr_get. rewrite (nth_error_nth' bins 0) by lia. rewrite (nth_error_nth' m true) by lia. cbn [bind].
  rewrite IH by lia. cbn [bind length seq map nth]. rewrite Nat.add_0_r. rewrite <- seq_shift, map_map. f_equal. f_equal; [destruct (nth i m true); reflexivity|]. apply map_ext. intros j. rewrite Nat.add_succ_r. reflexivity.
Qed.
Theorem C264_bins : forall bins data m, data <> [] -> length bins = S (length data) -> length m = length data ->
  output_json Float (Edges bins) (MaArray data (Some m)) =
    Ok (Some (map (fun i => nums [nth i bins 0; if nth i m true then 0 else nth i data 0]) (seq 0 (length data)) ++ [nums [nth (length data) bins 0; 0]])).
Proof.
  intros bins data m NE L1 L2. unfold output_json, json_bins_masked. cbn [json_allowed negb orb]. rewrite bins_rows by lia. cbn [bind Nat.add]. unfold arr_get. rewrite (nth_error_nth' bins 0) by lia. destruct data; [contradiction NE; reflexivity|]. reflexivity.
Qed.
Print Assumptions C264_bins.
(** integers are refused, although they are documented *)
Theorem C264_int_refuted : forall w v, output_json Int w v = Ok None.
Proof. reflexivity. Qed.
Print Assumptions C264_int_refuted.
(** values in bins without a mask never give JSON; nor does what read_data gives back of an array that had no mask *)
Theorem C264_bins_refuted : forall bins data, exists e, output_json Float (Edges bins) (NdArray data) = Err e.
Proof.
  intros bins data. unfold output_json, json_bins_plain. cbn [json_allowed negb orb]. destruct (json_bins_ _ _ _ _) as [l|e]; [|exists e; reflexivity]. cbn [bind]. destruct data; [eexists; reflexivity|]. destruct (arr_get bins _) as [b|e]; eexists; reflexivity.
Qed.
Print Assumptions C264_bins_refuted.
Theorem C264_restored_refuted : forall galactic pix2ang isnsideok npix s ini l, made galactic pix2ang isnsideok npix s ini -> exists values s' ini',
  read_data galactic pix2ang isnsideok npix (write_data s ini (Plain l)) = Ok (values, None, None, s', ini') /\ forall w, exists e, output_json Float w (MaArray values None) = Err e.
Proof.
  intros galactic pix2ang isnsideok npix s ini l M. destruct (C263_restored galactic pix2ang isnsideok npix s ini (Plain l) M) as [s' [ini' [E _]]]. exists l, s', ini'. split; [exact E|]. intros [ra dec|bins]; [exists TypeError; reflexivity|]. destruct l; eexists; reflexivity.
Qed.
Print Assumptions C264_restored_refuted.
Example C264_case : output_json Float (Edges [0; 1; 2]) (MaArray [7; 8] (Some [false; true])) = Ok (Some [nums [0; 7]; nums [1; 0]; nums [2; 0]]).
Proof. rewrite C264_bins by (discriminate || reflexivity). reflexivity. Qed.

(** ** C265: OneDSlicer *)
(** bins that are given together with limits are documented to be used; but they raise *)
Theorem C265_given_refuted : forall col bins bmin bmax bsize, bmin <> None \/ bmax <> None \/ bsize <> None -> new_one_d (Some col) (Some bins) bmin bmax bsize = Err AttributeError.
Proof. intros col bins bmin bmax bsize H. unfold new_one_d, is_some. destruct bmin; destruct bmax; destruct bsize; cbn; try reflexivity. destruct H as [H|[H|H]]; contradiction H; reflexivity. Qed.
Print Assumptions C265_given_refuted.
Lemma reals_eqb_eq : forall a b, reals_eqb a b = true <-> a = b.
Proof. intros a b. unfold reals_eqb. destruct (list_eq_dec Req_EM_T a b); intuition discriminate. Qed.
Lemma real_eqb_eq : forall a b, real_eqb a b = true <-> a = b.
Proof. intros a b. unfold real_eqb. destruct (Req_EM_T a b); intuition discriminate. Qed.
Lemma reals_sym : forall a b, reals_eqb a b = reals_eqb b a.
Proof. intros a b. destruct (reals_eqb a b) eqn:E; symmetry; [apply reals_eqb_eq in E; subst; apply reals_eqb_eq; reflexivity|]. apply Bool.not_true_is_false. intros H. apply reals_eqb_eq in H. subst. rewrite (proj2 (reals_eqb_eq a a) eq_refl) in E. discriminate E. Qed.
Lemma real_sym : forall a b, real_eqb a b = real_eqb b a.
Proof. intros a b. unfold real_eqb. destruct (Req_EM_T a b); destruct (Req_EM_T b a); congruence. Qed.
Theorem C265_symmetric : forall a b, eq_one_d a b = eq_one_d b a.
Proof.
  intros a b. unfold eq_one_d. rewrite (String.eqb_sym (o_col b)). destruct (String.eqb (o_col a) (o_col b)); [|reflexivity].
  destruct (o_set a); destruct (o_set b); try apply reals_sym; destruct (o_bins a); destruct (o_bins b); try apply reals_sym;
    destruct (o_size a); destruct (o_min a); destruct (o_max a); destruct (o_size b); destruct (o_min b); destruct (o_max b); try reflexivity; rewrite (real_sym r), (real_sym r0), (real_sym r1); reflexivity.
Qed.
Print Assumptions C265_symmetric.
(** slicers that say they are equal, and were set up, have the same bins of the same column *)
Theorem C265_bins_partial : forall a b x y, o_set a = Some x -> o_set b = Some y -> (eq_one_d a b = true <-> o_col a = o_col b /\ x = y).
Proof. intros a b x y A B. unfold eq_one_d. rewrite A, B. destruct (String.eqb_spec (o_col a) (o_col b)); [rewrite reals_eqb_eq|]; intuition congruence. Qed.
Print Assumptions C265_bins_partial.
(** before that a slicer is equal to itself only if all about its bins was given *)
Theorem C265_itself_refuted : forall col bmin bmax bsize s, new_one_d (Some col) None bmin bmax bsize = Ok s -> (eq_one_d s s = true <-> bmin <> None /\ bmax <> None /\ bsize <> None).
Proof.
  intros col bmin bmax bsize s E. unfold new_one_d in E. cbn [is_some andb] in E. injection E as <-. unfold eq_one_d. cbn [o_col o_set o_bins o_size o_min o_max]. rewrite String.eqb_refl.
  destruct bmin as [l|]; destruct bmax as [h|]; destruct bsize as [z|]; try (split; [discriminate|intros [A [B C]]; congruence]). rewrite !(proj2 (real_eqb_eq _ _) eq_refl). split; [repeat split; discriminate|reflexivity].
Qed.
Print Assumptions C265_itself_refuted.
Example C265_case : exists s, new_one_d (Some "night"%string) None None None (Some 1) = Ok s /\ eq_one_d s s = false.
Proof. eexists. split; [reflexivity|]. unfold eq_one_d. cbn [o_col o_set o_bins o_size o_min o_max]. rewrite String.eqb_refl. reflexivity. Qed.
