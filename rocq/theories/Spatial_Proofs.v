(** Proofs about spatial slicers. *)
From Coq Require Import Reals Lra Lia Permutation Psatz.
From Verif Require Import Base Spatial_Model DirectObs_Spec DirectObs_Proofs Spatial_Spec.
From Verif Require SelfCat_Model SelfCat_Proofs.
Open Scope R_scope.

Lemma deg_rad : forall x, radians (x * 180 / PI) = x.
Proof. intros x. unfold radians. assert (P := PI_RGT_0). field. lra. Qed.
Lemma rad_deg : forall x, radians x * 180 / PI = x.
Proof. intros x. unfold radians. assert (P := PI_RGT_0). field. lra. Qed.
(** the test of the chord is a test of the angle *)
Lemma chord_angle : forall r d r' d' radius, 0 <= radius <= 180 ->
  chord (xyz (radians r) (radians d)) (xyz (radians r') (radians d')) <= angular_radius radius <-> great_circle r d r' d' <= radius.
Proof.
  intros r d r' d' radius H. unfold chord, angular_radius, xyz. rewrite SelfCat_Proofs.chord_dot.
  change (chord (1, 0, 0) (SelfCat_Model.treexyz (radians radius) 0)) with (SelfCat_Model.tree_radius radius). rewrite SelfCat_Proofs.radius_cos.
  assert (G : great_circle r d r' d' = acos (dot (radians r) (radians d) (radians r') (radians d')) * 180 / PI).
  { unfold great_circle, radians. cbv zeta. rewrite dot_formula. reflexivity. }
  rewrite G, SelfCat_Proofs.deg_le. assert (B := dot_bound (radians r) (radians d) (radians r') (radians d')). assert (P := PI_RGT_0).
  assert (RB : 0 <= SelfCat_Model.radians radius <= PI) by (unfold SelfCat_Model.radians; split; [apply Rmult_le_pos; [apply Rmult_le_pos; lra|lra]|]; apply (Rmult_le_reg_r 180); [lra|]; replace (radius * PI / 180 * 180) with (radius * PI) by field; nra).
  rewrite SelfCat_Proofs.acos_le_iff by assumption. assert (CB := COS_bound (SelfCat_Model.radians radius)). split; intros L.
  - apply sqrt_le_0 in L; lra.
  - apply sqrt_le_1_alt. lra.
Qed.
Lemma conv_in_degrees : forall (b : bool) l k, (k < length l)%nat -> nth k ((if b then map radians else fun l => l) l) 0 = radians (in_degrees b (nth k l 0)).
Proof.
  intros b l k L. destruct b; cbn [in_degrees].
  - rewrite (nth_indep _ 0 (radians 0)) by (rewrite map_length; exact L). apply map_nth.
  - rewrite deg_rad. reflexivity.
Qed.

Section Slicers.
  Context (tree_ok : list R -> list R -> bool) (order : list nat -> list nat) (in_camera : R -> option string -> R -> R -> R -> R -> R -> bool).
  Lemma permutation_filter : forall {A} (f : A -> bool) l l', Permutation l l' -> Permutation (filter f l) (filter f l').
  Proof.
    intros A f l l' P. induction P as [|x l l' P IH|x y l|l l' l'' P1 IH1 P2 IH2]; [constructor| | |].
    - cbn [filter]. destruct (f x); [constructor|]; exact IH.
    - cbn [filter]. destruct (f x); destruct (f y); try apply Permutation_refl. constructor.
    - eapply Permutation_trans; eassumption.
  Qed.
  Lemma filter_filter : forall {A} (f g : A -> bool) l, filter f (filter g l) = filter (fun x => (g x && f x)%bool) l.
  Proof. induction l as [|x l IH]; [reflexivity|]. cbn [filter]. destruct (g x); cbn [filter andb]; [destruct (f x); rewrite IH; reflexivity|exact IH]. Qed.
  (** which visits are found at a position in degrees *)
  Lemma found_visits : forall s t maps d lon lat rot ra dec, (forall l, Permutation (order l) l) -> 0 <= s_radius s <= 180 ->
    setup_slicer tree_ok s t maps = Ok d -> column t (s_lon s) = Ok lon -> column t (s_lat s) = Ok lat -> column t (s_rot s) = Ok rot -> length lat = length lon -> length rot = length lon ->
    Permutation (found order in_camera s d (radians ra) (radians dec))
      (filter (fun k => (in_circle (s_deg s) (s_radius s) ra dec lon lat k && (negb (s_camera s) || in_footprint (in_camera (s_camera_radius s) (s_camera_file s)) (s_deg s) ra dec lon lat rot k))%bool) (seq 0 (length lon))).
  Proof.
    intros s t maps d lon lat rot ra dec ORD RAD E LO LA RO L1 L2. unfold setup_slicer in E. destruct (run_maps maps (s_points s)) as [p|]; [|discriminate E]. cbn [bind] in E. rewrite LO, LA, RO in E. cbn [bind] in E.
    destruct (tree_ok _ _); [|discriminate E]. injection E as <-. unfold found, near. cbn [d_ra d_dec d_rot].
    set (cv := if s_deg s then map radians else fun l => l).
    assert (LC : length (cv lon) = length lon) by (unfold cv; destruct (s_deg s); [apply map_length|reflexivity]). rewrite LC.
    set (near := filter _ (seq 0 (length lon))).
    assert (NE : near = filter (in_circle (s_deg s) (s_radius s) ra dec lon lat) (seq 0 (length lon))).
    { unfold near. apply filter_ext_in. intros k I. apply in_seq in I. unfold cv. rewrite !conv_in_degrees by lia. unfold in_circle.
      assert (C := chord_angle (in_degrees (s_deg s) (nth k lon 0)) (in_degrees (s_deg s) (nth k lat 0)) ra dec (s_radius s) RAD).
      destruct (Rle_dec (chord _ _) _) as [X|X]; destruct (Rle_dec (great_circle _ _ _ _) _) as [Y|Y]; try reflexivity; exfalso; tauto. }
    rewrite NE. destruct (s_camera s); cbn [negb orb].
    - eapply Permutation_trans; [apply permutation_filter; apply ORD|]. rewrite filter_filter. replace (filter (fun x => (in_circle (s_deg s) (s_radius s) ra dec lon lat x && in_camera (s_camera_radius s) (s_camera_file s) (radians ra) (radians dec) (nth x (cv lon) 0) (nth x (cv lat) 0) (nth x (cv rot) 0))%bool) (seq 0 (length lon)))
        with (filter (fun k => (in_circle (s_deg s) (s_radius s) ra dec lon lat k && in_footprint (in_camera (s_camera_radius s) (s_camera_file s)) (s_deg s) ra dec lon lat rot k)%bool) (seq 0 (length lon))); [apply Permutation_refl|].
      apply filter_ext_in. intros k I. apply in_seq in I. f_equal. unfold in_footprint, cv, rad. rewrite !conv_in_degrees by lia. reflexivity.
    - eapply Permutation_trans; [apply ORD|]. replace (filter (fun k => (in_circle (s_deg s) (s_radius s) ra dec lon lat k && true)%bool) (seq 0 (length lon))) with (filter (in_circle (s_deg s) (s_radius s) ra dec lon lat) (seq 0 (length lon))); [apply Permutation_refl|].
      apply filter_ext. intros k. rewrite Bool.andb_true_r. reflexivity.
  Qed.

  (** maps that add *)
  Lemma maps_keep : forall maps p q, Forall adds maps -> run_maps maps p = Ok q -> forall k v, dget String.eqb p k = Some v -> dget String.eqb q k = Some v.
  Proof.
    unfold run_maps. induction maps as [|m maps IH]; intros p q F E k v G; [injection E as <-; exact G|]. cbn [fold_left bind] in E. inversion F as [|? ? A B]; subst. destruct (m p) as [p'|e] eqn:M.
    - eapply IH; [exact B|exact E|]. eapply A; [exact M|exact G].
    - exfalso. clear - E. assert (X : forall maps, fold_left (fun (r : result points) m => do q <- r; m q) maps (Err e) = Err e) by (clear; induction maps as [|m maps IH]; [reflexivity|exact IH]). rewrite X in E. discriminate E.
  Qed.
  Lemma setup_points : forall s t maps d, setup_slicer tree_ok s t maps = Ok d -> run_maps maps (s_points s) = Ok (d_points d).
  Proof.
    intros s t maps d E. unfold setup_slicer in E. destruct (run_maps maps (s_points s)) as [p|]; [|discriminate E]. cbn [bind] in E. destruct (column t (s_lon s)); [|discriminate E]. destruct (column t (s_lat s)); [|discriminate E]. destruct (column t (s_rot s)); [|discriminate E].
    cbn [bind] in E. destruct (tree_ok _ _); [|discriminate E]. injection E as <-. reflexivity.
  Qed.
  Lemma point_at : forall p key l i x, dget String.eqb p key = Some (Array l) -> nth_error l i = Some (Num x) -> at_point p key i = Ok x.
  Proof. intros p key l i x G N. unfold at_point. rewrite G. unfold arr_get. rewrite N. reflexivity. Qed.

  (** information about a slice *)
  Definition told (nslice i : nat) (e : entry) (r : entry) : Prop :=
    match e with Array l => if Nat.eqb (length l) nslice then exists v, nth_error l i = Some v /\ r = Single v else r = e | Single _ => r = e end.
  Lemma dget_dset : forall {V} (d : list (string * V)) k v k', dget String.eqb (dset String.eqb d k v) k' = if String.eqb k' k then Some v else dget String.eqb d k'.
  Proof.
    induction d as [|[a b] d IH]; intros k v k'.
    - cbn [dset dget]. reflexivity.
    - cbn [dset]. destruct (String.eqb_spec k a) as [->|N]; cbn [dget]; [destruct (String.eqb k' a); reflexivity|]. destruct (String.eqb_spec k' a) as [->|M].
      + destruct (String.eqb_spec a k) as [->|_]; [contradiction|reflexivity].
      + apply IH.
  Qed.
  Lemma info_ok : forall nslice i all acc, (i < nslice)%nat -> exists info, point_info nslice i all acc = Ok info.
  Proof.
    intros nslice i all. induction all as [|[k [v|l]] all IH]; intros acc L; cbn [point_info]; [eexists; reflexivity| |].
    - destruct (Nat.eqb_spec 0 nslice); [lia|]. apply IH; exact L.
    - destruct (Nat.eqb_spec (length l) nslice) as [E|_]; [|apply IH; exact L]. unfold arr_get. destruct (nth_error l i) as [v|] eqn:N; [cbn [bind]; apply IH; exact L|]. apply nth_error_None in N. lia.
  Qed.
  Lemma info_keys : forall nslice i all acc info, point_info nslice i all acc = Ok info -> NoDup (map fst all) -> forall k,
    match dget String.eqb all k with Some e => exists r, dget String.eqb info k = Some r /\ told nslice i e r | None => dget String.eqb info k = dget String.eqb acc k end.
  Proof.
    intros nslice i all. induction all as [|[a e] all IH]; intros acc info E ND k; [injection E as <-; reflexivity|]. cbn [map fst] in ND. inversion ND as [|? ? NI ND']; subst. cbn [dget].
    assert (NA : dget String.eqb all a = None).
    { clear - NI. induction all as [|[b x] all IH]; [reflexivity|]. cbn [map fst] in NI. cbn [dget]. destruct (String.eqb_spec a b) as [->|_]; [exfalso; apply NI; left; reflexivity|]. apply IH. intros I. apply NI. right. exact I. }
    cbn [point_info] in E. destruct (String.eqb_spec k a) as [->|N].
    - destruct e as [v|l].
      + destruct (Nat.eqb 0 nslice); [discriminate E|]. assert (H := IH _ _ E ND' a). rewrite NA, dget_dset, String.eqb_refl in H. eexists. split; [exact H|reflexivity].
      + destruct (Nat.eqb (length l) nslice) eqn:L.
        * destruct (arr_get l i) as [v|] eqn:G; [|discriminate E]. cbn [bind] in E. assert (H := IH _ _ E ND' a). rewrite NA, dget_dset, String.eqb_refl in H. eexists. split; [exact H|]. cbn [told]. rewrite L. exists v. split; [|reflexivity]. unfold arr_get in G. destruct (nth_error l i); [injection G as <-; reflexivity|discriminate G].
        * assert (H := IH _ _ E ND' a). rewrite NA, dget_dset, String.eqb_refl in H. eexists. split; [exact H|]. cbn [told]. rewrite L. reflexivity.
    - apply String.eqb_neq in N. destruct e as [v|l].
      + destruct (Nat.eqb 0 nslice); [discriminate E|]. assert (H := IH _ _ E ND' k). rewrite dget_dset, N in H. exact H.
      + destruct (Nat.eqb (length l) nslice); [destruct (arr_get l i) as [v|]; [|discriminate E]; cbn [bind] in E|]; assert (H := IH _ _ E ND' k); rewrite dget_dset, N in H; exact H.
  Qed.
End Slicers.

(** ** comparison *)
Lemma val_eqb_refl : forall v, val_eqb v v = true.
Proof. intros [x|n|l]; cbn [val_eqb]; [destruct (Req_EM_T x x); [reflexivity|contradiction]|apply Z.eqb_refl|destruct (list_eq_dec Req_EM_T l l); [reflexivity|contradiction]]. Qed.
Lemma val_eqb_eq : forall a b, val_eqb a b = true -> a = b.
Proof.
  intros [x|n|l] [y|m|k] E; try discriminate E; cbn [val_eqb] in E.
  - destruct (Req_EM_T x y) as [->|]; [reflexivity|discriminate E].
  - apply Z.eqb_eq in E. subst. reflexivity.
  - destruct (list_eq_dec Req_EM_T l k) as [->|]; [reflexivity|discriminate E].
Qed.
Lemma vals_eqb_refl : forall l, vals_eqb l l = true.
Proof. induction l as [|v l IH]; [reflexivity|]. cbn [vals_eqb]. rewrite val_eqb_refl. exact IH. Qed.
Lemma vals_eqb_eq : forall a b, vals_eqb a b = true -> a = b.
Proof. induction a as [|x a IH]; intros [|y b] E; try discriminate E; [reflexivity|]. cbn [vals_eqb] in E. apply andb_prop in E. destruct E as [E1 E2]. apply val_eqb_eq in E1. subst. f_equal. apply IH. exact E2. Qed.
Lemma entry_eqb_refl : forall e, entry_eqb e e = true.
Proof. intros [v|l]; [apply val_eqb_refl|apply vals_eqb_refl]. Qed.
Lemma entry_eqb_eq : forall a b, entry_eqb a b = true -> a = b.
Proof. intros [x|l] [y|m] E; try discriminate E; cbn [entry_eqb] in E; [apply val_eqb_eq in E|apply vals_eqb_eq in E]; subst; reflexivity. Qed.
Lemma common_spec : forall a b, common a b = true <-> s_lon b = s_lon a /\ s_lat b = s_lat a /\ s_radius b = s_radius a /\ s_camera b = s_camera a /\ s_rot b = s_rot a /\ s_shape b = s_shape a.
Proof.
  intros a b. unfold common. rewrite !Bool.andb_true_iff, !String.eqb_eq, Bool.eqb_true_iff, Nat.eqb_eq. destruct (Req_EM_T (s_radius b) (s_radius a)); intuition congruence.
Qed.
Lemma common_sym : forall a b, common a b = common b a.
Proof. intros a b. apply Bool.eq_iff_eq_true. rewrite !common_spec. intuition congruence. Qed.
