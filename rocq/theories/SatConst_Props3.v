(** C256-C258: satellite maps, the observatory, and the basis function that avoids satellites. *)
From Coq Require Import Reals Lia Lra Psatz.
From Verif Require Import Base SatConst_Model SatConst_Spec SatConst_Proofs4.
Open Scope R_scope.

Section Watch.
  Context {sat : Type} (sunlit : sat -> R -> bool) (radec : sat -> R -> R * R) (altitude : sat -> R -> R) (pixel : R * R -> nat) (npix : nat).
  Notation maps_of := (satellite_maps sunlit radec altitude pixel npix).
  (** ** C256: the maps of a night *)
Theorem C256_maps : forall c limit set rise dt mjds maps, 0 < dt -> maps_of c limit set rise dt = Ok (mjds, maps) ->
    length maps = length mjds /\ (forall i, (i < length mjds)%nat <-> set + INR i * dt < rise) /\
    forall i, (i < length mjds)%nat -> exists m, nth_error mjds i = Some (set + INR i * dt) /\ nth_error maps i = Some m /\ length m = npix /\
      forall p, (p < npix)%nat -> nth p m 0%Z = lit_in sunlit radec altitude pixel limit (sat_list c) (set + INR i * dt) p.
  Proof.
    intros c limit set rise dt mjds maps D E. unfold satellite_maps in E. destruct (paths_array sunlit radec altitude c (arange set rise dt)) as [pa|]; [|discriminate E]. cbn [bind] in E.
    assert (X : mjds = arange set rise dt /\ maps = map (fun t => spot_map pixel npix limit (map (fun s => path sunlit radec altitude s t) (sat_list c))) (arange set rise dt)).
    { destruct (arange set rise dt) as [|t r]; [discriminate E|]. injection E as <- <-. split; reflexivity. }
    destruct X as [-> ->]. split; [apply map_length|]. split; [intros i; apply arange_length; exact D|]. intros i L. eexists. split; [apply arange_nth; exact L|]. split; [rewrite nth_error_map, arange_nth by exact L; reflexivity|].
    split; [apply spot_length|]. intros p P. apply spot_nth. exact P.
  Qed.
Theorem C256_exist : forall c limit set rise dt, 0 < dt -> (exists r, maps_of c limit set rise dt = Ok r) <-> sat_list c <> [] /\ set < rise.
  Proof.
    intros c limit set rise dt D. unfold satellite_maps, paths_array.
    assert (A : arange set rise dt <> [] <-> set < rise).
    { assert (H := arange_length set rise dt 0 D). cbn [INR] in H. rewrite Rmult_0_l, Rplus_0_r in H. rewrite <- H. destruct (arange set rise dt); cbn; split; intros X; try congruence; lia. }
    rewrite <- A. split.
    - intros [r E]. destruct (sat_list c); [discriminate E|]. cbn [bind] in E. split; [discriminate|]. destruct (arange set rise dt); discriminate.
    - intros [S N]. destruct (sat_list c); [contradiction|]. cbn [bind]. destruct (arange set rise dt); [contradiction|]. eexists. reflexivity.
  Qed.

  (** ** C257: the maps of the observatory are those of its night *)
  Context (mjd_indx : R -> nat) (sunsets : nat -> evening).
  Notation setting := (set_mjd sunlit radec altitude pixel npix mjd_indx sunsets).
  Notation settings := (set_mjds sunlit radec altitude pixel npix mjd_indx sunsets).
  Notation make := (new_observatory sunlit radec altitude pixel npix mjd_indx sunsets).
  Definition tonight (c : constellation) (limit dt t : R) : result (list R * list (list Z)) :=
    maps_of c (limit * PI / 180) (e_set (sunsets (mjd_indx t))) (e_rise (sunsets (mjd_indx t))) (dt / 3600 / 24).
Theorem C257_maps_partial : forall nside start dt limit c times o o',
    (forall i j, e_night (sunsets i) = e_night (sunsets j) -> e_set (sunsets i) = e_set (sunsets j) /\ e_rise (sunsets i) = e_rise (sunsets j)) ->
    (forall i, e_night (sunsets i) <> (-1)%Z) ->
    make nside start dt limit (Some c) = Ok o -> settings o times = Ok o' ->
    o_mjd o' = last times start /\ exists m, tonight c limit dt (last times start) = Ok m /\ return_conditions o' = Ok m.
  Proof.
    intros nside start dt limit c times o o' INJ NEG E0 E.
    set (inv := fun (o : @observatory sat) t => o_mjd o = t /\ o_constellation o = Some c /\ o_alt_limit o = limit * PI / 180 /\ o_dt o = dt / 3600 / 24 /\ o_night o = e_night (sunsets (mjd_indx t)) /\
      exists m, tonight c limit dt t = Ok m /\ o_maps o = Some m).
    assert (STEP : forall o t0 t o', inv o t0 -> setting o t = Ok o' -> inv o' t).
    { clear - INJ. intros o t0 t o' [I1 [I2 [I3 [I4 [I5 [m [I6 I7]]]]]]] E. unfold set_mjd in E. destruct (Z.eqb_spec (e_night (sunsets (mjd_indx t))) (o_night o)) as [EQ|NE].
      - injection E as <-. unfold inv. cbn. repeat (split; [first [assumption|reflexivity]|]). split; [symmetry; exact EQ|]. exists m. split; [|exact I7]. unfold tonight in *. rewrite I5 in EQ. destruct (INJ _ _ EQ) as [-> ->]. exact I6.
      - rewrite I2 in E. destruct (satellite_maps _ _ _ _ _ _ _ _ _ _) as [m'|] eqn:M; [|discriminate E]. injection E as <-. unfold inv. cbn. repeat (split; [first [assumption|reflexivity]|]). exists m'. split; [|reflexivity].
        unfold tonight. rewrite <- I3, <- I4. exact M. }
    assert (S0 : inv o start).
    { unfold new_observatory, set_mjd in E0. cbn [o_night o_constellation o_alt_limit o_dt] in E0. destruct (Z.eqb_spec (e_night (sunsets (mjd_indx start))) (-1)) as [EQ|_]; [exfalso; exact (NEG _ EQ)|].
      destruct (satellite_maps _ _ _ _ _ _ _ _ _ _) as [m'|] eqn:M; [|discriminate E0]. injection E0 as <-. unfold inv. cbn. repeat (split; [reflexivity|]). exists m'. split; [exact M|reflexivity]. }
    assert (END : forall times o start o', inv o start -> settings o times = Ok o' -> inv o' (last times start)).
    { clear - STEP. induction times as [|t times IH]; intros o start o' I E; cbn [set_mjds] in E; [injection E as <-; exact I|]. destruct (setting o t) as [o1|] eqn:E1; [|discriminate E]. cbn [bind] in E.
      assert (J := STEP _ _ _ _ I E1). assert (K := IH _ _ _ J E). destruct times as [|u times]; [exact K|]. change (last (t :: u :: times) start) with (last (u :: times) start).
      assert (LD : forall l (u a b : R), last (u :: l) a = last (u :: l) b) by (clear; induction l as [|v l IH]; intros u a b; [reflexivity|]; exact (IH v a b)). rewrite (LD times u start t). exact K. }
    destruct (END _ _ _ _ S0 E) as [I1 [_ [_ [_ [_ [m [I6 I7]]]]]]]. split; [exact I1|]. exists m. split; [exact I6|]. unfold return_conditions. rewrite I7. reflexivity.
  Qed.
  (** the default of no constellation cannot be used; nside is not used *)
Theorem C257_default_refuted : forall nside start dt limit, e_night (sunsets (mjd_indx start)) <> (-1)%Z -> make nside start dt limit None = Err AttributeError.
  Proof. intros nside start dt limit N. unfold new_observatory, set_mjd. cbn [o_night o_constellation]. destruct (Z.eqb_spec (e_night (sunsets (mjd_indx start))) (-1)); [contradiction|reflexivity]. Qed.
Theorem C257_nside_refuted : forall nside nside' start dt limit c o, make nside start dt limit c = Ok o -> o_nside o = None /\ make nside' start dt limit c = Ok o.
  Proof.
    intros nside nside' start dt limit c o E. split; [|exact E]. unfold new_observatory, set_mjd in E. cbn in E. destruct (_ =? _)%Z; [injection E as <-; reflexivity|]. destruct c as [c|]; [|discriminate E].
    destruct (satellite_maps _ _ _ _ _ _ _ _ _ _); [|discriminate E]. injection E as <-. reflexivity.
  Qed.
  (** on a night numbered -1 there are no maps *)
Theorem C257_night_refuted : forall nside start dt limit c, e_night (sunsets (mjd_indx start)) = (-1)%Z -> exists o, make nside start dt limit c = Ok o /\ return_conditions o = Err AttributeError.
  Proof. intros nside start dt limit c N. unfold new_observatory, set_mjd. cbn [o_night]. rewrite N. eexists. split; reflexivity. Qed.
End Watch.
Print Assumptions C256_maps.
Print Assumptions C256_exist.
Print Assumptions C257_maps_partial.
Print Assumptions C257_default_refuted.
Print Assumptions C257_nside_refuted.
Print Assumptions C257_night_refuted.

(** ** C258: satellites of the near future are avoided *)
Theorem C258_value : forall (smoothing ud_grade : list R -> list R) forecast mjds maps t n, increasing mjds -> length maps = length mjds -> Forall (fun m => length m = n) maps ->
  let soon := map snd (filter (fun q => in_window t (t + forecast / 60 / 24) (fst q)) (combine mjds maps)) in
  (soon = [] /\ calc_value smoothing ud_grade forecast mjds maps t = Scalar 0) \/
  (soon <> [] /\ exists total, length total = n /\ (forall p, nth p total 0%Z = column_sum soon p) /\
    exists v, calc_value smoothing ud_grade forecast mjds maps t = Map v /\ length v = length (ud_grade (smoothing (map IZR total))) /\
      forall i x, nth_error (ud_grade (smoothing (map IZR total))) i = Some x -> nth_error v i = Some (- Rmax 0 x)).
Proof.
  intros smoothing ud_grade forecast mjds maps t n INC LEN ALL soon.
  assert (FST : map fst (combine mjds maps) = mjds) by (clear - LEN; revert maps LEN; induction mjds as [|x l IH]; intros [|m maps] L; try discriminate L; [reflexivity|]; injection L as L; cbn [combine map fst]; rewrite IH by exact L; reflexivity).
  assert (SND : map snd (combine mjds maps) = maps) by (clear - LEN; revert maps LEN; induction mjds as [|x l IH]; intros [|m maps] L; try discriminate L; [reflexivity|]; injection L as L; cbn [combine map snd]; rewrite IH by exact L; reflexivity).
  assert (INC' : increasing (map fst (combine mjds maps))) by (rewrite FST; exact INC).
  destruct (window_slice fst (combine mjds maps) t (t + forecast / 60 / 24) INC') as [W1 W2]. rewrite FST in W1, W2.
  unfold calc_value. set (lo := searchsorted mjds t) in *. set (hi := searchsorted mjds (t + forecast / 60 / 24)) in *.
  assert (SL : firstn (hi - lo) (skipn lo maps) = soon) by (unfold soon; rewrite <- W1, <- firstn_map, <- skipn_map, SND; reflexivity). rewrite SL.
  assert (NE : Nat.ltb lo hi = true <-> soon <> []) by (rewrite W2; unfold soon; destruct (filter _ (combine mjds maps)); cbn; split; intros H; congruence).
  assert (AS : Forall (fun m => length m = n) soon).
  { rewrite <- SL. apply Forall_forall. intros m I. rewrite Forall_forall in ALL. apply ALL. rewrite <- (firstn_skipn lo maps). apply in_or_app. right. rewrite <- (firstn_skipn (hi - lo) (skipn lo maps)). apply in_or_app. left. exact I. }
  clearbody soon. clear W1 W2 SL. destruct soon as [|m r].
  - left. split; [reflexivity|]. destruct (Nat.ltb lo hi); reflexivity.
  - right. split; [discriminate|]. replace (Nat.ltb lo hi) with true by (symmetry; apply NE; discriminate). inversion AS as [|? ? M Q]; subst.
    exists (fold_left add_maps r m). split; [apply (sum_nth r m 0); exact Q|]. split; [intros p; apply sum_nth; exact Q|].
    eexists. split; [reflexivity|]. split; [rewrite !map_length; reflexivity|]. intros i x E. rewrite !nth_error_map, E. cbn [option_map]. f_equal. unfold Rmax. destruct (Rlt_dec x 0); destruct (Rle_dec 0 x); lra.
Qed.
Print Assumptions C258_value.

Example C256_case : exists r, satellite_maps (fun _ _ => true) (fun _ _ => (0, 0)) (fun _ _ => 1) (fun _ => 0%nat) 12 {| sat_list := [tt]; alt_limit_rad := 0; fov_radius_rad := 1 |} 0 60000 (60000 + 1 / 2) (1 / 100) = Ok r.
Proof. apply C256_exist; [lra|]. split; [discriminate|lra]. Qed.
Example C257_case : let sunsets := fun i => {| e_night := Z.of_nat i; e_set := 60000 + INR i; e_rise := 60000 + INR i + 1 / 2 |} in
  (forall i j, e_night (sunsets i) = e_night (sunsets j) -> e_set (sunsets i) = e_set (sunsets j) /\ e_rise (sunsets i) = e_rise (sunsets j)) /\ (forall i, e_night (sunsets i) <> (-1)%Z) /\
  exists o, new_observatory (fun _ _ => true) (fun _ _ => (0, 0)) (fun _ _ => 1) (fun _ => 0%nat) 12 (fun t => Z.to_nat (Int_part t - 60000)) sunsets None 60000 30 20 (Some {| sat_list := [tt]; alt_limit_rad := 0; fov_radius_rad := 1 |}) = Ok o.
Proof.
  cbv zeta. cbn [e_night e_set e_rise]. split; [intros i j E; apply Nat2Z.inj in E; subst; split; reflexivity|]. split; [intros i; lia|]. unfold new_observatory, set_mjd. cbn [e_night e_set e_rise o_night o_constellation o_alt_limit o_dt].
  set (k := Z.to_nat (Int_part 60000 - 60000)). clearbody k. destruct (Z.eqb_spec (Z.of_nat k) (-1)); [lia|]. unfold day.
  match goal with |- exists o, bind (satellite_maps ?a ?b ?c ?d ?e ?f ?g ?h ?i ?j) _ = _ => assert (X : exists r, satellite_maps a b c d e f g h i j = Ok r) by (apply C256_exist; [lra|split; [discriminate|lra]]); destruct X as [r ->] end.
  eexists. reflexivity.
Qed.
Example C258_case : increasing [1; 2; 3] /\ map snd (filter (fun q => in_window 2 (2 + 90 / 60 / 24) (fst q)) (combine [1; 2; 3] [[1]; [2]; [3]]%Z)) = [[2]]%Z.
Proof.
  split; [repeat split; repeat constructor; lra|]. cbn [combine filter fst]. unfold in_window. destruct (Rle_dec 2 1) as [N|_]; [lra|]. destruct (Rle_dec 2 2) as [_|N]; [|lra]. destruct (Rlt_dec 2 (2 + 90 / 60 / 24)) as [_|N]; [|lra].
  destruct (Rle_dec 2 3) as [_|N]; [|lra]. destruct (Rlt_dec 3 (2 + 90 / 60 / 24)) as [N|_]; [lra|]. reflexivity.
Qed.
