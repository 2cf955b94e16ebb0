(** C322 labels of visits; C323 how far away an asteroid could be seen. *)
From Coq Require Import String Ascii Reals ZArith List Bool Lia Lra.
From Verif Require Import Base Depth_Model Depth_Proofs Template_Model Sky_Proofs Param_Model Param_Spec.
From Verif Require Import Param_Props.
Import ListNotations.
Open Scope R_scope.

(** ** C322 *)
Lemma to_comma_head : forall s, Head s (to_comma s).
Proof.
  intros s. split.
  - intros t [k E]. revert t E. induction s as [|a s IH]; intros t E; cbn [to_comma] in E.
    + destruct t; discriminate E.
    + destruct (Ascii.eqb a ",") eqn:A; [destruct t; discriminate E|].
      destruct t as [|b t]; cbn [append] in E.
      * injection E as -> _. cbn in A. discriminate A.
      * injection E as _ E. exact (IH t E).
  - induction s as [|a s IH]; cbn [to_comma]; [left; reflexivity|].
    destruct (Ascii.eqb a ",") eqn:A.
    + right. apply Ascii.eqb_eq in A. subst a. exists s. reflexivity.
    + destruct IH as [<-|[r E]]; [left; reflexivity|]. right. exists r. cbn [append]. rewrite <- E. reflexivity.
Qed.

Lemma short_stored : forall s, (String.length s <= 15)%nat -> stored s = s.
Proof.
  intros s. unfold stored. generalize 15%nat. induction s as [|a s IH]; intros n H.
  - destruct n; reflexivity.
  - destruct n as [|n]; [cbn in H; lia|]. cbn [substring]. cbn in H. rewrite IH by lia. reflexivity.
Qed.

Lemma no_u_drop : forall s, (forall p q, s <> append p (String "u" (String "," q))) -> drop_u s = s.
Proof.
  induction s as [|a s IH]; intros H; [reflexivity|].
  assert (HS : drop_u s = s).
  { apply IH. intros p q E. apply (H (String a p) q). cbn. rewrite E. reflexivity. }
  cbn [drop_u]. destruct s as [|b s]; [reflexivity|].
  destruct (Ascii.eqb a "u" && Ascii.eqb b ",") eqn:E.
  - apply andb_true_iff in E. destruct E as [E1 E2]. apply Ascii.eqb_eq in E1. apply Ascii.eqb_eq in E2. subst.
    elim (H EmptyString s). reflexivity.
  - rewrite HS. reflexivity.
Qed.

(** a deep drilling visit has the name of its field, the note up to the first comma: for notes without "u," whose name has at most
    15 characters *)
Theorem C322_deep_partial : forall footprint threshold name disc note h,
  String.prefix "DD" note = true -> (forall p q, note <> append p (String "u" (String "," q))) ->
  Head note h -> (String.length h <= 15)%nat ->
  wfd_label footprint threshold name true disc note = h.
Proof.
  intros footprint threshold name disc note h D U HH L. unfold wfd_label. rewrite D. cbn [andb].
  unfold ddname. rewrite no_u_drop by exact U.
  assert (E : to_comma note = h).
  { destruct HH as [N E]. clear D U L. revert note E. induction h as [|a h IH]; intros note E.
    - destruct E as [->|[r ->]]; [reflexivity|]. cbn. reflexivity.
    - assert (A : Ascii.eqb a "," = false).
      { destruct (Ascii.eqb a ",") eqn:A; [|reflexivity]. apply Ascii.eqb_eq in A. subst a. elim (N EmptyString). exists h. reflexivity. }
      assert (N' : forall t, ~ (exists k, h = append t (String "," k))).
      { intros t [k K]. apply (N (String a t)). exists k. cbn. rewrite K. reflexivity. }
      destruct E as [->|[r ->]]; cbn [append to_comma]; rewrite A; f_equal; apply IH; try exact N'.
      + left. reflexivity.
      + right. exists r. reflexivity. }
  rewrite E. apply short_stored. exact L.
Qed.
Print Assumptions C322_deep_partial.

(** two fields may get the same label: names are cut after 15 characters *)
Theorem C322_deep_refuted : ~ (forall footprint threshold name disc n1 n2 h1 h2,
  String.prefix "DD" n1 = true -> String.prefix "DD" n2 = true -> Head n1 h1 -> Head n2 h2 ->
  wfd_label footprint threshold name true disc n1 = wfd_label footprint threshold name true disc n2 -> h1 = h2).
Proof.
  intros H. specialize (H [] 0 EmptyString [] "DD:ELAISS1_field1, "%string "DD:ELAISS1_field2, "%string "DD:ELAISS1_field1"%string "DD:ELAISS1_field2"%string
    eq_refl eq_refl (to_comma_head "DD:ELAISS1_field1, ") (to_comma_head "DD:ELAISS1_field2, ") eq_refl). discriminate H.
Qed.
Print Assumptions C322_deep_refuted.

Lemma count_sum : forall footprint disc n,
  (forall i, In i disc -> nth i footprint 0 = 0 \/ nth i footprint 0 = 1) -> Count (fun i => nth i footprint 0 = 1) disc n ->
  rsum (map (fun i => nth i footprint 0) disc) = INR n.
Proof.
  intros footprint disc n B C. induction C as [|x t n P C IH|x t n P C IH].
  - reflexivity.
  - cbn [map]. change (rsum (nth x footprint 0 :: map (fun i => nth i footprint 0) t)) with (nth x footprint 0 + rsum (map (fun i => nth i footprint 0) t)).
    rewrite IH by (intros i I; apply B; right; exact I). rewrite P, S_INR. lra.
  - cbn [map]. change (rsum (nth x footprint 0 :: map (fun i => nth i footprint 0) t)) with (nth x footprint 0 + rsum (map (fun i => nth i footprint 0) t)).
    rewrite IH by (intros i I; apply B; right; exact I). destruct (B x (or_introl eq_refl)) as [Z|Z]; [rewrite Z; lra|contradiction].
Qed.

(** any other visit has the area's name exactly if at least the given fraction of its pixels is in the footprint, otherwise "NULL" *)
Theorem C322_area : forall footprint threshold name exclude_dd disc note n,
  (String.prefix "DD" note && exclude_dd)%bool = false -> disc <> [] -> (String.length name <= 15)%nat ->
  (forall i, In i disc -> nth i footprint 0 = 0 \/ nth i footprint 0 = 1) -> Count (fun i => nth i footprint 0 = 1) disc n ->
  (threshold * INR (length disc) <= INR n -> wfd_label footprint threshold name exclude_dd disc note = name) /\
  (INR n < threshold * INR (length disc) -> wfd_label footprint threshold name exclude_dd disc note = "NULL"%string).
Proof.
  intros footprint threshold name exclude_dd disc note n D ND L B C. unfold wfd_label. rewrite D.
  assert (F : fraction footprint disc = Some (INR n / INR (length disc))).
  { unfold fraction. destruct disc as [|x t]; [contradiction|]. rewrite (count_sum footprint (x :: t) n B C). reflexivity. }
  rewrite F. assert (P : 0 < INR (length disc)) by (apply lt_0_INR; destruct disc; [contradiction|cbn; lia]).
  split; intros H.
  - assert (T : threshold <= INR n / INR (length disc)).
    { apply Rmult_le_reg_r with (INR (length disc)); [exact P|]. replace (INR n / INR (length disc) * INR (length disc)) with (INR n) by (field; lra). exact H. }
    destruct (rleb threshold (INR n / INR (length disc))) eqn:E; [apply short_stored; exact L|]. apply rleb_false in E. lra.
  - assert (T : INR n / INR (length disc) < threshold).
    { apply Rmult_lt_reg_r with (INR (length disc)); [exact P|]. replace (INR n / INR (length disc) * INR (length disc)) with (INR n) by (field; lra). exact H. }
    destruct (rleb threshold (INR n / INR (length disc))) eqn:E; [apply rleb_true in E; lra|]. reflexivity.
Qed.
Print Assumptions C322_area.

(** every visit gets one label, of at most 15 characters *)
Lemma sub_length : forall s n, (String.length (substring 0 n s) <= n)%nat.
Proof. induction s as [|a s IH]; intros [|n]; cbn; try lia. specialize (IH n). lia. Qed.
Theorem C322_every : forall footprint threshold name exclude_dd visits,
  length (wfd_run footprint threshold name exclude_dd visits) = length visits /\
  Forall (fun l => (String.length l <= 15)%nat) (wfd_run footprint threshold name exclude_dd visits).
Proof.
  intros. unfold wfd_run. split; [apply map_length|]. apply Forall_forall. intros l H. apply in_map_iff in H. destruct H as (v & <- & _).
  unfold wfd_label. apply sub_length.
Qed.
Print Assumptions C322_every.

(** a footprint of the whole sky does not make every visit part of it: with large pixels no centre may lie in the field of view *)
Theorem C322_all_sky_refuted : ~ (forall footprint threshold name disc note,
  (forall i, (i < length footprint)%nat -> nth i footprint 0 = 1) -> threshold <= 1 -> (forall i, In i disc -> (i < length footprint)%nat) ->
  (String.length name <= 15)%nat ->
  wfd_label footprint threshold name false disc note = name).
Proof.
  intros H. specialize (H [1; 1; 1; 1; 1; 1; 1; 1; 1; 1; 1; 1] (4/10) "WFD"%string [] "blob"%string).
  assert (X : wfd_label [1; 1; 1; 1; 1; 1; 1; 1; 1; 1; 1; 1] (4/10) "WFD" false [] "blob" = "WFD"%string).
  { apply H.
    - intros i L. do 12 (destruct i as [|i]; [reflexivity|]). cbn in L. lia.
    - lra.
    - intros i [].
    - cbn. lia. }
  discriminate X.
Qed.
Print Assumptions C322_all_sky_refuted.

Theorem C322_all_sky_partial : forall footprint threshold name disc note,
  (forall i, (i < length footprint)%nat -> nth i footprint 0 = 1) -> threshold <= 1 -> (forall i, In i disc -> (i < length footprint)%nat) ->
  (String.length name <= 15)%nat -> disc <> [] ->
  wfd_label footprint threshold name false disc note = name.
Proof.
  intros footprint threshold name disc note A T I L N.
  assert (C : Count (fun i => nth i footprint 0 = 1) disc (length disc)).
  { clear N. induction disc as [|x t IH]; [constructor|]. cbn. constructor; [apply A, I; left; reflexivity|]. apply IH. intros i H. apply I. right. exact H. }
  destruct (C322_area footprint threshold name false disc note (length disc)) as [Q _]; try assumption.
  - apply andb_false_r.
  - intros i H. right. apply A, I, H.
  - apply Q. pose proof (pos_INR (length disc)). nra.
Qed.
Print Assumptions C322_all_sky_partial.

Example C322_case :
  wfd_label [1; 0; 1] (4/10) "WFD" true [0; 1; 2]%nat "DD:COSMOS, a" = "DD:COSMOS"%string /\
  wfd_label [1; 0; 1] (4/10) "WFD" true [0; 1; 2]%nat "blob, g" = "WFD"%string.
Proof.
  split; [reflexivity|].
  destruct (C322_area [1; 0; 1] (4/10) "WFD" true [0; 1; 2]%nat "blob, g" 2) as [Q _].
  - reflexivity.
  - discriminate.
  - cbn. lia.
  - intros i H. cbn in H. destruct H as [<-|[<-|[<-|[]]]]; cbn; lra.
  - constructor; [reflexivity|]. apply C_out; [cbn; lra|]. constructor; [reflexivity|]. constructor.
  - apply Q. cbn. lra.
Qed.

(** ** C323 *)
Lemma log10_1 : log10 1 = 0.
Proof. unfold log10. rewrite ln_1. unfold Rdiv. ring. Qed.

Lemma fold_rmin : forall l a, In (fold_left Rmin l a) (a :: l) /\ forall y, In y (a :: l) -> fold_left Rmin l a <= y.
Proof.
  induction l as [|b l IH]; intros a; cbn [fold_left].
  - split; [left; reflexivity|]. intros y [->|[]]. lra.
  - destruct (IH (Rmin a b)) as [I M]. split.
    + destruct I as [I|I].
      * rewrite <- I. unfold Rmin. destruct (Rle_dec a b); [left; reflexivity|right; left; reflexivity].
      * right. right. exact I.
    + intros y [->|[->|H]].
      * apply Rle_trans with (Rmin y b); [apply M; left; reflexivity|apply Rmin_l].
      * apply Rle_trans with (Rmin a y); [apply M; left; reflexivity|apply Rmin_r].
      * apply M. right. exact H.
Qed.

(** the distance is the first at which the asteroid is too faint; 0 if it is visible at every distance that was tried *)
Theorem C323_distance : forall mag v5 deltas,
  ((exists d, In d deltas /\ v5 < mag d) -> FirstWith (fun d => v5 < mag d) deltas (geo_dist mag v5 deltas)) /\
  ((forall d, In d deltas -> mag d <= v5) -> geo_dist mag v5 deltas = 0).
Proof.
  intros mag v5 deltas. unfold geo_dist. destruct (filter (fun d => rltb v5 (mag d)) deltas) as [|a l] eqn:E.
  - split.
    + intros (d & I & F). assert (X : In d (filter (fun d => rltb v5 (mag d)) deltas)).
      { apply filter_In. split; [exact I|]. destruct (rltb v5 (mag d)) eqn:K; [reflexivity|]. apply rltb_false in K. lra. }
      rewrite E in X. destruct X.
    + reflexivity.
  - destruct (fold_rmin l a) as [I M]. split.
    + intros _. rewrite <- E in I. apply filter_In in I. destruct I as [I F]. apply rltb_true in F. split; [exact I|]. split; [exact F|].
      intros y Y G. apply M. rewrite <- E. apply filter_In. split; [exact Y|]. destruct (rltb v5 (mag y)) eqn:K; [reflexivity|]. apply rltb_false in K. lra.
    + intros A. assert (X : In a (filter (fun d => rltb v5 (mag d)) deltas)) by (rewrite E; left; reflexivity).
      apply filter_In in X. destruct X as [X F]. apply rltb_true in F. specialize (A a X). lra.
Qed.
Print Assumptions C323_distance.

(** a deeper visit may report a shorter distance, 0, because it sees the asteroid everywhere *)
Theorem C323_deeper_refuted : ~ (forall mag v5 v5' deltas, v5 <= v5' -> geo_dist mag v5 deltas <= geo_dist mag v5' deltas).
Proof.
  intros H. specialize (H (fun _ => 20) 19 21 [1] ltac:(lra)).
  destruct (C323_distance (fun _ => 20) 19 [1]) as [A _]. destruct (C323_distance (fun _ => 20) 21 [1]) as [_ B].
  rewrite B in H by (intros; lra). destruct A as [I _]; [exists 1; split; [left; reflexivity|lra]|]. cbn in I. destruct I as [I|[]]. lra.
Qed.
Print Assumptions C323_deeper_refuted.

Theorem C323_deeper_partial : forall mag v5 v5' deltas, v5 <= v5' -> (exists d, In d deltas /\ v5' < mag d) ->
  geo_dist mag v5 deltas <= geo_dist mag v5' deltas.
Proof.
  intros mag v5 v5' deltas L (d & I & F).
  destruct (C323_distance mag v5 deltas) as [A _]. destruct (C323_distance mag v5' deltas) as [B _].
  destruct A as (_ & _ & M); [exists d; split; [exact I|lra]|]. destruct B as (J & G & _); [exists d; split; [exact I|lra]|].
  apply M; [exact J|lra].
Qed.
Print Assumptions C323_deeper_partial.

(** the law of cosines: the heliocentric distance and the phase angle close the triangle sun (0,0), earth (0,1), asteroid *)
Lemma helio_sq : forall e d, 0 <= 1 + d * d - 2 * d * cos e.
Proof. intros e d. pose proof (sc2 e). pose proof (Rle_0_sqr (d - cos e)) as A. pose proof (Rle_0_sqr (sin e)) as B. unfold Rsqr in *. nra. Qed.

Theorem C323_triangle : forall e d, 0 < d -> 0 < helio e d ->
  helio e d * helio e d = 1 + d * d - 2 * d * cos e /\
  1 = helio e d * helio e d + d * d - 2 * d * helio e d * cos (phase e d) /\ 0 <= phase e d <= PI.
Proof.
  intros e d D H. assert (S : helio e d * helio e d = 1 + d * d - 2 * d * cos e).
  { unfold helio. apply sqrt_sqrt. apply helio_sq. }
  split; [exact S|]. unfold phase. cbv zeta. set (r := helio e d) in *.
  set (c := (1 - r * r - d * d) / (-2 * d * r)).
  assert (E : -2 * d * r * c = 1 - r * r - d * d) by (unfold c; field; lra).
  assert (RC : r * c = d - cos e) by nra.
  assert (C1 : c * c <= 1).
  { assert (X : (r * r) * (c * c) <= (r * r) * 1).
    { replace (r * r * (c * c)) with ((r * c) * (r * c)) by ring. rewrite RC, S. pose proof (sc2 e). pose proof (Rle_0_sqr (sin e)) as B. unfold Rsqr in B. nra. }
    apply Rmult_le_reg_l in X; [exact X|nra]. }
  split; [|apply acos_bound]. rewrite cos_acos by (apply square_le_one; exact C1). lra.
Qed.
Print Assumptions C323_triangle.

(** the position is at that distance from the earth at (0, 1), and at the heliocentric distance from the sun at (0, 0), for every
    elongation and on either side *)
Theorem C323_position : forall H deltas visits k v dist x y,
  nth_error visits k = Some v -> nth_error (neo_run H deltas visits) k = Some (dist, x, y) ->
  dist = geo_dist (appmag H (n_elong v * PI / 180)) (v5_of (n_m5 v) (n_band v)) deltas /\
  dist2 (x, y) (0, 1) = dist * dist /\
  dist2 (x, y) (0, 0) = 1 + dist * dist - 2 * dist * cos (n_elong v * PI / 180).
Proof.
  intros H deltas visits k v dist x y V N. unfold neo_run in N. cbv zeta in N. rewrite (map_nth_error _ _ _ V) in N. injection N as <- <- <-.
  split; [reflexivity|]. fold (rad (n_elong v)). set (e := rad (n_elong v)). set (d := geo_dist _ _ _).
  assert (XY : exists s, (s = 1 \/ s = -1) /\ flip (halfval (min_of (map n_az visits))) (n_sun_az v) (n_az v) (fst (neo_xy d e)) = s * (d * sin e) /\ snd (neo_xy d e) = 1 - d * cos e).
  { assert (P : neo_xy d e = (d * sin e, 1 - d * cos e)).
    { unfold neo_xy. destruct (rleb e (PI / 2)).
      - f_equal. ring.
      - rewrite sin_PI_x. rewrite Rtrigo_facts.cos_pi_minus. f_equal. ring. }
    rewrite P. cbn [fst snd]. unfold flip. destruct (_ || _).
    - exists (-1). split; [right; reflexivity|]. split; [ring|reflexivity].
    - exists 1. split; [left; reflexivity|]. split; [ring|reflexivity]. }
  destruct XY as (s & S & -> & ->). unfold dist2. cbn [fst snd].
  assert (SS : s * s = 1) by (destruct S as [->| ->]; ring).
  pose proof (sc2 e) as T. split.
  - replace ((s * (d * sin e) - 0) * (s * (d * sin e) - 0) + (1 - d * cos e - 1) * (1 - d * cos e - 1))
      with ((s * s) * (d * d * (sin e * sin e)) + d * d * (cos e * cos e)) by ring. rewrite SS.
    replace (1 * (d * d * (sin e * sin e)) + d * d * (cos e * cos e)) with (d * d * (sin e * sin e + cos e * cos e)) by ring. rewrite T. ring.
  - replace ((s * (d * sin e) - 0) * (s * (d * sin e) - 0) + (1 - d * cos e - 0) * (1 - d * cos e - 0))
      with ((s * s) * (d * d * (sin e * sin e)) + d * d * (cos e * cos e) + 1 - 2 * d * cos e) by ring. rewrite SS.
    replace (1 * (d * d * (sin e * sin e)) + d * d * (cos e * cos e)) with (d * d * (sin e * sin e + cos e * cos e)) by ring. rewrite T. ring.
Qed.
Print Assumptions C323_position.

(** which side of the sun: only the azimuth of the visit counts, the azimuth of the sun does not (unless it is exactly half) *)
Theorem C323_side : forall half sun_az az x, sun_az <> half -> flip half sun_az az x = if rltb half az then - x else x.
Proof.
  intros half sun_az az x N. unfold flip. destruct (rltb half az) eqn:A.
  - assert (E : ((rltb half sun_az && true) || (rltb sun_az half && true))%bool = true).
    { destruct (rltb half sun_az) eqn:B; [reflexivity|]. apply rltb_false in B. destruct (rltb sun_az half) eqn:C; [reflexivity|]. apply rltb_false in C. lra. }
    rewrite E. ring.
  - rewrite !andb_false_r. reflexivity.
Qed.
Print Assumptions C323_side.

(** hence mirrored azimuths need not give mirrored positions: with azimuths from 0 to 360 degrees, the sun due west or due east is
    indifferent, and two visits 20 degrees either side of south fall on the same side *)
Theorem C323_mirror_refuted : ~ (forall H deltas a b k dist x y x', 0 <= n_az a -> 0 <= n_az b ->
  n_elong a = n_elong b -> n_band a = n_band b -> n_m5 a = n_m5 b -> n_sun_az a = n_sun_az b ->
  n_az a = 180 + k -> n_az b = 180 - k -> 0 < k < 90 ->
  neo_run H deltas [a; b] = [(dist, x, y); (dist, x', y)] -> x' = - x).
Proof.
  intros C.
  set (a := Build_neo_visit 90 "r" 90 200 (-100)). set (b := Build_neo_visit 90 "r" 90 160 (-100)).
  assert (PI4 := PI_4). assert (P0 := PI_RGT_0).
  assert (Hh : halfval (min_of (map n_az [a; b])) = PI).
  { unfold halfval. cbn. destruct (rltb (Rmin 200 160) (- PI / 2)) eqn:E; [|reflexivity]. apply rltb_true in E. unfold Rmin in E. destruct (Rle_dec 200 160); lra. }
  set (e := rad 90). set (d := geo_dist (appmag 0 e) (v5_of (-100) "r") [1]).
  set (p := neo_xy d e).
  assert (R1 : neo_run 0 [1] [a; b] = [(d, - fst p, snd p); (d, - fst p, snd p)]).
  { unfold neo_run. cbv zeta. rewrite Hh. cbn [map]. change (n_elong a) with 90. change (n_elong b) with 90.
    change (v5_of (n_m5 a) (n_band a)) with (v5_of (-100) "r"). change (v5_of (n_m5 b) (n_band b)) with (v5_of (-100) "r").
    fold e. fold d. fold p. change (n_sun_az a) with 90. change (n_sun_az b) with 90. change (n_az a) with 200. change (n_az b) with 160.
    rewrite !C323_side by lra.
    assert (L1 : rltb PI 200 = true) by (destruct (rltb PI 200) eqn:E; [reflexivity|apply rltb_false in E; lra]).
    assert (L2 : rltb PI 160 = true) by (destruct (rltb PI 160) eqn:E; [reflexivity|apply rltb_false in E; lra]).
    rewrite L1, L2. reflexivity. }
  assert (X : - fst p = - - fst p).
  { apply (C 0 [1] a b 20 d (- fst p) (snd p) (- fst p)); try exact R1; cbn; try lra; reflexivity. }
  assert (E2 : e = PI / 2) by (unfold e, rad; lra).
  assert (DD : d = 1).
  { destruct (C323_distance (appmag 0 e) (v5_of (-100) "r") [1]) as [Q _].
    assert (T : exists d0, In d0 [1] /\ v5_of (-100) "r" < appmag 0 e d0).
    { exists 1. split; [left; reflexivity|].
      assert (V : v5_of (-100) "r" = -100 + 0.2) by reflexivity. rewrite V. unfold appmag. cbv zeta.
      assert (Hr : 1 <= helio e 1).
      { unfold helio. rewrite E2, cos_PI2. rewrite <- sqrt_1 at 1. apply sqrt_le_1_alt. lra. }
      assert (L1 : 0 <= log10 (helio e 1 * 1)).
      { rewrite <- log10_1. apply log10_le; lra. }
      set (u := Rpower (tan (phase e 1 / 2)) 0.63). set (w := Rpower (tan (phase e 1 / 2)) 1.22).
      assert (U : 0 < u) by apply exp_pos. assert (W : 0 < w) by apply exp_pos.
      assert (G : log10 ((1 - 0.15) * exp (-3.33 * u) + 0.15 * exp (-1.87 * w)) <= 0).
      { rewrite <- log10_1. apply log10_le.
        - pose proof (exp_pos (-3.33 * u)). pose proof (exp_pos (-1.87 * w)). lra.
        - assert (exp (-3.33 * u) < 1) by (rewrite <- exp_0; apply exp_increasing; lra).
          assert (exp (-1.87 * w) < 1) by (rewrite <- exp_0; apply exp_increasing; lra). lra. }
      lra. }
    destruct (Q T) as [I _]. cbn in I. destruct I as [I|[]]. symmetry. exact I. }
  assert (FP : fst p = 1).
  { unfold p, neo_xy. rewrite E2, DD. destruct (rleb (PI / 2) (PI / 2)); cbn [fst]; [rewrite sin_PI2; ring|].
    replace (PI - PI / 2) with (PI / 2) by lra. rewrite sin_PI2. ring. }
  rewrite FP in X. lra.
Qed.
Print Assumptions C323_mirror_refuted.

(** a known band shifts the depth by its own amount, an unknown one by nothing *)
Theorem C323_depth : forall m5 b, v5_of m5 b = m5 + (if String.eqb b "u" then -2.1 else if String.eqb b "g" then -0.5 else if String.eqb b "r" then 0.2
  else if String.eqb b "i" then 0.4 else if (String.eqb b "z" || String.eqb b "y")%bool then 0.6 else 0).
Proof.
  intros m5 b. unfold v5_of, limiting_adjust. cbn [dget].
  destruct (String.eqb b "u"), (String.eqb b "g"), (String.eqb b "r"), (String.eqb b "i"), (String.eqb b "z"), (String.eqb b "y"); reflexivity.
Qed.
Print Assumptions C323_depth.

Example C323_case : geo_dist (fun d => 20 + d) 21.5 [1; 2; 3] = 2.
Proof.
  destruct (C323_distance (fun d => 20 + d) 21.5 [1; 2; 3]) as [A _].
  destruct A as (I & F & M); [exists 2; split; [right; left; reflexivity|lra]|].
  destruct I as [I|[I|[I|[]]]]; rewrite <- I in *; try reflexivity.
  - lra.
  - specialize (M 2 ltac:(cbn; tauto) ltac:(lra)). lra.
Qed.
