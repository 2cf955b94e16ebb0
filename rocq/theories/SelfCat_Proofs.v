(** Proofs: field, patches, offsets and uncertainties of the catalogue. *)
From Coq Require Import Reals Lra Lia Psatz.
From Verif Require Import Base Astrom_Model Orbits_Model DirectObs_Spec DirectObs_Proofs SelfCat_Model SelfCat_Spec.
Open Scope R_scope.

(** * The field *)
Lemma chord_dot : forall r d r' d', chord (treexyz r d) (treexyz r' d') = sqrt (2 - 2 * dot r d r' d').
Proof.
  intros r d r' d'. unfold chord, treexyz. cbv zeta. f_equal. assert (A := unit_norm r d). assert (B := unit_norm r' d'). unfold dot, ux, uy, uz in *. nra.
Qed.
Lemma radius_cos : forall r, tree_radius r = sqrt (2 - 2 * cos (radians r)).
Proof.
  intros r. unfold tree_radius. replace (1, 0, 0) with (treexyz 0 0).
  - rewrite chord_dot. f_equal. unfold dot, ux, uy, uz. rewrite cos_0, sin_0. ring.
  - unfold treexyz. rewrite cos_0, sin_0. rewrite !Rmult_1_l, ?Rmult_0_l, ?Rmult_0_r, ?Rmult_1_r. reflexivity.
Qed.
Lemma acos_le_iff : forall x a, -1 <= x <= 1 -> 0 <= a <= PI -> (acos x <= a <-> cos a <= x).
Proof.
  intros x a X A. assert (B := acos_bound x). split; intros H.
  - destruct (Rle_dec (cos a) x) as [L|L]; [exact L|]. exfalso.
    assert (Y : cos (acos x) < cos a) by (rewrite cos_acos by exact X; lra).
    destruct (Req_dec (acos x) a) as [E|E]; [rewrite E in Y; lra|]. assert (cos a < cos (acos x)) by (apply cos_decreasing_1; lra). lra.
  - rewrite <- (acos_cos a) by exact A. apply acos_le; [apply COS_bound|exact H|apply X].
Qed.
Lemma off_axis_dot : forall v s, off_axis v s = acos (dot (radians (s_ra s)) (radians (s_dec s)) (radians (v_ra v)) (radians (v_dec v))) * 180 / PI.
Proof. intros v s. unfold off_axis, great_circle, radians. cbv zeta. rewrite dot_formula. reflexivity. Qed.
Lemma deg_le : forall a r, a * 180 / PI <= r <-> a <= radians r.
Proof.
  intros a r. assert (P := PI_RGT_0). unfold radians. split; intros H.
  - apply (Rmult_le_compat_r (PI / 180)) in H; [|lra]. replace (a * 180 / PI * (PI / 180)) with a in H by (field; lra). lra.
  - apply (Rmult_le_compat_r (180 / PI)) in H; [|apply Rlt_le, Rdiv_lt_0_compat; lra]. replace (r * PI / 180 * (180 / PI)) with r in H by (field; lra).
    unfold Rdiv in *. lra.
Qed.
Lemma deg_lt : forall a r, a * 180 / PI < r <-> a < radians r.
Proof.
  intros a r. assert (P := PI_RGT_0). unfold radians. split; intros H.
  - apply (Rmult_lt_compat_r (PI / 180)) in H; [|lra]. replace (a * 180 / PI * (PI / 180)) with a in H by (field; lra). lra.
  - apply (Rmult_lt_compat_r (180 / PI)) in H; [|apply Rdiv_lt_0_compat; lra]. replace (r * PI / 180 * (180 / PI)) with r in H by (field; lra).
    unfold Rdiv in *. lra.
Qed.
Lemma in_ball_field : forall radius v s, 0 <= radius <= 180 -> in_ball radius v s = in_field radius v s.
Proof.
  intros radius v s R. unfold in_ball, in_field. rewrite chord_dot, radius_cos, off_axis_dot.
  set (c := dot (radians (s_ra s)) (radians (s_dec s)) (radians (v_ra v)) (radians (v_dec v))).
  assert (B : -1 <= c <= 1) by apply dot_bound. assert (P := PI_RGT_0).
  assert (A : 0 <= radians radius <= PI) by (unfold radians; split; nra).
  assert (D := COS_bound (radians radius)).
  assert (I : sqrt (2 - 2 * c) <= sqrt (2 - 2 * cos (radians radius)) <-> acos c * 180 / PI <= radius).
  { rewrite deg_le, acos_le_iff by assumption. split; intros H; [|apply sqrt_le_1; lra].
    apply sqrt_le_0 in H; lra. }
  destruct (Rle_dec (sqrt (2 - 2 * c)) (sqrt (2 - 2 * cos (radians radius)))) as [L|L], (Rle_dec (acos c * 180 / PI) radius) as [M|M]; try reflexivity; tauto.
Qed.

(** * Patches *)
Lemma gnomonic_norm : forall a b a0 b0, let c := dot a b a0 b0 in c <> 0 ->
  fst (gnomonic a b a0 b0) ^ 2 + snd (gnomonic a b a0 b0) ^ 2 = (1 - c ^ 2) / c ^ 2.
Proof.
  intros a b a0 b0 c H. unfold gnomonic. cbv zeta. cbn [fst snd].
  assert (E : sin b0 * sin b + cos b0 * cos b * cos (a - a0) = c) by (unfold c; rewrite <- dot_formula; ring). rewrite E.
  set (s := sin (a - a0)) in *. set (k := cos (a - a0)) in *. assert (SK : s * s + k * k = 1) by (assert (X := sin2_cos2 (a - a0)); unfold Rsqr in X; exact X).
  assert (S1 : sin b * sin b + cos b * cos b = 1) by (assert (X := sin2_cos2 b); unfold Rsqr in X; exact X).
  assert (S2 : sin b0 * sin b0 + cos b0 * cos b0 = 1) by (assert (X := sin2_cos2 b0); unfold Rsqr in X; exact X).
  assert (N : (cos b * s) ^ 2 + (cos b0 * sin b - sin b0 * cos b * k) ^ 2 + c ^ 2 = 1).
  { rewrite <- E. set (u := cos b) in *. set (w := sin b) in *. set (u0 := cos b0) in *. set (w0 := sin b0) in *.
    transitivity (u * u * (s * s) + (w0 * w0 + u0 * u0) * (w * w) + (w0 * w0 + u0 * u0) * (u * u * (k * k))); [ring|]. rewrite S2.
    transitivity (u * u * (s * s + k * k) + w * w); [ring|]. rewrite SK. lra. }
  replace (1 - c ^ 2) with ((cos b * s) ^ 2 + (cos b0 * sin b - sin b0 * cos b * k) ^ 2) by lra. field. exact H.
Qed.
Lemma rotate_norm : forall t x y, (cos t * x + sin t * y) ^ 2 + (- 1 * sin t * x + cos t * y) ^ 2 = x ^ 2 + y ^ 2.
Proof.
  intros t x y. assert (S1 : sin t * sin t + cos t * cos t = 1) by (assert (X := sin2_cos2 t); unfold Rsqr in X; exact X).
  transitivity ((sin t * sin t + cos t * cos t) * (x ^ 2 + y ^ 2)); [ring|]. rewrite S1. ring.
Qed.
Lemma project_focal : forall v s, project gnomonic v s = focal v s.
Proof.
  intros v s. unfold project, focal, radians. cbv zeta.
  destruct (gnomonic (s_ra s * PI / 180) (s_dec s * PI / 180) (v_ra v * PI / 180) (v_dec v * PI / 180)) as [x y]. cbn [fst snd]. f_equal. ring.
Qed.
Lemma maxy_half : snd (gnomonic 0 (radians 1.8) 0 0) = half.
Proof. unfold gnomonic, half, radians, tan. cbv zeta. cbn [snd]. rewrite Rminus_0_r, cos_0, sin_0. unfold Rdiv. f_equal; [ring|]. f_equal. ring. Qed.
Lemma half_pos : 0 < half /\ 0 < cos (1.8 * PI / 180).
Proof.
  assert (P := PI_RGT_0). assert (A : 0 < 1.8 * PI / 180 < PI / 2) by lra. assert (C : 0 < cos (1.8 * PI / 180)) by (apply cos_gt_0; lra). split; [|exact C].
  unfold half, tan. apply Rdiv_lt_0_compat; [apply sin_gt_0; lra|exact C].
Qed.
Lemma focal_small : forall v s, off_axis v s < 1.8 -> - half < fst (focal v s) < half /\ - half < snd (focal v s) < half.
Proof.
  intros v s H. rewrite off_axis_dot in H. apply deg_lt in H.
  set (c := dot (radians (s_ra s)) (radians (s_dec s)) (radians (v_ra v)) (radians (v_dec v))) in *.
  destruct half_pos as [HP CP]. assert (P := PI_RGT_0). set (rho := 1.8 * PI / 180) in *. change (radians 1.8) with rho in H.
  assert (B : -1 <= c <= 1) by apply dot_bound.
  assert (RB : 0 <= rho <= PI) by (unfold rho; lra).
  assert (CC : cos rho < c).
  { assert (X := acos_bound c). rewrite <- (cos_acos c) by exact B. apply cos_decreasing_1; lra. }
  assert (N : fst (focal v s) ^ 2 + snd (focal v s) ^ 2 = (1 - c ^ 2) / c ^ 2).
  { rewrite <- project_focal. unfold project. cbv zeta. fold (radians (s_ra s)).
    assert (G := gnomonic_norm (radians (s_ra s)) (radians (s_dec s)) (radians (v_ra v)) (radians (v_dec v))). cbv zeta in G. fold c in G.
    destruct (gnomonic (radians (s_ra s)) (radians (s_dec s)) (radians (v_ra v)) (radians (v_dec v))) as [x y]. cbn [fst snd] in *. rewrite rotate_norm. apply G. lra. }
  assert (T : half ^ 2 = (1 - cos rho ^ 2) / cos rho ^ 2).
  { unfold half, tan. fold rho. assert (S1 := sin2_cos2 rho). unfold Rsqr in S1. replace (1 - cos rho ^ 2) with (sin rho ^ 2) by lra. field. lra. }
  assert (LT : (1 - c ^ 2) / c ^ 2 < (1 - cos rho ^ 2) / cos rho ^ 2).
  { replace ((1 - c ^ 2) / c ^ 2) with (/ (c * c) - 1) by (field; lra). replace ((1 - cos rho ^ 2) / cos rho ^ 2) with (/ (cos rho * cos rho) - 1) by (field; lra).
    assert (/ (c * c) < / (cos rho * cos rho)); [|lra]. apply Rinv_lt_contravar; [apply Rmult_lt_0_compat; apply Rmult_lt_0_compat; lra|]. apply Rmult_gt_0_lt_compat; lra. }
  rewrite <- N, <- T in LT.
  assert (SQ : forall x y, x ^ 2 + y ^ 2 < half ^ 2 -> - half < x < half).
  { intros x y L. assert (Y := Rle_0_sqr y). unfold Rsqr in Y. split.
    - destruct (Rlt_dec (- half) x) as [K|K]; [exact K|]. exfalso. nra.
    - destruct (Rlt_dec x half) as [K|K]; [exact K|]. exfalso. nra. }
  split; [apply (SQ _ (snd (focal v s))); exact LT|apply (SQ _ (fst (focal v s))); lra].
Qed.
Lemma int_part_bounds : forall x, IZR (Int_part x) <= x < IZR (Int_part x) + 1.
Proof. intros x. assert (H := base_Int_part x). lra. Qed.
Lemma int_part_eq : forall x z, IZR z <= x < IZR z + 1 -> Int_part x = z.
Proof.
  intros x z H. assert (B := int_part_bounds x). assert (A1 : IZR z < IZR (Int_part x + 1)) by (rewrite plus_IZR; lra).
  assert (A2 : IZR (Int_part x) < IZR (z + 1)) by (rewrite plus_IZR; lra). apply lt_IZR in A1. apply lt_IZR in A2. lia.
Qed.
Lemma floor_column : forall k x, (0 < k)%Z -> - half < x < half -> in_column k (floor ((x + half) / (2 * half) * IZR k)) x.
Proof.
  intros k x K X. destruct half_pos as [HP _]. unfold floor. set (t := (x + half) / (2 * half) * IZR k).
  assert (KP : 0 < IZR k) by (apply IZR_lt; exact K). assert (B := int_part_bounds t). set (a := Int_part t) in *.
  assert (XT : x = - half + 2 * half * t / IZR k) by (unfold t; field; lra).
  assert (T0 : 0 < t) by (unfold t; apply Rmult_lt_0_compat; [apply Rdiv_lt_0_compat; lra|exact KP]).
  assert (TK : t < IZR k).
  { unfold t. replace (IZR k) with (1 * IZR k) at 2 by ring. apply Rmult_lt_compat_r; [exact KP|].
    apply (Rmult_lt_reg_r (2 * half)); [lra|]. unfold Rdiv. rewrite Rmult_assoc, Rinv_l by lra. lra. }
  split.
  - split.
    + assert (-1 < IZR a) by lra. apply (lt_IZR (-1)) in H. lia.
    + apply lt_IZR. lra.
  - rewrite XT. assert (F : 0 < 2 * half / IZR k) by (apply Rdiv_lt_0_compat; lra). rewrite plus_IZR. unfold Rdiv in *. split.
    + apply Rplus_le_compat_l. rewrite !(Rmult_comm (2 * half)), !Rmult_assoc. apply Rmult_le_compat_r; lra.
    + apply Rplus_lt_compat_l. rewrite !(Rmult_comm (2 * half)), !Rmult_assoc. apply Rmult_lt_compat_r; lra.
Qed.
Lemma trunc_Z : forall z, (0 <= z)%Z -> trunc (IZR z) = z.
Proof.
  intros z H. unfold trunc. destruct (Rle_dec 0 (IZR z)) as [_|N]; [apply int_part_eq; lra|]. destruct N. apply IZR_le. exact H.
Qed.
Lemma sqrt_square_Z : forall k, (0 < k)%Z -> sqrt (IZR (k * k)) = IZR k.
Proof. intros k K. rewrite mult_IZR. apply sqrt_square. apply IZR_le. lia. Qed.
Lemma patch_form : forall v k s, (0 < k)%Z -> off_axis v s < 1.8 ->
  let f := assign_patch gnomonic v (k * k) 1.8 s in
  exists a b, f_patch f = (v_id v * (k * k) + a + b * k)%Z /\ in_column k a (fst (focal v s)) /\ in_column k b (snd (focal v s)).
Proof.
  intros v k s K H f. unfold f, assign_patch. rewrite project_focal, maxy_half, sqrt_square_Z by exact K.
  destruct (focal_small v s H) as [X Y]. destruct (focal v s) as [x y]. cbn [fst snd f_patch] in *.
  assert (CX := floor_column k x K X). assert (CY := floor_column k y K Y).
  set (a := floor ((x + half) / (2 * half) * IZR k)) in *. set (b := floor ((y + half) / (2 * half) * IZR k)) in *.
  exists a, b. split; [|split; assumption]. rewrite <- mult_IZR, <- plus_IZR, trunc_Z by (destruct CX, CY; nia). ring.
Qed.

(** * Offsets *)
Lemma add2_length : forall a b, length a = length b -> length (add2 a b) = length a.
Proof. induction a as [|x a IH]; intros [|y b] L; try discriminate L; [reflexivity|]. cbn [add2 length]. f_equal. apply IH. cbn in L. lia. Qed.
Lemma add2_nth : forall a b j, length a = length b -> nth j (add2 a b) 0 = nth j a 0 + nth j b 0.
Proof.
  induction a as [|x a IH]; intros [|y b] j L; try discriminate L; [destruct j; cbn; lra|].
  destruct j as [|j]; cbn [add2 nth]; [reflexivity|]. apply IH. cbn in L. lia.
Qed.
Definition added (m : list R) (ds : list (list R)) : list R := fold_left add2 ds m.
Lemma added_length : forall ds m, (forall d, In d ds -> length d = length m) -> length (added m ds) = length m.
Proof.
  induction ds as [|d t IH]; intros m H; [reflexivity|]. unfold added in *. cbn [fold_left].
  assert (L : length m = length d) by (symmetry; apply H; left; reflexivity). assert (A := add2_length m d L).
  rewrite IH; [exact A|]. intros e I. rewrite A. apply H. right. exact I.
Qed.
Lemma added_nth : forall ds m j, (forall d, In d ds -> length d = length m) -> nth j (added m ds) 0 = nth j m 0 + total (map (fun d => nth j d 0) ds).
Proof.
  induction ds as [|d t IH]; intros m j H; [unfold added, total; cbn; lra|]. unfold added, total in *. cbn [fold_left map fold_right].
  assert (L : length m = length d) by (symmetry; apply H; left; reflexivity). assert (A := add2_length m d L).
  rewrite IH; [rewrite add2_nth by exact L; lra|]. intros e I. rewrite A. apply H. right. exact I.
Qed.
Lemma dset_new : forall {V} (d : list (string * V)) k v, ~ In k (map fst d) -> dset String.eqb d k v = d ++ [(k, v)].
Proof.
  intros V d k v N. induction d as [|[k' v'] t IH]; [reflexivity|]. cbn [dset app]. destruct (String.eqb_spec k k') as [->|D]; [destruct N; left; reflexivity|].
  f_equal. apply IH. intros I. apply N. right. exact I.
Qed.
Lemma add_all_plain : forall keys ds m, (forall d, In d ds -> length d = length m) -> length keys = length ds ->
  add_all m (combine keys (map Plain ds)) = Ok (added m ds).
Proof.
  induction keys as [|k keys IH]; intros [|d ds] m H L; try discriminate L; [reflexivity|]. cbn [map combine add_all add_array].
  assert (E : length m = length d) by (symmetry; apply H; left; reflexivity). rewrite (proj2 (Nat.eqb_eq _ _) E). cbn [bind].
  rewrite IH; [reflexivity| |cbn in L; lia]. intros e I. rewrite add2_length by exact E. apply H. right. exact I.
Qed.
Lemma combine_snoc : forall {A B} (u : list A) (w : list B) a b, length u = length w -> combine (u ++ [a]) (w ++ [b]) = combine u w ++ [(a, b)].
Proof. intros A B u. induction u as [|x u IH]; intros [|y w] a b L; try discriminate L; [reflexivity|]. cbn [app combine]. f_equal. apply IH. cbn in L. lia. Qed.
(** if every offset gives numbers, and their names differ *)
Lemma call_called : forall stars v offs keys ds0 out, length keys = length ds0 -> NoDup (keys ++ map newkey offs) ->
  (forall o prev d, In o offs -> call o stars v prev = Ok d -> exists l, d = Plain l) ->
  call_offsets offs stars v (combine keys (map Plain ds0)) = Ok out ->
  exists ds, out = combine (keys ++ map newkey offs) (map Plain (ds0 ++ ds)) /\ length ds = length offs /\
    ((forall d, In d ds -> length d = length stars) -> called stars v offs (combine keys (map Plain ds0)) ds).
Proof.
  intros stars v. induction offs as [|o t IH]; intros keys ds0 out L N H E.
  - exists []. rewrite !app_nil_r. cbn [map call_offsets] in *. injection E as <-. repeat split. intros _. constructor.
  - cbn [call_offsets] in E. destruct (call o stars v (combine keys (map Plain ds0))) as [d|] eqn:C; [|discriminate E]. cbn [bind] in E.
    destruct (H o _ d (or_introl eq_refl) C) as [l ->].
    assert (NK : ~ In (newkey o) keys).
    { cbn [map] in N. apply NoDup_remove_2 in N. intros I. apply N. apply in_app_iff. left. exact I. }
    rewrite dset_new in E.
    2:{ intros I. apply NK. apply in_map_iff in I. destruct I as [[k x] [X I]]. cbn in X. subst k. apply in_combine_l in I. exact I. }
    assert (CS : combine keys (map Plain ds0) ++ [(newkey o, Plain l)] = combine (keys ++ [newkey o]) (map Plain (ds0 ++ [l]))).
    { rewrite map_app. cbn [map]. symmetry. apply combine_snoc. rewrite map_length. exact L. }
    rewrite CS in E. apply IH in E.
    + destruct E as [ds [EO [LD CD]]]. exists (l :: ds). split; [|split; [cbn; lia|]].
      * rewrite EO. rewrite <- !app_assoc. reflexivity.
      * intros A. constructor; [exact C|apply A; left; reflexivity|]. rewrite CS. apply CD. intros d I. apply A. right. exact I.
    + rewrite !app_length. cbn. lia.
    + rewrite <- app_assoc. exact N.
    + intros o' prev d I. apply H. right. exact I.
Qed.
Lemma add_all_length : forall ds m l, add_all m ds = Ok l -> length l = length m.
Proof.
  induction ds as [|[k d] t IH]; intros m l E; [injection E as <-; reflexivity|]. cbn [add_all] in E. destruct d as [d|]; [|discriminate E]. cbn [add_array] in E.
  destruct (Nat.eqb_spec (length m) (length d)) as [L|]; [|discriminate E]. cbn [bind] in E. apply IH in E. rewrite E. apply add2_length. exact L.
Qed.
Lemma add_all_added : forall keys ds m l, length keys = length ds -> add_all m (combine keys (map Plain ds)) = Ok l ->
  l = added m ds /\ forall d, In d ds -> length d = length m.
Proof.
  induction keys as [|k keys IH]; intros [|d ds] m l L E; try discriminate L; [injection E as <-; split; [reflexivity|intros d []]|].
  cbn [map combine add_all add_array] in E. destruct (Nat.eqb_spec (length m) (length d)) as [M|]; [|discriminate E]. cbn [bind] in E.
  apply IH in E; [|cbn in L; lia]. destruct E as [-> F]. rewrite add2_length in F by exact M. split; [reflexivity|].
  intros e [<-|I]; [symmetry; exact M|apply F; exact I].
Qed.
(** offsets that give a number for every star *)
Definition sized (n : nat) (prev : list (string * darray)) : Prop := forall k d, In (k, d) prev -> exists l, d = Plain l /\ length l = n.
Lemma dset_in : forall {V} (d : list (string * V)) k v k' v', In (k', v') (dset String.eqb d k v) -> v' = v \/ In (k', v') d.
Proof.
  intros V d k v k' v'. induction d as [|[k0 v0] t IH]; cbn [dset]; intros I.
  - destruct I as [I|[]]. injection I as <- <-. left. reflexivity.
  - destruct (String.eqb k k0).
    + destruct I as [I|I]; [injection I as <- <-; left; reflexivity|right; right; exact I].
    + destruct I as [I|I]; [right; left; exact I|]. destruct (IH I) as [->|J]; [left; reflexivity|right; right; exact J].
Qed.
Lemma call_sized : forall stars v offs prev, sized (length stars) prev ->
  (forall o prev, In o offs -> sized (length stars) prev -> exists l, call o stars v prev = Ok (Plain l) /\ length l = length stars) ->
  exists out, call_offsets offs stars v prev = Ok out /\ sized (length stars) out.
Proof.
  intros stars v. induction offs as [|o t IH]; intros prev Z H; [exists prev; split; [reflexivity|exact Z]|]. cbn [call_offsets].
  destruct (H o prev (or_introl eq_refl) Z) as [l [E L]]. rewrite E. cbn [bind]. apply IH.
  - intros k d I. apply dset_in in I. destruct I as [->|I]; [exists l; split; [reflexivity|exact L]|exact (Z k d I)].
  - intros o' p I. apply H. right. exact I.
Qed.
Lemma add_all_sized : forall prev m, sized (length m) prev -> exists l, add_all m prev = Ok l.
Proof.
  induction prev as [|[k d] t IH]; intros m Z; [exists m; reflexivity|]. cbn [add_all]. destruct (Z k d (or_introl eq_refl)) as [l [-> L]]. cbn [add_array].
  rewrite (proj2 (Nat.eqb_eq _ _) (eq_sym L)). cbn [bind]. apply IH. rewrite add2_length by (symmetry; exact L). intros k' d' I. apply (Z k'). right. exact I.
Qed.

(** * Uncertainties *)
Lemma ln10_pos : 0 < ln 10.
Proof. rewrite <- ln_1. apply ln_increasing; lra. Qed.
Lemma mag_error_at : forall m m5, mag_error m m5 = error_at m m5.
Proof.
  intros m m5. unfold mag_error, error_at, log10, m52snr, snr_gamma. set (x := Rpower 10 (2 / 5 * (m - m5))).
  assert (X : 0 < x) by apply exp_pos.
  assert (E : Rpower 10 (0.4 * (m5 - m)) = / x).
  { unfold x. rewrite <- Rpower_Ropp. f_equal. lra. }
  rewrite E. replace ((1 / 25 - 1 / 25) * x + 1 / 25 * x * x) with ((x / 5) * (x / 5)) by field. rewrite sqrt_square by lra.
  replace (1 / (1 / (x / 5))) with (/ (5 * / x)) by (field; lra). reflexivity.
Qed.
Lemma error_pos : forall m m5, 0 < error_at m m5.
Proof.
  intros m m5. unfold error_at. assert (X : 0 < / (5 * Rpower 10 (0.4 * (m5 - m)))).
  { apply Rinv_0_lt_compat. apply Rmult_lt_0_compat; [lra|apply exp_pos]. }
  assert (L : 0 < ln (1 + / (5 * Rpower 10 (0.4 * (m5 - m))))) by (rewrite <- ln_1; apply ln_increasing; lra).
  assert (T := ln10_pos). apply Rmult_lt_0_compat; [lra|]. apply Rdiv_lt_0_compat; assumption.
Qed.
Lemma error_mono : forall m m5 m' m5', m - m5 < m' - m5' -> error_at m m5 < error_at m' m5'.
Proof.
  intros m m5 m' m5' H. unfold error_at. assert (T := ln10_pos).
  assert (P : Rpower 10 (0.4 * (m5' - m')) < Rpower 10 (0.4 * (m5 - m))) by (apply Rpower_lt; lra).
  assert (Q : 0 < Rpower 10 (0.4 * (m5' - m'))) by apply exp_pos.
  assert (I : / (5 * Rpower 10 (0.4 * (m5 - m))) < / (5 * Rpower 10 (0.4 * (m5' - m')))).
  { apply Rinv_lt_contravar; [apply Rmult_lt_0_compat; lra|lra]. }
  assert (W : 0 < / (5 * Rpower 10 (0.4 * (m5 - m)))) by (apply Rinv_0_lt_compat; lra).
  apply Rmult_lt_compat_l; [lra|]. unfold Rdiv. apply Rmult_lt_compat_r; [apply Rinv_0_lt_compat; exact T|]. apply ln_increasing; lra.
Qed.
Lemma quad_mono : forall a b f, 0 <= a -> a < b -> sqrt (a ^ 2 + f ^ 2) < sqrt (b ^ 2 + f ^ 2).
Proof.
  intros a b f A B. assert (F := Rle_0_sqr f). unfold Rsqr in F. apply sqrt_lt_1; nra.
Qed.
Lemma quad_ge : forall a f, 0 <= f -> f <= sqrt (a ^ 2 + f ^ 2).
Proof.
  intros a f F. rewrite <- (sqrt_square f) at 1 by exact F. assert (A := Rle_0_sqr a). unfold Rsqr in A. apply sqrt_le_1; nra.
Qed.
