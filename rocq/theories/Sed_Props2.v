(** The properties of dust, of renormalization, of many fluxes and of the cache of spectra: C200 - C205. *)
From Verif Require Import Base Astrom_Model MoMag_Model Astrom_Proofs MoMag_Proofs Resample_Model Resample_Spec Resample_Proofs Resample_Proofs3 Phot_Model Phot_Spec Phot_Proofs Phot_Proofs2 Sed_Model Sed_Spec Sed_Proofs Sed_Proofs2 Sed_Proofs3.
From Coq Require Import Reals Lra Lia.
Open Scope R_scope.

(** ** C200: dust dims each wavelength by (a + b / R_V) A_V magnitudes *)
Lemma ln10 : 0 < ln 10. Proof. rewrite <- ln_1. apply ln_increasing; lra. Qed.
Lemma factor_power a r ax bx : dust_factor a r ax bx = Rpower 10 (- (2/5) * ((ax + bx / r) * a)).
Proof. unfold dust_factor, Rpower. f_equal. ring. Qed.
Lemma dusty_nth a r : forall ab f i x, length ab = length f -> nth i f None = Some x ->
  nth i (dusty a r ab f) None = Some (x * dust_factor a r (fst (nth i ab (0, 0))) (snd (nth i ab (0, 0)))).
Proof.
  unfold dusty. induction ab as [|p ab IH]; intros [|y f] [|i] x L H; cbn in *; try lia; try discriminate. { subst y. reflexivity. } apply IH; [lia|exact H].
Qed.
(** what was given of A_V, E(B-V) and R_V fits what is used *)
Definition fits (a_v ebv : option R) (r_v A Rv : R) : Prop :=
  (forall a, a_v = Some a -> A = a) /\ (forall e, ebv = Some e -> A = Rv * e) /\ (a_v = None \/ ebv = None -> Rv = r_v) /\ (r_v <> 31/10 -> Rv = r_v).
Lemma params_fit a_v ebv r_v A Rv : dust_params a_v ebv r_v = Ok (A, Rv) -> fits a_v ebv r_v A Rv.
Proof.
  unfold dust_params, fits. destruct (Req_EM_T r_v (31/10)) as [E|N]; destruct a_v as [a|], ebv as [e|]; cbn; try discriminate.
  - destruct (Req_EM_T e 0); cbn; [discriminate|]. destruct (Req_EM_T (a / e) (31/10)).
    + intros [= <- <-]. repeat split; try (intros ? [= <-]); try (intros [|]; discriminate); try (field; assumption); try congruence; intros; lra.
    + destruct (Req_EM_T (a / e) (a / e)); [|discriminate]. intros [= <- <-]. repeat split; try (intros ? [= <-]); try (intros [|]; discriminate); try (field; assumption); try congruence; intros; lra.
  - destruct (Req_EM_T r_v (31/10)); [|congruence]. intros [= <- <-]. repeat split; intros; congruence.
  - destruct (Req_EM_T r_v (31/10)); [|congruence]. intros [= <- <-]. repeat split; intros; congruence.
  - destruct (Req_EM_T r_v (31/10)); [congruence|]. destruct (Req_EM_T e 0); [discriminate|]. destruct (Req_EM_T (a / e) r_v) as [E|]; [|discriminate].
    intros [= <- <-]. repeat split; try (intros ? [= <-]); try (intros; congruence). rewrite <- E. field. assumption.
  - destruct (Req_EM_T r_v (31/10)); [congruence|]. intros [= <- <-]. repeat split; intros; congruence.
  - destruct (Req_EM_T r_v (31/10)); [congruence|]. intros [= <- <-]. repeat split; intros; congruence.
  - destruct (Req_EM_T r_v (31/10)); [congruence|]. discriminate.
Qed.
Theorem C200_dims s ab a_v ebv r_v w fl : get_sed_flambda s = Ok (w, fl) -> snd (step s (Dust ab a_v ebv r_v)) = Ok tt ->
  exists A Rv fl', fits a_v ebv r_v A Rv /\ get_sed_flambda (fst (step s (Dust ab a_v ebv r_v))) = Ok (w, fl') /\ length fl' = length fl /\
    forall i x, nth i fl None = Some x -> 0 < x -> exists y, nth i fl' None = Some y /\ 0 < y /\
      5/2 * log10 (x / y) = (fst (nth i ab (0, 0)) + snd (nth i ab (0, 0)) / Rv) * A.
Proof.
  intros G. unfold get_sed_flambda in *. destruct (s_w s) as [w0|] eqn:Ew; [|discriminate]. destruct (s_fl s) as [f0|] eqn:Ef; [|discriminate]. injection G as -> ->.
  cbn [step]. unfold add_dust. destruct (dust_params a_v ebv r_v) as [[A Rv]|] eqn:E; [|discriminate]. rewrite Ef. destruct (Nat.eqb_spec (length ab) (length fl)) as [L|]; [|discriminate].
  intros _. exists A, Rv, (dusty A Rv ab fl). split; [apply params_fit, E|]. cbn. rewrite Ew. split; [reflexivity|]. split; [apply dusty_length, L|].
  intros i x H P. eexists. split; [apply dusty_nth; [exact L|exact H]|]. rewrite factor_power. set (m := (_ + _) * A). assert (0 < Rpower 10 (- (2/5) * m)) as Q by apply exp_pos.
  split; [apply Rmult_lt_0_compat; assumption|]. unfold log10. pose proof ln10.
  replace (x / (x * Rpower 10 (- (2/5) * m))) with (/ Rpower 10 (- (2/5) * m)) by (field; split; lra).
  rewrite ln_Rinv by exact Q. unfold Rpower. rewrite ln_exp. field. lra.
Qed.
Print Assumptions C200_dims.
(** two screens of the same dust are one; none is none *)
Lemma dusty_twice a b r ab : forall f, dusty b r ab (dusty a r ab f) = dusty (a + b) r ab f.
Proof.
  unfold dusty. induction ab as [|p ab IH]; intros [|y f]; cbn; try reflexivity. rewrite IH. f_equal. destruct y; cbn; [|reflexivity]. f_equal.
  unfold dust_factor. rewrite Rmult_assoc, <- exp_plus. f_equal. f_equal. ring.
Qed.
Lemma params_av a r : dust_params (Some a) None r = Ok (a, r).
Proof. unfold dust_params. destruct (Req_EM_T r (31/10)); cbn; destruct (Req_EM_T r (31/10)); try reflexivity; congruence. Qed.
Theorem C200_add s ab a b r : snd (step s (Dust ab (Some a) None r)) = Ok tt ->
  step (fst (step s (Dust ab (Some a) None r))) (Dust ab (Some b) None r) = step s (Dust ab (Some (a + b)) None r).
Proof.
  cbn [step]. unfold add_dust. rewrite !params_av. destruct (s_fl s) as [f|] eqn:Ef; [|discriminate]. destruct (Nat.eqb_spec (length ab) (length f)) as [L|]; [|discriminate].
  intros _. cbn. rewrite dusty_length by exact L. rewrite (proj2 (Nat.eqb_eq _ _) L), dusty_twice. reflexivity.
Qed.
Print Assumptions C200_add.
Theorem C200_zero s ab r w fl : get_sed_flambda s = Ok (w, fl) -> length ab = length fl -> get_sed_flambda (fst (step s (Dust ab (Some 0) None r))) = Ok (w, fl).
Proof.
  intros G L. unfold get_sed_flambda in *. destruct (s_w s) as [w0|] eqn:Ew; [|discriminate]. destruct (s_fl s) as [f0|] eqn:Ef; [|discriminate]. injection G as -> ->.
  cbn [step]. unfold add_dust. rewrite params_av, Ef, (proj2 (Nat.eqb_eq _ _) L). cbn. rewrite Ew. f_equal. f_equal. clear - L. revert fl L. unfold dusty.
  induction ab as [|p ab IH]; intros [|y f] L; cbn in *; try lia; [reflexivity|]. rewrite IH by lia. f_equal. destruct y; cbn; [|reflexivity]. f_equal.
  unfold dust_factor. rewrite Rmult_0_r, Ropp_0, Rmult_0_l, exp_0. ring.
Qed.
Print Assumptions C200_zero.
(** values that contradict each other are refused (refuted when R_V is 3.1) *)
Theorem C200_refuted : ~ (forall a e r, e <> 0 -> a <> r * e -> exists x, dust_params (Some a) (Some e) r = Err x).
Proof.
  intros C. destruct (C 1 1 (31/10)) as [x H]; [lra|lra|]. unfold dust_params in H. destruct (Req_EM_T (31/10) (31/10)); [|lra]. destruct (Req_EM_T 1 0); [lra|]. cbn in H.
  destruct (Req_EM_T (1 / 1) (31/10)); [discriminate|]. destruct (Req_EM_T (1 / 1) (1 / 1)); [discriminate|congruence].
Qed.
Print Assumptions C200_refuted.
Theorem C200_refuses_partial a e r : e <> 0 -> r <> 31/10 -> dust_params (Some a) (Some e) r = if Req_EM_T a (r * e) then Ok (a, r) else Err ValueError.
Proof.
  intros E N. unfold dust_params. destruct (Req_EM_T r (31/10)); [congruence|]. cbn. destruct (Req_EM_T r (31/10)); [congruence|]. destruct (Req_EM_T e 0); [congruence|].
  destruct (Req_EM_T (a / e) r) as [H|H], (Req_EM_T a (r * e)) as [K|K]; try reflexivity; exfalso; [apply K; rewrite <- H; field; exact E|apply H; rewrite K; field; exact E].
Qed.
Print Assumptions C200_refuses_partial.
(** without A_V and E(B-V) nothing can be done *)
Theorem C200_nothing r : exists x, dust_params None None r = Err x.
Proof. unfold dust_params. destruct (Req_EM_T r (31/10)); cbn; [eauto|]. destruct (Req_EM_T r (31/10)); eauto. Qed.
Print Assumptions C200_nothing.
Example C200_case : dust_params None (Some 2) 3 = Ok (6, 3) /\ dust_params (Some 6) (Some 2) 3 = Ok (6, 3) /\ dust_params (Some 7) (Some 2) 3 = Err ValueError.
Proof.
  split; [|split; rewrite C200_refuses_partial by lra]; [|destruct (Req_EM_T 6 (3 * 2)); [reflexivity|lra]|destruct (Req_EM_T 7 (3 * 2)); [lra|reflexivity]].
  unfold dust_params. destruct (Req_EM_T 3 (31/10)); [lra|]. cbn. destruct (Req_EM_T 3 (31/10)); [lra|]. repeat f_equal. lra.
Qed.

(** ** C201: the dust laws *)
Definition extinction (ab : R * R) (r_v : R) : R := fst ab + snd ab / r_v.
(** at 1.82 inverse microns the extinction is A_V *)
Theorem C201_visual r_v : extinction (nth 0 (setup_ccm_ab [1000 / (182/100)]) (0, 0)) r_v = 1 /\ extinction (nth 0 (setup_o_donnell_ab [1000 / (182/100)]) (0, 0)) r_v = 1.
Proof.
  assert (inverse_microns (1000 / (182/100)) = 182/100) as E by (unfold inverse_microns; field).
  assert (forall oa ob, hd 0 oa = 1 -> hd 0 ob = 0 -> extinction (dust_law oa ob (182/100)) r_v = 1) as H.
  { intros oa ob A B. unfold dust_law, rleb, rltb. destruct (Rle_dec 8 (182/100)); [lra|]. destruct (Rlt_dec (59/10) (182/100)); [lra|]. destruct (Rle_dec (33/10) (182/100)); [lra|].
    destruct (Rle_dec (11/10) (182/100)); [|lra]. destruct (Rle_dec (182/100) (33/10)); [|lra]. cbn. unfold extinction; cbn. replace (182/100 - 182/100) with 0 by ring.
    assert (forall l, horner l 0 = hd 0 l) as Z by (intros [|c l]; cbn; ring). rewrite !Z, A, B. unfold Rdiv. ring. }
  unfold setup_ccm_ab, setup_o_donnell_ab. cbn [map nth]. rewrite E. split; apply H; reflexivity.
Qed.
Print Assumptions C201_visual.
(** dust dims at every wavelength between 0.3 and 11 inverse microns (refuted at 5.9) *)
Definition covers (l : R) : Prop := 0 < l /\ 3/10 <= 1000 / l <= 11.
Theorem C201_refuted : ~ (forall l r_v, covers l -> 2 <= r_v <= 6 -> 0 < extinction (nth 0 (setup_ccm_ab [l]) (0, 0)) r_v).
Proof.
  intros C. specialize (C (1000 / (59/10)) 3). assert (1000 / (1000 / (59/10)) = 59/10) as E by field. unfold covers in C. rewrite E in C.
  assert (0 < 1000 / (59/10)) by lra. specialize (C ltac:(lra) ltac:(lra)). unfold setup_ccm_ab in C. cbn [map nth] in C.
  assert (inverse_microns (1000 / (59/10)) = 59/10) as I by (unfold inverse_microns; field). rewrite I in C. unfold dust_law, rleb, rltb in C.
  destruct (Rle_dec 8 (59/10)); [lra|]. destruct (Rlt_dec (59/10) (59/10)); [lra|]. destruct (Rle_dec (33/10) (59/10)); [|lra]. destruct (Rle_dec (11/10) (59/10)); [|lra].
  destruct (Rle_dec (59/10) (33/10)); [lra|]. destruct (Rle_dec (3/10) (59/10)); [|lra]. destruct (Rle_dec (59/10) (11/10)); [lra|]. unfold extinction in C; cbn in C. lra.
Qed.
Print Assumptions C201_refuted.
Lemma inv_range r : 2 <= r <= 6 -> 1/6 <= / r <= 1/2.
Proof. intros H. split; [replace (1/6) with (/ 6) by lra; apply Rinv_le_contravar; lra|replace (1/2) with (/ 2) by lra; apply Rinv_le_contravar; lra]. Qed.
Lemma microns l : 0 < l -> inverse_microns l = 1000 / l. Proof. intros H. unfold inverse_microns. field. lra. Qed.
Theorem C201_dims_partial w r_v i : (i < length w)%nat -> covers (nth i w 0) -> 1000 / nth i w 0 <> 59/10 -> 2 <= r_v <= 6 ->
  0 < extinction (nth i (setup_ccm_ab w) (0, 0)) r_v /\ 0 < extinction (nth i (setup_o_donnell_ab w) (0, 0)) r_v.
Proof.
  intros I [P X] N V. apply inv_range in V. unfold setup_ccm_ab, setup_o_donnell_ab.
  assert (forall oa ob, nth i (map (fun l => dust_law oa ob (inverse_microns l)) w) (0, 0) = dust_law oa ob (1000 / nth i w 0)) as E.
  { intros oa ob. rewrite (nth_indep _ (0, 0) (dust_law oa ob (inverse_microns 0))) by (rewrite map_length; exact I).
    rewrite (map_nth (fun l => dust_law oa ob (inverse_microns l))). rewrite microns by exact P. reflexivity. }
  rewrite !E. unfold extinction, Rdiv. split; apply law_pos; try assumption; [apply ccm_optical|apply odo_optical].
Qed.
Print Assumptions C201_dims_partial.
(** outside that range there is no extinction at all *)
Theorem C201_outside l : 0 < l -> 1000 / l < 3/10 \/ 11 < 1000 / l -> setup_ccm_ab [l] = [(0, 0)] /\ setup_o_donnell_ab [l] = [(0, 0)].
Proof.
  intros P H. unfold setup_ccm_ab, setup_o_donnell_ab; cbn [map]. rewrite !microns by exact P. set (x := 1000 / l) in *. clearbody x.
  unfold dust_law, rleb, rltb. destruct (Rle_dec 8 x), (Rle_dec x 11), (Rlt_dec (59/10) x), (Rlt_dec x 8), (Rle_dec (33/10) x), (Rlt_dec x (59/10)), (Rle_dec (11/10) x), (Rle_dec x (33/10)), (Rle_dec (3/10) x), (Rle_dec x (11/10)); cbn; try (split; reflexivity); lra.
Qed.
Print Assumptions C201_outside.
Example C201_case : covers 500 /\ 1000 / 500 <> 59/10 /\ covers 120.
Proof. unfold covers. lra. Qed.

(** ** C202: renormalization *)
Theorem C202_value step w fl x v fl' : ascending w -> (2 <= length w)%nat -> length fl = length w -> renormalize (Some step) NFlambda w fl x v 0 = Ok fl' ->
  on_line w fl' x v /\ exists k, fl' = map (fun y => y * k) fl.
Proof.
  intros A L F. unfold renormalize, rltb. destruct (Rlt_dec (last w 0) x); [discriminate|]. destruct (Rlt_dec x (hd 0 w)); [discriminate|]. cbn [orb].
  destruct (Req_EM_T 0 0); [|congruence]. destruct (Req_EM_T (interp w fl x) 0) as [|N]; [discriminate|]. intros [= <-]. split; [|eauto].
  pose proof (interp_line w (map (fun y => y * (v / interp w fl x)) fl) x A L ltac:(rewrite map_length; exact F) ltac:(lra) ltac:(lra)) as H. rewrite interp_scale in H.
  replace (interp w fl x * (v / interp w fl x)) with v in H by (field; exact N). exact H.
Qed.
Print Assumptions C202_value.
Lemma rsum_interp w fl k pts : rsum (map (interp w (map (fun y => y * k) fl)) pts) = rsum (map (interp w fl) pts) * k.
Proof.
  rewrite <- (rsum_times k). unfold times. rewrite map_map. f_equal. apply map_ext. intros p. apply interp_scale.
Qed.
(** over a gap, the mean of the values is the one asked for *)
Theorem C202_gap step w fl x v gap fl' : ascending w -> (2 <= length w)%nat -> length fl = length w -> 0 < step -> 0 < gap -> hd 0 w <= x - gap -> x + gap <= last w 0 ->
  renormalize (Some step) NFlambda w fl x v gap = Ok fl' ->
  exists n vs, (0 < n)%nat /\ length vs = n /\ INR (n - 1) * step < 2 * gap <= INR n * step /\
    (forall i, (i < n)%nat -> on_line w fl' (x - gap + INR i * step) (nth i vs 0)) /\ addup vs = v * INR n.
Proof.
  intros A L F S G H1 H2. unfold renormalize, rltb. destruct (Rlt_dec (last w 0) x); [lra|]. destruct (Rlt_dec x (hd 0 w)); [lra|]. cbn [orb].
  destruct (Req_EM_T gap 0); [lra|]. set (pts := arange (x - gap) (x + gap) step). set (m := rsum (map (interp w fl) pts) / INR (length pts)).
  destruct (Req_EM_T m 0) as [|N]; [discriminate|]. intros [= <-]. set (k := v / m). exists (length pts), (map (interp w (map (fun y => y * k) fl)) pts).
  pose proof (rceil_spec ((x + gap - (x - gap)) / step)) as C. set (z := rceil ((x + gap - (x - gap)) / step)) in *.
  assert (0 < (x + gap - (x - gap)) / step) as P by (apply Rdiv_lt_0_compat; lra). assert (0 < z)%Z as Z by (apply lt_IZR; lra).
  assert (length pts = Z.to_nat z) as Lp by apply arange_length. assert (INR (length pts) = IZR z) as Rp by (rewrite Lp, INR_IZR_INZ, Z2Nat.id by lia; reflexivity).
  assert ((x + gap - (x - gap)) / step * step = 2 * gap) as D by (field; lra).
  assert (0 < length pts)%nat as Pp by lia. split; [exact Pp|]. split; [apply map_length|]. split.
  { rewrite minus_INR by lia. rewrite Rp. cbn [INR]. split; [|nra]. apply (Rmult_lt_compat_r step) in P; nra. }
  split.
  - intros i I. rewrite (nth_indep _ 0 (interp w (map (fun y => y * k) fl) 0)) by (rewrite map_length; exact I). rewrite map_nth.
    assert (nth i pts 0 = x - gap + INR i * step) as -> by (apply arange_nth; exact I). assert (0 <= INR i * step) by (apply Rmult_le_pos; [apply pos_INR|lra]).
    assert (INR i <= IZR z - 1) as Hi. { assert (i <= length pts - 1)%nat as J by lia. apply le_INR in J. rewrite minus_INR in J by lia. rewrite Rp in J. cbn in J. exact J. }
    apply interp_line; [exact A|exact L|rewrite map_length; exact F|lra|]. nra.
  - change (addup (map (interp w (map (fun y => y * k) fl)) pts)) with (rsum (map (interp w (map (fun y => y * k) fl)) pts)).
    assert (0 < INR (length pts)) as Q by (apply lt_0_INR; exact Pp).
    assert (rsum (map (interp w (map (fun y => y * k) fl)) pts) = rsum (map (interp w fl) pts) * k) as -> by apply rsum_interp.
    assert (rsum (map (interp w fl) pts) = m * INR (length pts)) as -> by (unfold m; field; lra). unfold k. field. exact N.
Qed.
Print Assumptions C202_gap.
(** a positive spectrum can be renormalized anywhere in its range *)
Theorem C202_succeeds step w fl x v : ascending w -> (2 <= length w)%nat -> length fl = length w -> (forall y, In y fl -> 0 < y) -> hd 0 w <= x <= last w 0 ->
  exists fl', renormalize (Some step) NFlambda w fl x v 0 = Ok fl'.
Proof.
  intros A L F P X. unfold renormalize, rltb. destruct (Rlt_dec (last w 0) x); [lra|]. destruct (Rlt_dec x (hd 0 w)); [lra|]. cbn [orb].
  destruct (Req_EM_T 0 0); [|congruence]. pose proof (line_bounds w fl x _ 0 (interp_line w fl x A L F (proj1 X) (proj2 X)) A F P) as H.
  destruct (Req_EM_T (interp w fl x) 0); [lra|eauto].
Qed.
Print Assumptions C202_succeeds.
(** outside its range, or where it is zero, it is refused *)
Theorem C202_refuses step w fl x v gap : x < hd 0 w \/ last w 0 < x -> renormalize (Some step) NFlambda w fl x v gap = Err ValueError.
Proof. intros H. unfold renormalize, rltb. destruct (Rlt_dec (last w 0) x), (Rlt_dec x (hd 0 w)); cbn; try reflexivity; lra. Qed.
Print Assumptions C202_refuses.
Example C202_case : ascending [400; 600] /\ exists fl', renormalize (Some 1) NFlambda [400; 600] [1; 3] 500 7 0 = Ok fl' /\ on_line [400; 600] fl' 500 7.
Proof.
  assert (ascending [400; 600]) as A by (apply ascending_step; intros [|[|i]] H; cbn in *; try lia; lra). split; [exact A|].
  destruct (C202_succeeds 1 [400; 600] [1; 3] 500 7 A ltac:(cbn; lia) eq_refl ltac:(intros y [<-|[<-|[]]]; lra) ltac:(cbn; lra)) as [fl' E].
  exists fl'. split; [exact E|]. apply (C202_value 1 _ [1; 3] 500 7 fl' A); [cbn; lia|reflexivity|exact E].
Qed.

(** ** C203: the documented calls work (refuted) *)
(** renormalize_sed and multiply_sed without wavelen_step, and renormalize_sed in fnu, always raise *)
Theorem C203_refuted : (forall nf w fl x v gap, exists e, renormalize None nf w fl x v gap = Err e) /\
  (forall st w fl x v gap, exists e, renormalize st NFnu w fl x v gap = Err e) /\ (forall w f h, exists e, multiply_sed None w f h = Err e).
Proof.
  split; [intros; eexists; reflexivity|]. split; [|intros; eexists; reflexivity]. intros [st|] w fl x v gap; unfold renormalize; [|eauto].
  destruct (orb _ _); [eauto|]. destruct (Req_EM_T gap 0); eauto.
Qed.
Print Assumptions C203_refuted.
(** write_sed with print_fnu raises for every spectrum of more than two wavelengths, having printed two lines *)
Theorem C203_write_refuted w fl : length fl = length w -> (2 < length w)%nat -> snd (write_sed_fnu w fl) = Err IndexError /\ length (fst (write_sed_fnu w fl)) = 2%nat.
Proof. intros F L. unfold write_sed_fnu. destruct w as [|a [|b [|c w]]], fl as [|p [|r [|s fl]]]; cbn in *; try lia. auto. Qed.
Print Assumptions C203_write_refuted.
(** multiply_sed with a step, at the same wavelengths, is the product *)
Theorem C203_product_partial st w f h : length f = length w -> length h = length w ->
  exists p, multiply_sed (Some st) w f h = Ok (w, p) /\ multiply_sed (Some st) w h f = Ok (w, p) /\ length p = length w /\
    forall i, (i < length w)%nat -> nth i p 0 = nth i f 0 * nth i h 0.
Proof.
  intros F H. exists (zip_with Rmult f h). cbn. split; [reflexivity|]. split.
  - f_equal. f_equal. rewrite !(zip_as_tab _ _ _ (length w)) by assumption. apply tab_ext. intros. ring.
  - rewrite zip_length by lia. split; [exact F|]. intros i I. apply zip_nth; lia.
Qed.
Print Assumptions C203_product_partial.
Example C203_case : multiply_sed (Some 1) [400; 500] [2; 3] [5; 7] = Ok ([400; 500], [2 * 5; 3 * 7]) /\ snd (write_sed_fnu [400; 500] [1; 1]) = Ok tt.
Proof. split; reflexivity. Qed.

(** ** C204: many fluxes at once *)
Definition uniform (w : list R) (h : R) : Prop := forall i, (S i < length w)%nat -> nth (S i) w 0 - nth i w 0 = h.
(** the flux is the integral of response times flux (refuted: half a step too much at each end) *)
Theorem C204_refuted : ~ (forall bands fnu rows st w, setup_phi_array bands = Ok (rows, st) -> uniform w st -> length fnu = length w -> Forall (fun p => length p = length w) rows ->
   many_flux_calc fnu rows st = map (fun p => integral w (fun i => nth i p 0 * nth i fnu 0)) rows).
Proof.
  intros C. assert (bandpass_grid 300 301 1 = [300; 301]) as G.
  { unfold bandpass_grid, arange. rewrite (rceil_unique _ 2) by (split; lra). change (Z.to_nat 2) with 2%nat. cbn. f_equal; [lra|f_equal; lra]. }
  assert (length (sed_grid 300 301 1) = 2%nat) as S. { unfold sed_grid. rewrite arange_length, (rceil_unique _ 2) by (split; lra). reflexivity. }
  specialize (C [([300; 301], [1; 1])] [1; 1] [phi_of [300; 301] [1; 1]] 1 [300; 301]). cbn [length] in C.
  assert (setup_phi_array [([300; 301], [1; 1])] = Ok ([phi_of [300; 301] [1; 1]], 1)) as E.
  { unfold setup_phi_array. cbn [fst snd nth map hd last rmin_of rmax_of fold_left]. replace (301 - 300) with 1 by ring. rewrite S. unfold map_ok, resample_arrays. cbn [fst snd hd last].
    unfold rltb at 1 2. destruct (Rlt_dec 301 300); [lra|]. cbn [orb bind fst snd]. rewrite G. assert (map (interp0 [300; 301] [1; 1]) [300; 301] = [1; 1]) as ->.
    { unfold interp0; cbn [map hd last interp]. unfold rltb, rleb. destruct (Rlt_dec 300 300), (Rlt_dec 301 300), (Rle_dec 300 300), (Rlt_dec 301 301), (Rle_dec 301 300), (Rle_dec 301 301); cbn; try lra. repeat f_equal; lra. }
    reflexivity. }
  specialize (C E). assert (uniform [300; 301] 1) as U by (intros [|i] H; cbn in *; [lra|lia]). specialize (C U eq_refl ltac:(repeat constructor)).
  pose proof (trapz_uniform 1 [300; 301] (zip_with Rmult (phi_of [300; 301] [1; 1]) [1; 1]) U eq_refl ltac:(cbn; lia)) as T.
  unfold many_flux_calc in C. cbn [map] in C. apply (f_equal (fun l => hd 0 l)) in C. cbn [hd] in C. rewrite T in C. rewrite trapz_integral in C by reflexivity.
  assert (integral [300; 301] (fun i => nth i (zip_with Rmult (phi_of [300; 301] [1; 1]) [1; 1]) 0) = integral [300; 301] (fun i => nth i (phi_of [300; 301] [1; 1]) 0 * nth i [1; 1] 0)) as K.
  { apply integral_ext. intros i I. apply zip_nth; [reflexivity|exact I]. } rewrite K in C.
  cbn in C. unfold phi_of, trapz, zip_with, rsum in C. cbn in C. lra.
Qed.
Print Assumptions C204_refuted.
Lemma row_flux w h p f : uniform w h -> length p = length w -> length f = length w -> (1 <= length w)%nat ->
  rsum (zip_with Rmult p f) * h = integral w (fun i => nth i p 0 * nth i f 0) + h / 2 * (nth 0 p 0 * nth 0 f 0 + nth (length w - 1) p 0 * nth (length w - 1) f 0).
Proof.
  intros U P F N. rewrite (trapz_uniform h w) by (auto; rewrite zip_length; lia). rewrite zip_length by lia. rewrite P, !zip_nth by lia. f_equal.
  rewrite trapz_integral by (rewrite zip_length; lia). apply integral_ext. intros i I. apply zip_nth; lia.
Qed.
(** the error, exactly; none when the response vanishes at both ends *)
Theorem C204_flux_partial w h rows f : uniform w h -> length f = length w -> (1 <= length w)%nat -> Forall (fun p => length p = length w) rows ->
  many_flux_calc f rows h = map (fun p => integral w (fun i => nth i p 0 * nth i f 0) + h / 2 * (nth 0 p 0 * nth 0 f 0 + nth (length w - 1) p 0 * nth (length w - 1) f 0)) rows.
Proof.
  intros U F N A. unfold many_flux_calc. apply map_ext_in. intros p I. rewrite Forall_forall in A. apply row_flux; auto.
Qed.
Print Assumptions C204_flux_partial.
Theorem C204_ends_partial w h rows f : uniform w h -> length f = length w -> (1 <= length w)%nat -> Forall (fun p => length p = length w /\ nth 0 p 0 = 0 /\ nth (length w - 1) p 0 = 0) rows ->
  many_flux_calc f rows h = map (fun p => integral w (fun i => nth i p 0 * nth i f 0)) rows.
Proof.
  intros U F N A. rewrite (C204_flux_partial w h rows f U F N) by (eapply Forall_impl; [|exact A]; intros ? (? & _); assumption). apply map_ext_in. intros p I.
  rewrite Forall_forall in A. destruct (A p I) as (_ & -> & ->). lra.
Qed.
Print Assumptions C204_ends_partial.
(** the array can be set up for any bandpasses (refuted: it has room for another number of wavelengths) *)
Theorem C204_setup_refuted : exists bands, (forall b, In b bands -> spectrum (fst b) (snd b)) /\ setup_phi_array bands = Err ValueError.
Proof.
  exists [([300; 301; 3014/10], [1; 1; 1])]. split.
  { intros b [<-|[]]. split; [apply ascending_step; intros [|[|[|i]]] H; cbn in *; try lia; lra|cbn; lia]. }
  unfold setup_phi_array. cbn [fst snd nth map hd last rmin_of rmax_of fold_left]. replace (301 - 300) with 1 by ring.
  assert (length (sed_grid 300 (3014/10) 1) = 3%nat) as ->. { unfold sed_grid. rewrite arange_length, (rceil_unique _ 3) by (split; lra). reflexivity. }
  unfold map_ok, resample_arrays. cbn [fst snd hd last]. unfold rltb at 1 2. destruct (Rlt_dec (3014/10) 300); [lra|]. cbn [orb bind fst snd].
  assert (bandpass_grid 300 (3014/10) 1 = [300; 301]) as ->. { unfold bandpass_grid, arange. rewrite (rceil_unique _ 2) by (split; lra). change (Z.to_nat 2) with 2%nat. cbn. f_equal; [lra|f_equal; lra]. }
  reflexivity.
Qed.
Print Assumptions C204_setup_refuted.
(** it can when the range of wavelengths is a whole number of steps *)
Lemma fold_min l : forall x, fold_left Rmin l x <= x /\ forall y, In y l -> fold_left Rmin l x <= y.
Proof. induction l as [|a l IH]; intros x; cbn; [split; [lra|contradiction]|]. destruct (IH (Rmin x a)) as [A B]. pose proof (Rmin_l x a). pose proof (Rmin_r x a). split; [lra|]. intros y [<-|I]; [lra|apply B, I]. Qed.
Lemma fold_max l : forall x, x <= fold_left Rmax l x /\ forall y, In y l -> y <= fold_left Rmax l x.
Proof. induction l as [|a l IH]; intros x; cbn; [split; [lra|contradiction]|]. destruct (IH (Rmax x a)) as [A B]. pose proof (Rmax_l x a). pose proof (Rmax_r x a). split; [lra|]. intros y [<-|I]; [lra|apply B, I]. Qed.
Lemma map_ok_all {A B} (f : A -> result B) (P : B -> Prop) l : (forall x, In x l -> exists y, f x = Ok y /\ P y) -> exists r, map_ok f l = Ok r /\ length r = length l /\ Forall P r.
Proof.
  induction l as [|a l IH]; intros H; cbn; [eexists; repeat split; constructor|]. destruct (H a (or_introl eq_refl)) as (y & -> & Y). destruct IH as (r & -> & L & F); [intros; apply H; right; assumption|].
  cbn. eexists. split; [reflexivity|]. cbn. split; [lia|constructor; assumption].
Qed.
Theorem C204_setup_partial bands k : let st := nth 1 (fst (hd ([], []) bands)) 0 - nth 0 (fst (hd ([], []) bands)) 0 in
  let mn := rmin_of (map (fun b => hd 0 (fst b)) bands) in
  bands <> [] -> (forall b, In b bands -> spectrum (fst b) (snd b)) -> rmax_of (map (fun b => last (fst b) 0) bands) = mn + INR k * st ->
  exists rows, setup_phi_array bands = Ok (rows, st) /\ length rows = length bands /\
    Forall (fun p => exists g sb, length g = S k /\ (forall i, (i <= k)%nat -> nth i g 0 = mn + INR i * st) /\ response g sb p) rows.
Proof.
  intros st mn N A E. destruct bands as [|b0 bs]; [congruence|]. unfold setup_phi_array. cbn [hd] in st. fold st. fold mn. rewrite E.
  assert (0 < st) as St. { destruct (A b0 (or_introl eq_refl)) as (A1 & A2 & _). assert (nth 0 (fst b0) 0 < nth 1 (fst b0) 0) by (apply A1; lia). unfold st. lra. }
  assert (forall c, 0 < c <= 1 -> rceil ((mn + INR k * st + c * st - mn) / st) = Z.of_nat (S k)) as Rc.
  { intros c H. apply rceil_unique. replace ((mn + INR k * st + c * st - mn) / st) with (INR k + c) by (field; lra). rewrite <- INR_IZR_INZ, S_INR. lra. }
  assert (sed_grid mn (mn + INR k * st) st = arange mn (mn + INR k * st + 1 * st) st) as G1 by (unfold sed_grid; f_equal; ring).
  assert (bandpass_grid mn (mn + INR k * st) st = arange mn (mn + INR k * st + 1/2 * st) st) as G2 by (unfold bandpass_grid; f_equal; field).
  assert (length (sed_grid mn (mn + INR k * st) st) = S k) as L1 by (rewrite G1, arange_length, Rc by lra; apply Nat2Z.id).
  assert (length (bandpass_grid mn (mn + INR k * st) st) = S k) as L2 by (rewrite G2, arange_length, Rc by lra; apply Nat2Z.id).
  rewrite L1. set (g := bandpass_grid mn (mn + INR k * st) st) in *.
  match goal with |- context [map_ok ?f ?l] => destruct (map_ok_all f (fun p => exists g sb, length g = S k /\ (forall i, (i <= k)%nat -> nth i g 0 = mn + INR i * st) /\ response g sb p) l) as (rows & -> & Lr & Fr) end.
  - intros b I. destruct (A b I) as (A1 & A2 & A3). assert (hd 0 (fst b) = nth 0 (fst b) 0) as Hh by (destruct (fst b); reflexivity).
    assert (nth 0 (fst b) 0 < nth (length (fst b) - 1) (fst b) 0) as Hl by (apply A1; lia). rewrite <- last_nth in Hl.
    assert (mn <= hd 0 (fst b)) as M1. { unfold mn, rmin_of. cbn [map]. destruct (fold_min (map (fun b => hd 0 (fst b)) bs) (hd 0 (fst b0))) as [X Y]. destruct I as [<-|I]; [exact X|]. apply Y. apply (in_map (fun b => hd 0 (fst b))), I. }
    assert (last (fst b) 0 <= mn + INR k * st) as M2. { rewrite <- E. unfold rmax_of. cbn [map]. destruct (fold_max (map (fun b => last (fst b) 0) bs) (last (fst b0) 0)) as [X Y]. destruct I as [<-|I]; [exact X|]. apply Y. apply (in_map (fun b => last (fst b) 0)), I. }
    unfold resample_arrays. unfold rltb. destruct (Rlt_dec (mn + INR k * st) (hd 0 (fst b))); [lra|]. destruct (Rlt_dec (last (fst b) 0) mn); [lra|]. cbn [orb bind fst snd]. fold g.
    pose proof (phi_response g (map (interp0 (fst b) (snd b)) g) ltac:(apply map_length)) as Rs. destruct Rs as [R1 R2].
    rewrite R1, L2, Nat.eqb_refl. eexists. split; [reflexivity|]. exists g, (map (interp0 (fst b) (snd b)) g). split; [exact L2|]. split; [|split; [exact R1|exact R2]].
    intros i Hi. rewrite G2, arange_nth; [reflexivity|]. rewrite <- G2, L2. lia.
  - cbn [bind]. exists rows. auto.
Qed.
Print Assumptions C204_setup_partial.
Example C204_case : uniform [300; 301; 302] 1 /\ many_flux_calc [5; 7; 9] [[0; 1; 0]] 1 = [7].
Proof. split; [intros [|[|[|i]]] H; cbn in *; try lia; lra|]. unfold many_flux_calc, zip_with, rsum. cbn. f_equal. lra. Qed.

(** ** C205: a spectrum read from a file is the spectrum of the file, whatever was done to the ones read before *)
Theorem C205_cache d os k n cache_sed : let m := mrun d os in (k < length (m_seds m))%nat ->
  match read_cached d m k n cache_sed with
  | (m', Ok _) => contents m' k = source d n /\ source d n <> None
  | (m', Err _) => m' = m /\ source d n = None
  end.
Proof. intros m K. apply read_sound; [apply mrun_sound|exact K]. Qed.
Print Assumptions C205_cache.
Example C205_case : let d := fun n : fname => if Nat.eqb (fst n) 0 then Some ([400], [1]) else None in
  let m := mrun d [MNew; MNew; MRead 0 (0%nat, false) true; MInPlace 0 false [5]; MRead 1 (0%nat, true) true; MInPlace 1 false [6]] in
  contents m 0 = Some ([400], [5]) /\ contents (fst (read_cached d m 0 (0%nat, true) false)) 0 = Some ([400], [1]).
Proof. split; reflexivity. Qed.
