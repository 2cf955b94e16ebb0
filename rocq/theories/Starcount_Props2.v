(** C412-C416: the density of stars, counts, masses and errors. *)
From Coq Require Import String.
From Verif Require Import Base Starcount_Model Starcount_Spec Starcount_Props.
From Verif Require Astrom_Model.
From Coq Require Import Reals Lra Lia List.
Import ListNotations.
Open Scope R_scope.

Lemma exp_le x y : x <= y -> exp x <= exp y.
Proof. intros [L| ->]; [left; apply exp_increasing, L|right; reflexivity]. Qed.

(** *** C412: the density *)
Lemma disk_pos r z l h : 0 < diskprofile r z l h.
Proof. unfold diskprofile. apply Rmult_lt_0_compat; [apply Rmult_lt_0_compat; [lra|apply exp_pos]|apply exp_pos]. Qed.
Theorem C412_positive : forall r z, 0 < r \/ z <> 0 -> 0 < stellardensity r z.
Proof.
  intros r z _. unfold stellardensity, thindisk, thickdisk, bulge, halo.
  pose proof (disk_pos r z 2150 245). pose proof (disk_pos r z 3261 743). pose proof (disk_pos 0 0 2150 245). pose proof (disk_pos 0 0 3261 743).
  apply Rplus_lt_0_compat; [apply Rplus_lt_0_compat; [lra|]|].
  - apply Rmult_lt_0_compat; [lra|apply exp_pos].
  - apply Rmult_lt_0_compat; [lra|apply exp_pos].
Qed.
Print Assumptions C412_positive.
Lemma disk_le r z r' z' l h : 0 < l -> 0 < h -> r <= r' -> Rabs (z + 25) <= Rabs (z' + 25) -> diskprofile r' z' l h <= diskprofile r z l h.
Proof.
  intros L H A B. unfold diskprofile. apply Rmult_le_compat_r; [left; apply exp_pos|]. apply Rmult_le_compat_l; [lra|]. apply exp_le.
  assert (IL : 0 < / l) by (apply Rinv_0_lt_compat, L). assert (IH : 0 < / h) by (apply Rinv_0_lt_compat, H). unfold Rdiv, Rminus.
  apply Rplus_le_compat; [apply Rmult_le_compat_r; lra|]. apply Ropp_le_contravar, Rmult_le_compat_r; lra.
Qed.
Lemma halo_le s s' : 0 < s -> s <= s' -> Rpower (8000 / sqrt s') (277/100) <= Rpower (8000 / sqrt s) (277/100).
Proof.
  intros P L. assert (A : 0 < sqrt s) by (apply sqrt_lt_R0, P). assert (B : sqrt s <= sqrt s') by (apply sqrt_le_1; lra).
  apply Rle_Rpower_l; [lra|]. split; [apply Rdiv_lt_0_compat; lra|]. unfold Rdiv. apply Rmult_le_compat_l; [lra|]. apply Rinv_le_contravar; assumption.
Qed.
(** away from the axis, and away from the plane above the Sun, there are fewer stars *)
Theorem C412_falls : forall r z r' z', 0 <= r <= r' -> 0 <= z <= z' -> 0 < r \/ 0 < z -> stellardensity r' z' <= stellardensity r z.
Proof.
  intros r z r' z' (A & B) (C & D) NZ.
  assert (ZZ : Rabs (z + 25) <= Rabs (z' + 25)) by (rewrite !Rabs_right by lra; lra).
  assert (R2 : r * r <= r' * r') by (apply Rmult_le_compat; lra). assert (Z2 : z * z <= z' * z') by (apply Rmult_le_compat; lra).
  assert (PR : 0 <= r * r) by (apply Rmult_le_pos; lra). assert (PZ : 0 <= z * z) by (apply Rmult_le_pos; lra).
  assert (PS : 0 < r * r + z * z) by (destruct NZ as [N|N]; pose proof (Rmult_lt_0_compat _ _ N N); lra).
  unfold stellardensity, thindisk, thickdisk, bulge, halo.
  pose proof (disk_le r z r' z' 2150 245 ltac:(lra) ltac:(lra) B ZZ). pose proof (disk_le r z r' z' 3261 743 ltac:(lra) ltac:(lra) B ZZ).
  pose proof (disk_pos 0 0 2150 245). pose proof (disk_pos 0 0 3261 743).
  apply Rplus_le_compat; [apply Rplus_le_compat; [lra|]|].
  - apply Rmult_le_compat_l; [lra|]. apply halo_le.
    + replace (z / (64/100) * (z / (64/100))) with (z * z * (10000/4096)) by field. lra.
    + replace (z / (64/100) * (z / (64/100))) with (z * z * (10000/4096)) by field. replace (z' / (64/100) * (z' / (64/100))) with (z' * z' * (10000/4096)) by field. lra.
  - apply Rmult_le_compat_l; [lra|]. apply exp_le. assert (sqrt (r * r + z * z) <= sqrt (r' * r' + z' * z')) by (apply sqrt_le_1; lra). lra.
Qed.
Print Assumptions C412_falls.
(** the plane is 25 parsec below the Sun; there, at the Sun's distance from the center, the disks have the density of the Sun's
    neighbourhood, and the halo a thousandth of it at the Sun's height *)
Theorem C412_local : thindisk 8000 (-25) / (11/10) + 1/10 / (11/10) * thickdisk 8000 (-25) = 364/10000 /\ halo 8000 0 = 364/10000 / 1000.
Proof.
  assert (E : forall l h, 0 < l -> 0 < h -> diskprofile 8000 (-25) l h = 364/10000).
  { intros l h L H. unfold diskprofile. replace (-25 + 25) with 0 by ring. rewrite Rabs_R0, Rmult_assoc, <- exp_plus.
    replace (- (8000) / l - 0 / h + 8000 / l) with 0 by (field; lra). rewrite exp_0. ring. }
  unfold thindisk, thickdisk, halo. rewrite !E by lra. split; [field|].
  replace (8000 * 8000 + 0 / (64/100) * (0 / (64/100))) with (8000 * 8000) by field. rewrite sqrt_square by lra. replace (8000 / 8000) with 1 by field.
  unfold Rpower. rewrite ln_1, Rmult_0_r, exp_0. field.
Qed.
Print Assumptions C412_local.
(** the scale lengths and heights of the disks *)
Theorem C412_scales : forall r z, -25 <= z ->
  thindisk (r + 2150) z = thindisk r z * exp (-1) /\ thickdisk (r + 3261) z = thickdisk r z * exp (-1) /\
  thindisk r (z + 245) = thindisk r z * exp (-1) /\ thickdisk r (z + 743) = thickdisk r z * exp (-1).
Proof.
  intros r z Z. unfold thindisk, thickdisk, diskprofile. rewrite !Rabs_right by lra.
  repeat split; match goal with |- _ * exp ?a * ?e = _ * exp ?b * _ * _ => replace a with (b + -1) by field; rewrite exp_plus; ring end.
Qed.
Print Assumptions C412_scales.

(** *** C413: the count is within the bounds of the density times the volume *)
Lemma sum_bounds (s : list (R * R)) (g : R * R -> R) v lo hi : (forall x, In x s -> fst x = v /\ lo <= g x <= hi) -> 0 <= v ->
  lo * (INR (length s) * v) <= fold_right Rplus 0 (map (fun x => fst x * g x) s) <= hi * (INR (length s) * v).
Proof.
  induction s as [|x s IH]; intros H PV; [cbn; lra|]. destruct (IH (fun y Y => H y (or_intror Y)) PV) as (A & B). destruct (H x (or_introl eq_refl)) as (E & L & U).
  cbn [map fold_right length]. rewrite S_INR, E. pose proof (Rmult_le_compat_l v _ _ PV L). pose proof (Rmult_le_compat_l v _ _ PV U). lra.
Qed.
Theorem C413_bounds : forall eq_gal ra dec b l d1 d2 n lo hi v, eq_gal ra dec = Ok (b, l) -> 0 <= d1 <= d2 ->
  (forall dist x y z r, d1 <= dist <= d2 -> Place b l dist x y z -> Radius x y r -> lo <= stellardensity r z <= hi) ->
  Cone (962/100) d1 d2 v -> starcount_with eq_gal ra dec d1 d2 = Ok n -> lo * v <= n <= hi * v.
Proof.
  intros eq_gal ra dec b l d1 d2 n lo hi v G D H -> N. unfold starcount_with in N. rewrite G in N. cbn [bind fst snd] in N.
  apply (f_equal (fun r => match r with Ok x => x | Err _ => 0 end)) in N. cbn beta iota in N. rewrite <- N. clear N.
  assert (E3 : d1 ^ 3 <= d2 ^ 3) by (apply pow_incr; lra).
  set (w := 962/100 / 41253 * (4 * PI / 3) * ((d2 ^ 3 - d1 ^ 3) / 50)).
  assert (PW : 0 <= w). { unfold w. pose proof PI_RGT_0. apply Rmult_le_pos; [apply Rmult_le_pos; lra|lra]. }
  pose proof (sum_bounds (star_vols d1 d2 (962/100)) (fun s => let '(r, _, z) := gal_cyn b l (snd s) in stellardensity r z) w lo hi) as S.
  replace (962/100 / 41253 * (4/3 * PI * d2 ^ 3 - 4/3 * PI * d1 ^ 3)) with (INR (length (star_vols d1 d2 (962/100))) * w).
  2:{ change (length (star_vols d1 d2 (962/100))) with 50%nat. replace (INR 50) with 50 by (cbn [INR]; lra). unfold w. field. }
  match goal with |- context [Astrom_Model.rsum ?k] => replace (Astrom_Model.rsum k) with
    (fold_right Rplus 0 (map (fun x => fst x * (let '(r, _, z) := gal_cyn b l (snd x) in stellardensity r z)) (star_vols d1 d2 (962/100)))) end.
  2:{ reflexivity. }
  apply S; [|exact PW]. intros x I. unfold star_vols in I. apply in_map_iff in I. destruct I as (i & <- & I). apply in_seq in I.
  destruct (shell_is d1 d2 (962/100) i D ltac:(lia)) as (A & _ & C). split; [exact A|].
  destruct (gal_cyn b l (snd (shell d1 d2 (962/100) i))) as [[r phi] h] eqn:GC.
  assert (P : exists x y z, Place b l (snd (shell d1 d2 (962/100) i)) x y z) by (do 3 eexists; repeat split).
  destruct P as (x & y & z & P). destruct (C411_place _ _ _ _ _ _ _ _ _ P GC) as (RR & ->). exact (H _ _ _ _ _ C P RR).
Qed.
Print Assumptions C413_bounds.

(** *** C414: the shares of masses *)
Theorem C414_integral : forall lower upper, 0 < upper -> imf lower lower = 0 /\ derivable_pt_lim (imf lower) upper (Rpower upper (- (235/100))).
Proof.
  intros lower upper P. split; [unfold imf; ring|]. unfold imf.
  replace (Rpower upper (- (235/100))) with (1 / (135/100) * (0 - (- (135/100)) * Rpower upper (- (135/100) - 1))).
  - apply (derivable_pt_lim_scal (fun u => Rpower lower (- (135/100)) - Rpower u (- (135/100)))).
    apply (derivable_pt_lim_minus (fun _ => Rpower lower (- (135/100))) (fun u => Rpower u (- (135/100)))); [apply derivable_pt_lim_const|].
    apply derivable_pt_lim_power, P.
  - replace (- (135/100) - 1) with (- (235/100)) by field. field.
Qed.
Print Assumptions C414_integral.
Lemma imf_tele m1 m2 n k : fold_right Rplus 0 (map (fun i => imf (mass_at m1 m2 i) (mass_at m1 m2 (S i)) / k) (seq n 19)) = imf (mass_at m1 m2 n) (mass_at m1 m2 (n + 19)) / k.
Proof.
  assert (T : forall c n, fold_right Rplus 0 (map (fun i => imf (mass_at m1 m2 i) (mass_at m1 m2 (S i)) / k) (seq n c)) = imf (mass_at m1 m2 n) (mass_at m1 m2 (n + c)) / k).
  { induction c as [|c IH]; intros j; [cbn [seq map fold_right]; rewrite Nat.add_0_r; unfold imf, Rdiv; ring|]. cbn [seq map fold_right].
    rewrite IH, <- Nat.add_succ_comm. unfold imf, Rdiv. ring. }
  apply T.
Qed.
Theorem C414_shares : forall m1 m2 s, Total (mass_fractions m1 m2) s -> s = imf m1 m2 / imf (2/10) (104/100).
Proof.
  intros m1 m2 s ->. unfold mass_fractions. rewrite imf_tele. unfold mass_at. cbn [plus]. replace (INR 19) with 19 by (cbn [INR]; lra). cbn [INR].
  replace (m1 + 0 * ((m2 - m1) / 19)) with m1 by ring. replace (m1 + 19 * ((m2 - m1) / 19)) with m2 by field. reflexivity.
Qed.
Print Assumptions C414_shares.
Theorem C414_positive : forall a b, 0 < a < b -> 0 < imf a b.
Proof.
  intros a b (A & B). unfold imf. apply Rmult_lt_0_compat; [lra|]. unfold Rpower.
  assert (exp (- (135/100) * ln b) < exp (- (135/100) * ln a)) by (apply exp_increasing; pose proof (ln_increasing a b A B); lra). lra.
Qed.
Print Assumptions C414_positive.

(** *** C415: the error of a magnitude *)
Lemma error_is m band c e : mag_error m band c = Ok e -> exists m5 g, (c = 0 -> m5_of band = Ok m5) /\ (c <> 0 -> m5 = c) /\ gamma_of band = Ok g /\ 37/1000 <= g <= 40/1000 /\
  e = sqrt ((4/100 - g) * Rpower 10 (4/10 * (m - m5)) + g * (Rpower 10 (4/10 * (m - m5)) * Rpower 10 (4/10 * (m - m5))) + 25/1000000).
Proof.
  unfold mag_error. intros H.
  assert (K : exists m5, (if Req_EM_T c 0 then m5_of band else Ok c) = Ok m5 /\ (c = 0 -> m5_of band = Ok m5) /\ (c <> 0 -> m5 = c)).
  { destruct (Req_EM_T c 0) as [->|N]; [destruct (m5_of band) as [m5|]; [|discriminate]; exists m5; split; [reflexivity|split; [reflexivity|congruence]]|exists c; split; [reflexivity|split; [contradiction|reflexivity]]]. }
  destruct K as (m5 & E & A & B). rewrite E in H. cbn [bind] in H. destruct (gamma_of band) as [g|] eqn:G; [|discriminate]. cbn [bind] in H. injection H as <-.
  assert (GB : 37/1000 <= g <= 40/1000).
  { unfold gamma_of in G. repeat (match type of G with (if ?x then _ else _) = _ => destruct x; [injection G as <-; lra|] end). discriminate. }
  exists m5, g. split; [exact A|]. split; [exact B|]. split; [reflexivity|]. split; [exact GB|]. f_equal.
  set (X := Rpower 10 (4/10 * (m - m5))). assert (PX : 0 < X) by apply exp_pos.
  rewrite sqrt_sqrt; [field|]. assert (0 <= (4/100 - g) * X) by (apply Rmult_le_pos; lra). assert (0 <= g * X * X) by (apply Rmult_le_pos; [apply Rmult_le_pos|]; lra). lra.
Qed.
(** never below the systematic error; larger for fainter stars; the same at the depth in all bands *)
Theorem C415_floor : forall m band c e, mag_error m band c = Ok e -> 5/1000 < e.
Proof.
  intros m band c e H. destruct (error_is _ _ _ _ H) as (m5 & g & _ & _ & _ & GB & ->). set (X := Rpower 10 _). assert (PX : 0 < X) by apply exp_pos.
  rewrite <- (sqrt_square (5/1000)) by lra. apply sqrt_lt_1_alt. assert (0 <= (4/100 - g) * X) by (apply Rmult_le_pos; lra).
  assert (0 < g * (X * X)) by (apply Rmult_lt_0_compat; [lra|apply Rmult_lt_0_compat; assumption]). lra.
Qed.
Print Assumptions C415_floor.
Theorem C415_fainter : forall m m' band c e e', mag_error m band c = Ok e -> mag_error m' band c = Ok e' -> m < m' -> e < e'.
Proof.
  intros m m' band c e e' H H' L. destruct (error_is _ _ _ _ H) as (m5 & g & A & B & G & GB & ->). destruct (error_is _ _ _ _ H') as (m5' & g' & A' & B' & G' & _ & ->).
  assert (g' = g) by congruence. subst g'.
  assert (m5' = m5). { destruct (Req_EM_T c 0) as [E|N]; [specialize (A E); specialize (A' E); congruence|rewrite (B N), (B' N); reflexivity]. } subst m5'.
  set (X := Rpower 10 (4/10 * (m - m5))). set (Y := Rpower 10 (4/10 * (m' - m5))). assert (PX : 0 < X) by apply exp_pos. assert (PY : X < Y) by (apply Rpower_lt; lra).
  assert (PS : X * X < Y * Y) by (apply Rmult_le_0_lt_compat; lra).
  assert (P1 : 0 <= (4/100 - g) * X) by (apply Rmult_le_pos; lra). assert (P2 : 0 <= g * (X * X)) by (apply Rmult_le_pos; [lra|apply Rmult_le_pos; lra]).
  apply sqrt_lt_1_alt. split; [lra|]. assert ((4/100 - g) * X <= (4/100 - g) * Y) by (apply Rmult_le_compat_l; lra). assert (g * (X * X) < g * (Y * Y)) by (apply Rmult_lt_compat_l; lra). lra.
Qed.
Print Assumptions C415_fainter.
Theorem C415_depth : forall m5 band e, m5 <> 0 -> mag_error m5 band m5 = Ok e -> e = sqrt ((2/10) ^ 2 + (5/1000) ^ 2).
Proof.
  intros m5 band e N H. destruct (error_is _ _ _ _ H) as (q & g & _ & B & _ & _ & ->). rewrite (B N). rewrite Rminus_eq_0, Rmult_0_r, Rpower_O by lra. f_equal. field.
Qed.
Print Assumptions C415_depth.
Theorem C415_total : forall m band c, (exists e, mag_error m band c = Ok e) <-> In band ["u"; "g"; "r"; "i"; "z"; "y"]%string.
Proof.
  intros m band c. split.
  - intros (e & H). destruct (error_is _ _ _ _ H) as (_ & g & _ & _ & G & _). unfold gamma_of in G.
    repeat (match type of G with context [String.eqb ?x ?y] => destruct (String.eqb_spec x y) as [->|_]; [cbn; tauto|] end). discriminate.
  - intros I. unfold mag_error. destruct (Req_EM_T c 0); repeat (destruct I as [<-|I]; [cbn; eexists; reflexivity|]); destruct I.
Qed.
Print Assumptions C415_total.

(** *** C416: distances and magnitudes *)
Theorem C416_modulus : forall apparent absolute pc, Modulus absolute pc apparent <-> pc = get_distance apparent absolute.
Proof.
  assert (L10 : 0 < ln 10) by (rewrite <- ln_1; apply ln_increasing; lra).
  intros apparent absolute pc. unfold Modulus, get_distance. split.
  - intros (P & ->). replace ((absolute + 5 * (ln pc / ln 10) - 5 - absolute) / 5) with (ln pc / ln 10 - 1) by (field; lra).
    unfold Rpower. replace ((ln pc / ln 10 - 1) * ln 10) with (ln pc + - ln 10) by (field; lra). rewrite exp_plus, exp_Ropp, !exp_ln by lra. field.
  - intros ->. split; [apply Rmult_lt_0_compat; [lra|apply exp_pos]|]. rewrite ln_mult by (try lra; apply exp_pos). unfold Rpower. rewrite ln_exp. field. lra.
Qed.
Print Assumptions C416_modulus.

(** cases *)
Example C408_case : count_run 100 1000 [[0; 1; 2; -1; 5]] = Err TypeError.
Proof. apply (C408_refuted 100 1000 [[0; 1; 2; -1; 5]]) with (1 := eq_refl). Qed.
Example C409_case : mass_run (fun _ x => Ok x) (fun m _ => 5) (9/10) 1 "i" [[0; 1; 2; -1; 5]] = Err TypeError.
Proof. eapply (C409_refuted (fun _ x => Ok x) (fun m _ => 5) (9/10) 1 "i"%string [[0; 1; 2; -1; 5]]); [reflexivity|cbn; tauto]. Qed.
Example C410_case : forall s v, Total (map fst (star_vols 100 1000 10)) s -> Cone 10 100 1000 v -> s = v.
Proof. intros s v. apply C410_total. lra. Qed.
Example C411_case : Place 0 0 1000 7000 0 0 /\ Radius 7000 0 7000.
Proof. unfold Place, Radius. replace (0 * PI / 180) with 0 by field. rewrite cos_0, sin_0. repeat split; try ring; lra. Qed.
Example C412_case : stellardensity 9000 100 <= stellardensity 8000 0.
Proof. apply C412_falls; lra. Qed.
Example C413_case : exists n, starcount_with (fun _ _ => Ok (90, 0)) 0 0 100 1000 = Ok n.
Proof. eexists. reflexivity. Qed.
Example C414_case : 0 < imf (9/10) 1.
Proof. apply C414_positive. lra. Qed.
Example C415_case : exists e, mag_error 20 "r" 0 = Ok e.
Proof. apply C415_total. cbn. tauto. Qed.
Example C416_case : Modulus 5 100 10.
Proof. split; [lra|]. replace 100 with (10 * 10) by ring. rewrite ln_mult by lra. assert (ln 10 <> 0). { assert (0 < ln 10) by (rewrite <- ln_1; apply ln_increasing; lra). lra. } field. assumption. Qed.
