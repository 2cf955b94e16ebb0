(** C397-C402: matching of stars, residuals, scatter and outliers of the self-calibration; galaxies in the footprint. *)
From Coq Require Import String.
From Verif Require Import Base Uniform_Model Uniform_Spec Uniform_Proofs.
From Verif Require Plane_Spec Template_Spec Template_Model Template_Proofs Small_Model Lens_Model Period_Proofs.
From Coq Require Import Reals Lra Lia List Permutation Sorted.
Import ListNotations.
Open Scope R_scope.

(** *** C397: stars are matched by their ids *)
Theorem C397_match : forall arr1 arr2 st, Argsort arr1 st -> arr1 <> [] -> arr2 <> [] ->
  exists l, match_ arr1 arr2 st = Ok l /\
    (forall i j, In (i, j) l -> exists x, nth_error arr1 i = Some x /\ nth_error arr2 j = Some x) /\
    (forall j x, nth_error arr2 j = Some x -> In x arr1 -> exists i, In (i, j) l) /\
    StronglySorted lt (map snd l).
Proof.
  intros arr1 arr2 st AS N1 N2. unfold match_.
  destruct (zmax arr2) as [m2|] eqn:E2; [|destruct arr2; [congruence|discriminate]].
  destruct (zmax arr1) as [m1|] eqn:E1; [|destruct arr1; [congruence|discriminate]]. cbn [bind].
  apply zmax_ge in E1. apply zmax_ge in E2. destruct E1 as (I1 & U1), E2 as (I2 & U2).
  destruct (matches_spec arr1 st (m1 <? m2)%Z AS N1 arr2 0) as (r & R & A & B & S).
  { intros F. apply Z.ltb_ge in F. exists m1. split; [exact I1|]. intros x X. specialize (U2 x X). lia. }
  exists r. split; [exact R|]. split; [|split; [exact B|exact S]].
  intros i j I. destruct (A i j I) as (_ & x & X & Y). rewrite Nat.sub_0_r in Y. exists x. auto.
Qed.
Print Assumptions C397_match.
(** with distinct ids the place is determined *)
Theorem C397_unique : forall arr1 arr2 st l i i' j, NoDup arr1 -> Argsort arr1 st -> match_ arr1 arr2 st = Ok l -> In (i, j) l ->
  nth_error arr1 i' = nth_error arr2 j -> i' = i.
Proof.
  intros arr1 arr2 st l i i' j ND AS M I E.
  assert (N1 : arr1 <> []) by (intros ->; unfold match_ in M; destruct (zmax arr2); discriminate).
  assert (N2 : arr2 <> []) by (intros ->; discriminate).
  destruct (C397_match arr1 arr2 st AS N1 N2) as (l' & M' & A & _). assert (l' = l) by congruence. subst l'.
  destruct (A i j I) as (x & X & Y). rewrite Y in E. rewrite NoDup_nth_error in ND. apply ND; [apply nth_error_Some; congruence|congruence].
Qed.
Print Assumptions C397_unique.
(** no star with a solution: an exception *)
Theorem C397_none_refuted : forall arr1 st, match_ arr1 [] st = Err ValueError.
Proof. reflexivity. Qed.
Print Assumptions C397_none_refuted.
Example C397_case : Argsort [30; 10; 20]%Z [1; 2; 0]%nat /\ match_ [30; 10; 20]%Z [20; 15; 40; 30]%Z [1; 2; 0]%nat = Ok [(2, 0); (0, 3)]%nat.
Proof.
  split; [|reflexivity]. split.
  - cbn. apply (Permutation_trans (l' := [1; 0; 2]%nat)); [apply perm_skip, perm_swap|apply perm_swap].
  - cbn. repeat constructor; lia.
Qed.

(** *** C398: the residuals *)
Definition moved (c : R) (s : star) : star := {| s_pix := s_pix s; s_mag := s_mag s; s_fit := s_fit s + c |}.
Lemma resid_moved c stars : resid (map (moved c) stars) = resid stars.
Proof.
  destruct stars as [|s0 t]; [reflexivity|]. set (stars := s0 :: t). unfold resid. rewrite !map_map.
  assert (E : map (fun s => s_mag (moved c s) - s_fit (moved c s)) stars = map (fun x => 1 * x + - c) (map (fun s => s_mag s - s_fit s) stars)).
  { rewrite map_map. apply map_ext. intros s. cbn. ring. }
  rewrite E, med_affine by (discriminate || lra). apply map_ext. intros s. cbn. f_equal. ring.
Qed.
(** the zeropoint of the solution does not matter *)
Theorem C398_zeropoint : forall q lat cut nsig npix c stars, summarize q lat cut nsig npix (map (moved c) stars) = summarize q lat cut nsig npix stars.
Proof. intros. unfold summarize. rewrite resid_moved. reflexivity. Qed.
Print Assumptions C398_zeropoint.
(** residuals have median zero, and differ by the differences of the stars *)
Theorem C398_residuals : forall stars, stars <> [] ->
  Median (map snd (resid stars)) 0 /\ map fst (resid stars) = map s_pix stars /\
  exists z, Median (map (fun s => s_mag s - s_fit s) stars) z /\ map snd (resid stars) = map (fun s => s_mag s - s_fit s - z) stars.
Proof.
  intros stars N. unfold resid. rewrite !map_map. cbn [fst snd]. set (r := map (fun s => s_mag s - s_fit s) stars).
  assert (NR : r <> []) by (unfold r; destruct stars; [congruence|discriminate]).
  split; [|split; [reflexivity|exists (med r); split; [apply med_is, NR|reflexivity]]].
  assert (E : map (fun s => s_mag s - s_fit s - med r) stars = map (fun x => 1 * x + - med r) r).
  { unfold r at 3. rewrite map_map. apply map_ext. intros s. ring. }
  rewrite E. replace 0 with (1 * med r + - med r) by ring. apply median_affine; [lra|apply med_is, NR].
Qed.
Print Assumptions C398_residuals.
(** a pixel of the map has the median residual of its stars *)
Theorem C398_pixels : forall npix rs p x, In (p, x) (resid_map npix rs) <->
  (p < npix)%nat /\ (exists y, In (p, y) rs) /\ Median (map snd (filter (fun s => (fst s =? p)%nat) rs)) x.
Proof.
  intros npix rs p x. unfold resid_map. rewrite in_map_iff.
  assert (EX : existsb (fun s => (fst s =? p)%nat) rs = true <-> exists y, In (p, y) rs).
  { rewrite existsb_exists. split.
    - intros ((p' & y) & I & E). apply Nat.eqb_eq in E. cbn in E. subst p'. exists y. exact I.
    - intros (y & I). exists (p, y). split; [exact I|apply Nat.eqb_refl]. }
  assert (NE : (exists y, In (p, y) rs) -> map snd (filter (fun s => (fst s =? p)%nat) rs) <> []).
  { intros (y & I) E. assert (K : In y (map snd (filter (fun s => (fst s =? p)%nat) rs))).
    { apply in_map_iff. exists (p, y). split; [reflexivity|]. apply filter_In. split; [exact I|apply Nat.eqb_refl]. }
    rewrite E in K. exact K. }
  split.
  - intros (p' & E & I). injection E as -> <-. apply filter_In in I. destruct I as (I & B). apply in_seq in I. apply EX in B.
    split; [lia|]. split; [exact B|]. apply med_is, NE, B.
  - intros (L & B & M). exists p. split; [f_equal; eapply median_unique; [apply med_is, NE, B|exact M]|].
    apply filter_In. split; [apply in_seq; lia|apply EX, B].
Qed.
Print Assumptions C398_pixels.

(** *** C399: the scatter *)
Lemma mad_is q l s : mad q l = Some s <-> l <> [] /\ Scatter q l s.
Proof.
  unfold mad, Scatter. destruct l as [|x t].
  - split; [discriminate|]. intros (N & _). congruence.
  - set (l := x :: t). split.
    + intros H. injection H as <-. split; [discriminate|]. exists (med l), (med (map (fun y => Rabs (y - med l)) l)).
      split; [apply med_is; discriminate|]. split; [apply med_is; discriminate|reflexivity].
    + intros (_ & m & d & M & D & ->). f_equal. f_equal.
      assert (m = med l) by (eapply median_unique; [exact M|apply med_is; discriminate]). subst m.
      symmetry. eapply median_unique; [exact D|apply med_is; discriminate].
Qed.
Theorem C399_scatter : forall q lat cut nsig npix stars v,
  (scatter_full (summarize q lat cut nsig npix stars) = Some v <->
     map snd (resid_map npix (resid stars)) <> [] /\ Scatter q (map snd (resid_map npix (resid stars))) (v / 1000)) /\
  (scatter_high (summarize q lat cut nsig npix stars) = Some v <->
     exists hi, hi = map snd (filter (fun x => if Rlt_dec cut (Rabs (lat (fst x))) then true else false) (resid_map npix (resid stars))) /\
       hi <> [] /\ Scatter q hi (v / 1000)).
Proof.
  intros q lat cut nsig npix stars v.
  assert (K : forall l, mmag (mad q l) = Some v <-> l <> [] /\ Scatter q l (v / 1000)).
  { intros l. split.
    - destruct (mad q l) as [s|] eqn:E; [|discriminate]. cbn. intros H. injection H as <-. apply mad_is in E.
      replace (s * 1000 / 1000) with s by field. exact E.
    - intros H. apply mad_is in H. rewrite H. cbn. f_equal. field. }
  split; [apply K|]. cbn [summarize scatter_high]. rewrite K. unfold high. split.
  - intros H. eexists. split; [reflexivity|exact H].
  - intros (hi & -> & H). exact H.
Qed.
Print Assumptions C399_scatter.
Definition scaled (a : R) (s : star) : star := {| s_pix := s_pix s; s_mag := a * s_mag s; s_fit := a * s_fit s |}.
Lemma resid_scaled a stars : 0 < a -> resid (map (scaled a) stars) = map (fun x => (fst x, a * snd x)) (resid stars).
Proof.
  intros PA. destruct stars as [|s0 t]; [reflexivity|]. set (stars := s0 :: t). unfold resid. rewrite !map_map.
  assert (E : map (fun s => s_mag (scaled a s) - s_fit (scaled a s)) stars = map (fun x => a * x + 0) (map (fun s => s_mag s - s_fit s) stars)).
  { rewrite map_map. apply map_ext. intros s. cbn. ring. }
  rewrite E, med_affine by (discriminate || lra). apply map_ext. intros s. cbn. f_equal. ring.
Qed.
Lemma med_scale a l : 0 < a -> l <> [] -> med (map (Rmult a) l) = a * med l.
Proof. intros PA N. rewrite <- (Rplus_0_r (a * med l)), <- med_affine by assumption. f_equal. apply map_ext. intros. ring. Qed.
Lemma map_scaled a npix rs : 0 < a -> resid_map npix (map (fun x => (fst x, a * snd x)) rs) = map (fun x => (fst x, a * snd x)) (resid_map npix rs).
Proof.
  intros PA. unfold resid_map. rewrite map_map. cbn [fst snd].
  assert (X : forall p, existsb (fun x => (fst x =? p)%nat) (map (fun x : nat * R => (fst x, a * snd x)) rs) = existsb (fun x => (fst x =? p)%nat) rs).
  { intros p. induction rs as [|y rs IH]; [reflexivity|]. cbn. rewrite IH. reflexivity. }
  rewrite (filter_ext _ _ X). apply map_ext_in. intros p I. apply filter_In in I. destruct I as (_ & B). f_equal.
  assert (Y : in_pix p (map (fun x : nat * R => (fst x, a * snd x)) rs) = map (Rmult a) (in_pix p rs)).
  { unfold in_pix. induction rs as [|y rs IH]; [reflexivity|]. cbn. destruct (fst y =? p)%nat eqn:F; cbn.
    - f_equal. clear -rs. induction rs as [|y rs IH]; [reflexivity|]. cbn. destruct (fst y =? p)%nat; cbn; rewrite IH; reflexivity.
    - clear -rs. induction rs as [|z rs IH]; [reflexivity|]. cbn. destruct (fst z =? p)%nat; cbn; rewrite IH; reflexivity. }
  rewrite Y. apply med_scale; [exact PA|]. apply existsb_exists in B. destruct B as (y & I & E). intros C.
  assert (K : In (snd y) (in_pix p rs)) by (apply in_map_iff; exists y; split; [reflexivity|apply filter_In; auto]). rewrite C in K. exact K.
Qed.
Lemma mad_scaled q a l : 0 < a -> mad q (map (Rmult a) l) = match mad q l with Some s => Some (a * s) | None => None end.
Proof.
  intros PA. destruct l as [|x t]; [reflexivity|]. set (l := x :: t).
  change (mad q l) with (Some (med (map (fun x => Rabs (x - med l)) l) / q)). cbv iota.
  change (mad q (map (Rmult a) l)) with (Some (med (map (fun x => Rabs (x - med (map (Rmult a) l))) (map (Rmult a) l)) / q)).
  rewrite med_scale by (exact PA || discriminate).
  assert (E : map (fun x0 => Rabs (x0 - a * med l)) (map (Rmult a) l) = map (Rmult a) (map (fun x0 => Rabs (x0 - med l)) l)).
  { rewrite !map_map. apply map_ext. intros y. rewrite <- Rmult_minus_distr_l, Rabs_mult, (Rabs_right a) by lra. reflexivity. }
  rewrite E, med_scale by (exact PA || discriminate). f_equal. unfold Rdiv. ring.
Qed.
Lemma outliers_scaled nsig a sc l : 0 < a ->
  outliers nsig (match sc with Some s => Some (a * s) | None => None end) (map (Rmult a) l) = outliers nsig sc l.
Proof.
  intros PA. unfold outliers. destruct sc as [s|]; [|reflexivity]. induction l as [|x l IH]; [reflexivity|]. cbn.
  assert (E : (if Rlt_dec (nsig * (a * s)) (Rabs (a * x)) then true else false) = (if Rlt_dec (nsig * s) (Rabs x) then true else false)).
  { rewrite Rabs_mult, (Rabs_right a) by lra. replace (nsig * (a * s)) with (a * (nsig * s)) by ring.
    destruct (Rlt_dec (a * (nsig * s)) (a * Rabs x)) as [L|L], (Rlt_dec (nsig * s) (Rabs x)) as [M|M]; try reflexivity.
    - exfalso. apply M. eapply Rmult_lt_reg_l; eassumption.
    - exfalso. apply L. apply Rmult_lt_compat_l; assumption. }
  rewrite E. destruct (Rlt_dec (nsig * s) (Rabs x)); cbn; rewrite IH; reflexivity.
Qed.
Lemma high_scaled a lat cut m : high lat cut (map (fun x => (fst x, a * snd x)) m) = map (Rmult a) (high lat cut m).
Proof. unfold high. induction m as [|x m IH]; [reflexivity|]. cbn. destruct (Rlt_dec cut (Rabs (lat (fst x)))); cbn; rewrite IH; reflexivity. Qed.
(** residuals that are [a] times as large have [a] times the scatter and the same outliers *)
Theorem C399_scaling : forall q lat cut nsig npix stars a, 0 < a ->
  let s := summarize q lat cut nsig npix stars in let s' := summarize q lat cut nsig npix (map (scaled a) stars) in
  scatter_full s' = match scatter_full s with Some v => Some (a * v) | None => None end /\
  scatter_high s' = match scatter_high s with Some v => Some (a * v) | None => None end /\
  frac_full s' = frac_full s /\ frac_high s' = frac_high s.
Proof.
  intros q lat cut nsig npix stars a PA s s'. subst s s'. unfold summarize.
  cbn [scatter_full scatter_high frac_full frac_high]. rewrite resid_scaled, map_scaled by exact PA.
  set (m := resid_map npix (resid stars)). rewrite high_scaled, map_map. cbn [snd].
  assert (E : map (fun x => a * snd x) m = map (Rmult a) (map snd m)) by (rewrite map_map; reflexivity).
  rewrite E, !mad_scaled, !outliers_scaled, map_length by exact PA.
  assert (M : forall o, mmag (match o with Some s => Some (a * s) | None => None end) = match mmag o with Some v => Some (a * v) | None => None end).
  { intros [s|]; [|reflexivity]. cbn. f_equal. ring. }
  rewrite !M. repeat split.
Qed.
Print Assumptions C399_scaling.

(** *** C400: outliers *)
Lemma outliers_count nsig s l : Plane_Spec.CountP (fun x => nsig * s < Rabs x) l (outliers nsig (Some s) l).
Proof.
  unfold outliers. apply Period_Proofs.count_filter. intros x _. destruct (Rlt_dec (nsig * s) (Rabs x)); split; intros H; try reflexivity; try assumption; try discriminate. contradiction.
Qed.
Theorem C400_full : forall q lat cut nsig npix stars l, l = map snd (resid_map npix (resid stars)) -> l <> [] ->
  exists s n v, Scatter q l s /\ Plane_Spec.CountP (fun x => nsig * s < Rabs x) l n /\
    frac_full (summarize q lat cut nsig npix stars) = Some v /\ v * INR (length l) = INR n.
Proof.
  intros q lat cut nsig npix stars l -> N. set (l := map snd (resid_map npix (resid stars))) in *.
  destruct (mad q l) as [s|] eqn:E; [|unfold mad in E; destruct l; [congruence|discriminate]].
  exists s, (outliers nsig (Some s) l), (INR (outliers nsig (Some s) l) / INR (length l)).
  split; [apply mad_is in E; apply E|]. split; [apply outliers_count|]. split.
  - unfold summarize. cbn [frac_full]. fold l. rewrite E. unfold fraction. destruct l; [congruence|]. reflexivity.
  - field. apply not_0_INR. destruct l; [congruence|discriminate].
Qed.
Print Assumptions C400_full.
(** what is true of the pixels at high latitude: their outliers as a share of all pixels *)
Theorem C400_high_partial : forall q lat cut nsig npix stars m hi, m = resid_map npix (resid stars) ->
  hi = map snd (filter (fun x => if Rlt_dec cut (Rabs (lat (fst x))) then true else false) m) -> hi <> [] ->
  exists s n v, Scatter q hi s /\ Plane_Spec.CountP (fun x => nsig * s < Rabs x) hi n /\
    frac_high (summarize q lat cut nsig npix stars) = Some v /\ v * INR (length m) = INR n.
Proof.
  intros q lat cut nsig npix stars m hi EM EH N. fold (high lat cut m) in EH.
  assert (NM : (length m <> 0)%nat).
  { intros C. destruct m; [|discriminate]. rewrite EH in N. apply N. reflexivity. }
  destruct (mad q hi) as [s|] eqn:E; [|unfold mad in E; destruct hi; [congruence|discriminate]].
  exists s, (outliers nsig (Some s) hi), (INR (outliers nsig (Some s) hi) / INR (length m)).
  split; [apply mad_is in E; apply E|]. split; [apply outliers_count|]. split.
  - unfold summarize. cbn [frac_high]. rewrite <- EM, <- EH, E, map_length. unfold fraction. destruct (length m); [congruence|]. reflexivity.
  - field. apply not_0_INR. exact NM.
Qed.
Print Assumptions C400_high_partial.
(** refuted: whenever there is an outlier at high latitude and a pixel at low latitude, the share of outliers among the
    pixels at high latitude is greater than the value *)
Theorem C400_high_refuted : forall q lat cut nsig npix stars m hi s n v, m = resid_map npix (resid stars) ->
  hi = map snd (filter (fun x => if Rlt_dec cut (Rabs (lat (fst x))) then true else false) m) ->
  Scatter q hi s -> Plane_Spec.CountP (fun x => nsig * s < Rabs x) hi n -> (0 < n)%nat -> (length hi < length m)%nat ->
  frac_high (summarize q lat cut nsig npix stars) = Some v -> v * INR (length hi) < INR n.
Proof.
  intros q lat cut nsig npix stars m hi s n v EM EH SC CN PN LT F.
  assert (N : hi <> []) by (intros ->; inversion CN; subst; lia).
  destruct (C400_high_partial q lat cut nsig npix stars m hi EM EH N) as (s' & n' & v' & SC' & CN' & F' & E).
  assert (v' = v) by congruence. subst v'.
  assert (SS : s' = s).
  { assert (A : mad q hi = Some s) by (apply mad_is; auto). assert (B : mad q hi = Some s') by (apply mad_is; auto). congruence. }
  subst s'.
  assert (NN : n' = n).
  { clear -CN CN'. revert n' CN'. induction CN; intros n' C; inversion C; subst; try contradiction; try reflexivity; auto. }
  subst n'. assert (P : 0 < INR n) by (apply lt_0_INR; exact PN). assert (PM : 0 < INR (length m)) by (apply lt_0_INR; lia).
  assert (PV : 0 < v). { destruct (Rlt_le_dec 0 v) as [L|L]; [exact L|]. exfalso. assert (v * INR (length m) <= 0 * INR (length m)) by (apply Rmult_le_compat_r; lra). lra. }
  rewrite <- E. apply Rmult_lt_compat_l; [exact PV|]. apply lt_INR. exact LT.
Qed.
Print Assumptions C400_high_refuted.

(** *** C401: the columns *)
Theorem C401_needed : forall cols, read_all cols = Ok tt <->
  (In "observationId" cols /\ In "fieldRA" cols /\ In "fieldDec" cols /\ In "fiveSigmaDepth" cols /\ In "rotSkyPos" cols)%string.
Proof.
  intros cols. unfold read_all.
  assert (H : forall c, existsb (String.eqb c) cols = true <-> In c cols).
  { intros c. rewrite existsb_exists. split; [intros (x & I & E); apply String.eqb_eq in E; subst x; exact I|].
    intros I. exists c. split; [exact I|apply String.eqb_refl]. }
  rewrite <- !H. unfold read_columns. cbn [forallb].
  destruct (existsb (String.eqb "observationId") cols), (existsb (String.eqb "fieldRA") cols), (existsb (String.eqb "fieldDec") cols),
    (existsb (String.eqb "fiveSigmaDepth") cols), (existsb (String.eqb "rotSkyPos") cols); cbn [andb]; intuition (congruence || discriminate).
Qed.
Print Assumptions C401_needed.
(** a slice with the columns the metric asks for is not enough *)
Theorem C401_declared_refuted : read_all declared = Err ValueError.
Proof. reflexivity. Qed.
Print Assumptions C401_declared_refuted.

(** *** C402: galaxies in the footprint *)
(** with the default bad value: points of much dust, of few bands or not deep enough are marked, the others have the galaxies
    in the visits of the band *)
Theorem C402_footprint : forall gal ax1 col band n lim_mag lim_ebv ebv t bands ds depth,
  Lens_Model.column t col = Ok bands -> Lens_Model.select t col band = Ok ds ->
  Lens_Model.exgal_m5 ax1 "band" (Some (-666)) ebv ds = Ok (Some depth) -> -666 < lim_mag ->
  (lim_ebv < ebv \/ (length (nodup string_dec bands) < n)%nat \/ depth < lim_mag ->
     num_gal gal ax1 col band n lim_mag lim_ebv (Some (-666)) ebv t = Ok (Some (-666))) /\
  (ebv <= lim_ebv -> (n <= length (nodup string_dec bands))%nat -> lim_mag <= depth ->
     num_gal gal ax1 col band n lim_mag lim_ebv (Some (-666)) ebv t = gal ds ebv).
Proof.
  intros gal ax1 col band n lim_mag lim_ebv ebv t bands ds depth C S D LM. unfold num_gal, Lens_Model.exgal_with_cuts.
  assert (Q : Lens_Model.neqb (Some (-666)) (Some (-666)) = true) by (cbn; unfold Lens_Model.reqb; destruct (Req_EM_T (-666) (-666)); [reflexivity|congruence]).
  split.
  - intros B. unfold Lens_Model.rltb at 1. destruct (Rlt_dec lim_ebv ebv) as [L|L]; [cbn [bind]; rewrite Q; reflexivity|]. rewrite C. cbn [bind].
    unfold Lens_Model.distinct. destruct (Nat.ltb_spec (length (nodup string_dec bands)) n) as [M|M]; [cbn [bind]; rewrite Q; reflexivity|].
    rewrite S. cbn [bind]. rewrite D. cbn [bind]. unfold Lens_Model.nltb, Lens_Model.rltb. destruct (Rlt_dec depth lim_mag) as [K|K]; [cbn [bind]; rewrite Q; reflexivity|].
    exfalso. destruct B as [B|[B|B]]; [lra|lia|lra].
  - intros B1 B2 B3. unfold Lens_Model.rltb at 1. destruct (Rlt_dec lim_ebv ebv) as [L|L]; [lra|]. rewrite C. cbn [bind].
    unfold Lens_Model.distinct. destruct (Nat.ltb_spec (length (nodup string_dec bands)) n) as [M|M]; [lia|].
    rewrite S. cbn [bind]. rewrite D. cbn [bind]. unfold Lens_Model.nltb, Lens_Model.rltb. destruct (Rlt_dec depth lim_mag) as [K|K]; [lra|]. cbn [bind].
    unfold Lens_Model.neqb, Lens_Model.reqb. destruct (Req_EM_T depth (-666)) as [X|_]; [lra|]. reflexivity.
Qed.
Print Assumptions C402_footprint.
(** refuted for another bad value: points outside the footprint have galaxies *)
Theorem C402_badval_refuted : forall gal ax1 col band n lim_mag lim_ebv badval ebv t ds, badval <> Some (-666) ->
  Lens_Model.select t col band = Ok ds -> lim_ebv < ebv ->
  num_gal gal ax1 col band n lim_mag lim_ebv badval ebv t = gal ds ebv.
Proof.
  intros gal ax1 col band n lim_mag lim_ebv badval ebv t ds NB S B. unfold num_gal, Lens_Model.exgal_with_cuts, Lens_Model.rltb at 1.
  destruct (Rlt_dec lim_ebv ebv) as [_|L]; [|lra]. cbn [bind]. unfold Lens_Model.neqb, Lens_Model.reqb. destruct badval as [b|].
  - destruct (Req_EM_T (-666) b) as [<-|_]; [congruence|]. rewrite S. reflexivity.
  - rewrite S. reflexivity.
Qed.
Print Assumptions C402_badval_refuted.
