(** Lemmas about the state of Sed and Bandpass. *)
From Verif Require Import Base Astrom_Model MoMag_Model Resample_Model Resample_Spec Resample_Proofs Resample_Proofs3 Phot_Model Phot_Spec Phot_Proofs Phot_Proofs2 Sed_Model Sed_Spec.
From Coq Require Import Reals Lra Lia.
Open Scope R_scope.

Lemma to_fnu_per_hz w f : to_fnu w f = per_hz w f.
Proof.
  unfold to_fnu, per_hz, nm2m, lightspeed, ergsetc2jansky. assert (10 ^ 23 = 10 ^ 14 * 10 ^ 9) as -> by ring.
  field.
Qed.
Lemma there_back w f : w <> 0 -> to_fnu w (to_flambda w f) = f.
Proof.
  intros H. unfold to_fnu, to_flambda. pose proof nm2m_pos. pose proof jansky_pos. assert (lightspeed <> 0) by (unfold lightspeed; lra).
  field. repeat split; lra.
Qed.
Lemma back_there w f : w <> 0 -> to_flambda w (to_fnu w f) = f.
Proof.
  intros H. unfold to_fnu, to_flambda. pose proof nm2m_pos. pose proof jansky_pos. assert (lightspeed <> 0) by (unfold lightspeed; lra).
  field. repeat split; lra.
Qed.
Lemma zipo_length h w v : length v = length w -> length (zipo h w v) = length w.
Proof. intros H. unfold zipo. rewrite map_length, combine_length. lia. Qed.
Lemma zipo_nth h : forall w v i, length v = length w -> (i < length w)%nat -> nth i (zipo h w v) None = option_map (h (nth i w 0)) (nth i v None).
Proof.
  induction w as [|a w IH]; intros [|b v] [|i] L H; cbn in *; try lia; try reflexivity.
  change (map (fun p => option_map (h (fst p)) (snd p)) (combine w v)) with (zipo h w v). apply IH; lia.
Qed.
Lemma zipo_zipo h g w v : (forall x y, In x w -> g x (h x y) = y) -> length v = length w -> zipo g w (zipo h w v) = v.
Proof.
  revert v. induction w as [|a w IH]; intros [|b v] H L; cbn in *; try lia; [reflexivity|].
  change (map (fun p => option_map (h (fst p)) (snd p)) (combine w v)) with (zipo h w v).
  change (map (fun p => option_map (g (fst p)) (snd p)) (combine w (zipo h w v))) with (zipo g w (zipo h w v)).
  rewrite IH; [|intros; apply H; right; assumption|lia]. f_equal. destruct b; cbn; [|reflexivity]. rewrite H by (left; reflexivity). reflexivity.
Qed.
Lemma nus_lambdas w v : all_positive w -> length v = length w -> nus w (lambdas w v) = v.
Proof. intros P L. apply zipo_zipo; [|exact L]. intros x y I. apply there_back. apply P in I. lra. Qed.
Lemma nus_same w fl : length fl = length w -> same_light w fl (nus w fl).
Proof.
  intros L. split; [exact L|]. split; [apply zipo_length, L|]. intros i H. unfold nus. rewrite zipo_nth by assumption.
  destruct (nth i fl None); cbn; [rewrite to_fnu_per_hz|]; reflexivity.
Qed.
(** the inputs of a call: all_positive wavelengths, as many fluxes *)
Definition fine_arrays (r : option (option (list R * vals))) : Prop :=
  match r with Some (Some (w, f)) => all_positive w /\ length f = length w | _ => True end.
Definition usable (o : op) : Prop :=
  match o with
  | SetSed w _ _ => all_positive w
  | SetFlat mn mx st => 0 < mn /\ 0 < st
  | ReadFlambda rows | ReadFnu rows => all_positive (map fst rows)
  | Resample r | Synchronize r => fine_arrays r
  | _ => True
  end.
Definition good (s : sed) : Prop :=
  (forall w, s_w s = Some w -> all_positive w) /\
  (forall f, s_fl s = Some f -> exists w, s_w s = Some w /\ length f = length w) /\
  (forall n, s_fnu s = Some n -> exists w f, s_w s = Some w /\ s_fl s = Some f /\ n = nus w f).
Lemma good_new : good new_sed. Proof. repeat split; discriminate. Qed.
Lemma good_put s w fl fnu : all_positive w -> length fl = length w -> (fnu = None \/ fnu = Some (nus w fl)) -> good (put s (Some w) (Some fl) fnu).
Proof.
  intros P L F. unfold good, put; cbn. split; [intros ? [= <-]; exact P|]. split; [intros ? [= <-]; eauto|].
  intros n ->. destruct F as [|[= ->]]; [discriminate|]. eauto.
Qed.
Lemma good_empty s w : all_positive w -> good (put s (Some w) None None).
Proof. intros P. unfold good, put; cbn. split; [intros ? [= <-]; exact P|]. split; discriminate. Qed.
Lemma good_drop s : good s -> good (put s (s_w s) (s_fl s) None).
Proof. intros (A & B & C). unfold good, put; cbn. split; [exact A|]. split; [exact B|discriminate]. Qed.
Lemma arange_pos mn b st : 0 < mn -> 0 < st -> all_positive (arange mn b st).
Proof.
  intros A B x I. unfold arange in I. apply in_map_iff in I as (i & <- & _). pose proof (pos_INR i). nra.
Qed.
Lemma shift_pos z w : 0 < w -> 0 < shift_w z w.
Proof. intros H. unfold shift_w, rltb. destruct (Rlt_dec z 0); [apply Rdiv_lt_0_compat; lra|apply Rmult_lt_0_compat; lra]. Qed.
Lemma good_fnu s : good s -> good (fst (flambda_tofnu s)).
Proof.
  intros G. pose proof (good_drop s G) as D. destruct G as (A & B & C). unfold flambda_tofnu. destruct (s_w s) as [w|] eqn:Ew, (s_fl s) as [f|] eqn:Ef; cbn; try assumption.
  destruct (B f eq_refl) as (? & [= <-] & L). apply good_put; auto.
Qed.
Lemma dusty_length a r ab f : length ab = length f -> length (dusty a r ab f) = length f.
Proof. intros H. unfold dusty. rewrite map_length, combine_length. lia. Qed.
Lemma nus_scale k : forall w f, map (option_map (fun x => x * k)) (nus w f) = nus w (map (option_map (fun x => x * k)) f).
Proof.
  unfold nus, zipo. induction w as [|a w IH]; intros [|b f]; cbn; try reflexivity. rewrite IH. f_equal. destruct b; cbn; [|reflexivity]. f_equal. unfold to_fnu, Rdiv. ring.
Qed.
Lemma lambdas_nus w v : all_positive w -> length v = length w -> lambdas w (nus w v) = v.
Proof. intros P L. apply zipo_zipo; [|exact L]. intros x y I. apply back_there. apply P in I. lra. Qed.
Lemma mult_norm_value s k w f : good s -> s_w s = Some w -> s_fl s = Some f ->
  mult_norm s k = (put s (Some w) (Some (map (option_map (fun x => x * k)) f)) (Some (nus w (map (option_map (fun x => x * k)) f))), Ok tt).
Proof.
  intros (A & B & C) Ew Ef. destruct (B f Ef) as (w0 & E0 & L). rewrite Ew in E0; injection E0 as <-. specialize (A w Ew).
  assert (ensure_fnu s = (put s (Some w) (Some f) (Some (nus w f)), Ok tt)) as E.
  { unfold ensure_fnu. destruct (s_fnu s) as [n|] eqn:En.
    - destruct (C n eq_refl) as (w1 & f1 & E1 & E2 & ->). rewrite Ew in E1; injection E1 as <-. rewrite Ef in E2; injection E2 as <-.
      f_equal. destruct s; cbn in *; subst. reflexivity.
    - unfold flambda_tofnu. rewrite Ew, Ef. reflexivity. }
  unfold mult_norm. rewrite E. cbn. rewrite nus_scale. unfold fnu_toflambda, put; cbn. rewrite lambdas_nus; [reflexivity|exact A|rewrite map_length; exact L].
Qed.
Lemma step_good s o : good s -> usable o -> good (fst (step s o)).
Proof.
  intros G U. pose proof G as (A & B & C). pose proof (good_drop s G) as D. destruct o; cbn [step usable] in *.
  - unfold set_sed. destruct fl as [f|]; [|destruct fnu as [f|]].
    + destruct (Nat.eqb_spec (length f) (length w)); cbn; [apply good_put; auto|apply good_empty, U].
    + destruct (Nat.eqb_spec (length f) (length w)); cbn; [|apply good_empty, U].
      apply good_put; [exact U|apply zipo_length; assumption|right]. rewrite nus_lambdas by assumption. reflexivity.
    + apply good_empty, U.
  - destruct U as [U1 U2]. unfold set_flat_sed; cbn. pose proof (arange_pos mn (mx + st) st U1 U2) as P.
    apply good_put; [exact P|apply zipo_length, map_length|right]. rewrite nus_lambdas; [reflexivity|exact P|apply map_length].
  - cbn. apply good_put; [exact U|rewrite !map_length; reflexivity|auto].
  - cbn. apply good_put; [exact U|apply zipo_length; rewrite !map_length; reflexivity|right]. rewrite nus_lambdas; [reflexivity|exact U|rewrite !map_length; reflexivity].
  - cbn. repeat split; discriminate.
  - apply good_fnu, G.
  - unfold fnu_toflambda. destruct (s_w s) as [w|] eqn:Ew; [|exact G]. destruct (s_fnu s) as [n|] eqn:En; [|exact G]. cbn.
    destruct (C n eq_refl) as (w1 & f & [= <-] & Ef & ->). destruct (B f Ef) as (w2 & E2 & L). injection E2 as <-.
    rewrite lambdas_nus; [|apply A; reflexivity|exact L]. apply good_put; auto.
  - destruct outcome as [[(w, f)|]|]; cbn in *; [apply good_put; intuition|exact D|exact G].
  - unfold synchronize_sed. destruct outcome as [[(w, f)|]|]; cbn [resample_self fine_arrays] in *.
    + apply good_fnu. apply good_put; intuition.
    + exact D.
    + apply good_fnu, G.
  - unfold redshift_sed. destruct (s_w s) as [w|] eqn:Ew; [|cbn; exact D].
    assert (all_positive (map (shift_w z) w)) as P. { intros x I. apply in_map_iff in I as (y & <- & I). apply shift_pos. apply (A w eq_refl), I. }
    destruct (s_fl s) as [f|] eqn:Ef; destruct dimming; cbn.
    + destruct (B f eq_refl) as (w1 & [= <-] & L). apply good_put; [exact P|rewrite !map_length; exact L|auto].
    + destruct (B f eq_refl) as (w1 & [= <-] & L). apply good_put; [exact P|rewrite !map_length; exact L|auto].
    + apply good_empty, A; reflexivity.
    + apply good_empty, P.
  - unfold add_dust. destruct (dust_params a_v ebv r_v) as [[a r]|e]; [|exact D]. destruct (s_fl s) as [f|] eqn:Ef; [|exact D].
    destruct (Nat.eqb_spec (length ab) (length f)) as [E|]; [|exact D]. cbn. destruct (B f eq_refl) as (w & Ew & L). rewrite Ew.
    apply good_put; [apply A, Ew|rewrite dusty_length by exact E; exact L|auto].
  - unfold ensure_fnu. destruct (s_fnu s); [exact G|apply good_fnu, G].
  - destruct (s_w s) as [w|] eqn:Ew; [destruct (s_fl s) as [f|] eqn:Ef|].
    + rewrite (mult_norm_value s k w f G Ew Ef). cbn. destruct (B f eq_refl) as (w1 & [= <-] & L). apply good_put; [apply A; reflexivity|rewrite map_length; exact L|auto].
    + unfold mult_norm, ensure_fnu. destruct (s_fnu s) as [n|] eqn:En. { destruct (C n eq_refl) as (? & ? & ? & ? & ?). discriminate. }
      unfold flambda_tofnu. rewrite Ew, Ef. cbn. exact D.
    + unfold mult_norm, ensure_fnu. destruct (s_fnu s) as [n|] eqn:En. { destruct (C n eq_refl) as (? & ? & ? & ? & ?). discriminate. }
      unfold flambda_tofnu. rewrite Ew. cbn. exact D.
Qed.
Lemma run_good os : forall s, good s -> (forall o, In o os -> usable o) -> good (run s os).
Proof. induction os as [|o os IH]; intros s G U; cbn; [exact G|]. apply IH; [apply step_good; [exact G|apply U; left; reflexivity]|intros; apply U; right; assumption]. Qed.
Lemma good_getters s : good s -> match get_sed_flambda s with
  | Ok (w, fl) => get_sed_fnu s = Ok (w, nus w fl) /\ length fl = length w /\ all_positive w
  | Err e => get_sed_fnu s = Err e end.
Proof.
  intros (A & B & C). unfold get_sed_flambda, get_sed_fnu. destruct (s_w s) as [w|] eqn:Ew; [|reflexivity]. destruct (s_fl s) as [f|] eqn:Ef.
  - destruct (B f eq_refl) as (? & [= <-] & L). split; [|split; [exact L|apply A; reflexivity]]. destruct (s_fnu s) as [n|] eqn:En; [|reflexivity].
    destruct (C n eq_refl) as (? & ? & [= <-] & [= <-] & ->). reflexivity.
  - destruct (s_fnu s) as [n|] eqn:En; [|reflexivity]. destruct (C n eq_refl) as (? & ? & ? & ? & ?). discriminate.
Qed.
(** calls that raise *)
Definition sets (o : op) : bool := match o with SetSed _ _ _ => true | _ => false end.
Lemma step_fails s o e : good s -> usable o -> sets o = false -> snd (step s o) = Err e ->
  match o with Synchronize (Some (Some _)) => False | _ => s_w (fst (step s o)) = s_w s /\ s_fl (fst (step s o)) = s_fl s end.
Proof.
  intros G U S E. pose proof G as (A & B & C). destruct o; cbn [step sets] in *; try discriminate S; cbn in E; try discriminate E.
  - unfold flambda_tofnu in *. destruct (s_w s), (s_fl s); cbn in *; try discriminate; auto.
  - unfold fnu_toflambda in *. destruct (s_w s) eqn:?, (s_fnu s) eqn:?; cbn in *; try discriminate; auto.
  - destruct outcome as [[[w f]|]|]; cbn in *; try discriminate; auto.
  - unfold synchronize_sed in *. destruct outcome as [[[w f]|]|]; cbn in *; try discriminate; auto.
    unfold flambda_tofnu in *. destruct (s_w s), (s_fl s); cbn in *; try discriminate; auto.
  - unfold redshift_sed in *. destruct (s_w s), (s_fl s), dimming; cbn in *; try discriminate; auto.
  - unfold add_dust in *. destruct (dust_params a_v ebv r_v) as [[a r]|]; [|cbn; auto]. destruct (s_fl s); [|cbn; auto]. destruct (Nat.eqb (length ab) (length v)); cbn in *; [discriminate|auto].
  - unfold ensure_fnu, flambda_tofnu in *. destruct (s_fnu s), (s_w s), (s_fl s); cbn in *; try discriminate; auto.
  - destruct (s_w s) as [w|] eqn:Ew; [destruct (s_fl s) as [f|] eqn:Ef|].
    + rewrite (mult_norm_value s k w f G Ew Ef) in E. discriminate.
    + unfold mult_norm, ensure_fnu in *. destruct (s_fnu s) as [n|] eqn:En. { destruct (C n eq_refl) as (? & ? & ? & ? & ?). discriminate. }
      unfold flambda_tofnu in *. rewrite Ew, Ef in *. cbn. auto.
    + unfold mult_norm, ensure_fnu in *. destruct (s_fnu s) as [n|] eqn:En. { destruct (C n eq_refl) as (? & ? & ? & ? & ?). discriminate. }
      unfold flambda_tofnu in *. rewrite Ew in *. cbn. auto.
Qed.

(** the response of a bandpass *)
Lemma phi_response w sb : length sb = length w -> response w sb (phi_of w sb).
Proof.
  intros L. unfold phi_of, response. rewrite map_length, zip_length by exact L. split; [exact L|]. intros i H.
  rewrite (nth_indep _ 0 (0 / trapz (zip_with Rdiv sb w) w)) by (rewrite map_length, zip_length by exact L; lia).
  rewrite (map_nth (fun x => x / trapz (zip_with Rdiv sb w) w)). rewrite zip_nth by (auto; lia). f_equal.
  rewrite trapz_integral by (rewrite (zip_length Rdiv _ _ L); exact L). apply integral_ext. intros k K. apply zip_nth; [exact L|lia].
Qed.
Definition bgood (b : band) : Prop :=
  (bd_w b = None /\ bd_sb b = None /\ bd_phi b = None) \/
  (exists w sb, bd_w b = Some w /\ bd_sb b = Some sb /\ length sb = length w /\ (bd_phi b = None \/ bd_phi b = Some (phi_of w sb))).
Definition busable (o : bop) : Prop :=
  match o with
  | BRead (Rows r s u) => length s = length r
  | BRead (NameList w sb) => length sb = length w
  | BReadList mn mx st comps => forall c, In (Ok c) comps -> length c = length (bandpass_grid mn mx st)
  | _ => True
  end.
Lemma mult_all_length comps : forall sb, (forall c, In (Ok c) comps -> length c = length sb) -> length (fst (mult_all sb comps)) = length sb.
Proof.
  induction comps as [|[c|e] t IH]; intros sb H; cbn; try reflexivity. assert (length c = length sb) by (apply H; left; reflexivity).
  rewrite IH; [apply zip_length; auto|]. intros d I. rewrite zip_length by auto. apply H. right; exact I.
Qed.
Lemma bstep_good b o : bgood b -> busable o -> bgood (fst (bstep b o)).
Proof.
  intros G U. assert (forall w sb, length sb = length w -> bgood {| bd_w := Some w; bd_sb := Some sb; bd_phi := None |}) as N. { intros w sb L. right. exists w, sb. cbn. auto. }
  assert (bgood (fst (band_tophi b))) as T.
  { unfold band_tophi. destruct (bd_w b) eqn:Ew; [|exact G]. destruct (bd_sb b) eqn:Es; [|exact G]. destruct G as [(? & ? & ?)|(w & sb & E1 & E2 & L & _)]; [congruence|].
    right. exists w, sb. cbn. rewrite E1 in Ew; injection Ew as <-. rewrite E2 in Es; injection Es as <-. auto. }
  destruct o; cbn [bstep busable] in *.
  - unfold set_band. destruct (Nat.eqb_spec (length w) (length sb)); cbn; [apply N; auto|exact G].
  - cbn. apply N, map_length.
  - destruct f as [|r s []|w sb]; cbn; [left; auto| | |apply N, U]; apply N; rewrite !map_length; reflexivity.
  - cbn. apply N. rewrite mult_all_length; rewrite map_length; [reflexivity|exact U].
  - unfold resample_band. destruct (bd_w b) as [w|]; [|exact G]. destruct (bd_sb b) as [sb|]; [|exact G]. unfold resample_arrays. destruct (orb _ _); [exact G|].
    cbn. apply N, map_length.
  - exact T.
  - unfold ensure_phi. destruct (bd_phi b); [exact G|exact T].
Qed.
Lemma brun_good os : forall b, bgood b -> (forall o, In o os -> busable o) -> bgood (brun b os).
Proof. induction os as [|o os IH]; intros b G U; cbn; [exact G|]. apply IH; [apply bstep_good; [exact G|apply U; left; reflexivity]|intros; apply U; right; assumption]. Qed.
