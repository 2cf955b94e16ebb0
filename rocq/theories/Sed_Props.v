(** The properties of Sed and Bandpass as objects with state, and of redshifts: C196 - C199. *)
From Verif Require Import Base Astrom_Model MoMag_Model Resample_Model Resample_Spec Resample_Proofs Resample_Proofs3 Phot_Model Phot_Spec Phot_Proofs Phot_Proofs2 Sed_Model Sed_Spec Sed_Proofs.
From Coq Require Import Reals Lra Lia.
Open Scope R_scope.

(** ** C196: the two forms of a spectrum agree, whatever was done to it *)
Theorem C196_same_light os : (forall o, In o os -> usable o) ->
  match get_sed_flambda (run new_sed os) with
  | Ok (w, fl) => exists fn, get_sed_fnu (run new_sed os) = Ok (w, fn) /\ same_light w fl fn
  | Err e => get_sed_fnu (run new_sed os) = Err e
  end.
Proof.
  intros U. pose proof (good_getters _ (run_good os new_sed good_new U)) as H. destruct (get_sed_flambda _) as [[w fl]|]; [|exact H].
  destruct H as (E & L & _). exists (nus w fl). split; [exact E|apply nus_same, L].
Qed.
Print Assumptions C196_same_light.
(** measuring a magnitude does not change the spectrum *)
Theorem C196_measure os : (forall o, In o os -> usable o) -> let s := run new_sed os in let s' := fst (step s Measure) in
  get_sed_flambda s' = get_sed_flambda s /\ get_sed_fnu s' = get_sed_fnu s.
Proof.
  intros U s s'. pose proof (run_good os new_sed good_new U) as G. fold s in G. pose proof (step_good s Measure G I) as G'. fold s' in G'.
  assert (s_w s' = s_w s /\ s_fl s' = s_fl s) as [E1 E2].
  { unfold s'; cbn [step]. unfold ensure_fnu, flambda_tofnu. destruct (s_fnu s), (s_w s) eqn:?, (s_fl s) eqn:?; cbn; auto. }
  assert (get_sed_flambda s' = get_sed_flambda s) as E by (unfold get_sed_flambda; rewrite E1, E2; reflexivity). split; [exact E|].
  pose proof (good_getters s G) as H. pose proof (good_getters s' G') as H'. rewrite E in H'. destruct (get_sed_flambda s) as [[w f]|]; [|congruence].
  destruct H as [-> _], H' as [-> _]. reflexivity.
Qed.
Print Assumptions C196_measure.
(** multiplying by a number multiplies both forms *)
Theorem C196_multiply os k w fl : (forall o, In o os -> usable o) -> let s := run new_sed os in get_sed_flambda s = Ok (w, fl) ->
  get_sed_flambda (fst (step s (MultNorm k))) = Ok (w, map (option_map (fun x => x * k)) fl) /\ snd (step s (MultNorm k)) = Ok tt.
Proof.
  intros U s H. pose proof (run_good os new_sed good_new U) as G. fold s in G. unfold get_sed_flambda in H.
  destruct (s_w s) as [w0|] eqn:Ew; [|discriminate]. destruct (s_fl s) as [f0|] eqn:Ef; [|discriminate]. injection H as -> ->.
  cbn [step]. rewrite (mult_norm_value s k w fl G Ew Ef). split; reflexivity.
Qed.
Print Assumptions C196_multiply.
Definition ex_ops : list op := [SetSed [400; 500] None (Some [Some 1; None]); MultNorm 2; Redshift 1 true; Measure; Dust [(1, 0); (1, 0)] (Some 1) None (31/10); ToFlambda; Measure].
Example C196_case : (forall o, In o ex_ops -> usable o) /\ exists w fl fn, get_sed_flambda (run new_sed ex_ops) = Ok (w, fl) /\ get_sed_fnu (run new_sed ex_ops) = Ok (w, fn) /\
  length w = 2%nat /\ nth 1 w 0 = 1000.
Proof.
  assert (forall o, In o ex_ops -> usable o) as U.
  { intros o [<-|[<-|[<-|[<-|[<-|[<-|[<-|[]]]]]]]]; cbn; auto. intros x [<-|[<-|[]]]; lra. }
  split; [exact U|]. cbn. unfold add_dust, dust_params. destruct (Req_EM_T (31/10) (31/10)) as [_|N]; [|lra]. cbn.
  destruct (Req_EM_T (31/10) (31/10)) as [_|N]; [|lra]. cbn. do 3 eexists. split; [reflexivity|]. split; [reflexivity|]. split; [reflexivity|].
  cbn. unfold shift_w, rltb. destruct (Rlt_dec 1 0); lra.
Qed.

(** ** C197: the response of a bandpass belongs to its present throughput, whatever was done to it *)
Theorem C197_response os : (forall o, In o os -> busable o) -> let b := brun new_band os in
  match snd (ensure_phi b) with
  | Ok _ => exists w sb phi, bd_w b = Some w /\ bd_sb b = Some sb /\ bd_w (fst (ensure_phi b)) = Some w /\ bd_sb (fst (ensure_phi b)) = Some sb /\
                             bd_phi (fst (ensure_phi b)) = Some phi /\ response w sb phi
  | Err _ => bd_w b = None /\ bd_sb b = None
  end.
Proof.
  intros U b. assert (bgood b) as G by (apply brun_good; [left; cbn; auto|exact U]).
  destruct G as [(E1 & E2 & E3)|(w & sb & E1 & E2 & L & E3)]; unfold ensure_phi, band_tophi.
  - rewrite E3, E1, E2. cbn. auto.
  - pose proof (phi_response w sb L). destruct E3 as [E3|E3]; rewrite E3, ?E1, ?E2; cbn; exists w, sb, (phi_of w sb); rewrite ?E1, ?E2, ?E3; auto 10.
Qed.
Print Assumptions C197_response.
Definition ex_bops : list bop := [BSet [400; 500] [1; 1]; BToPhi; BSet [400; 500; 600] [1]; BResample 400 500 50; BMeasure; BRead (NameList [300; 301] [1; 2]); BMeasure].
Example C197_case : (forall o, In o ex_bops -> busable o) /\ exists phi, bd_phi (fst (ensure_phi (brun new_band ex_bops))) = Some phi /\ nth 1 phi 0 = 2 / 301 / (1/2 * (1 / 300 + 2 / 301)).
Proof.
  assert (forall o, In o ex_bops -> busable o) as U. { intros o [<-|[<-|[<-|[<-|[<-|[<-|[<-|[]]]]]]]]; cbn; auto. }
  split; [exact U|].
  change (brun new_band ex_bops) with (fst (ensure_phi (fst (read_throughput (brun new_band (firstn 5 ex_bops)) (NameList [300; 301] [1; 2]))))).
  unfold read_throughput, ensure_phi, band_tophi. cbn [fst Sed_Model.bd_phi Sed_Model.bd_w Sed_Model.bd_sb]. eexists. split; [reflexivity|]. cbn. unfold trapz, zip_with, rsum. cbn. field.
Qed.

(** ** C198: a call that raises leaves the spectrum as it was (refuted: set_sed empties it) *)
Definition keeps (s : sed) (o : op) : Prop := forall e, snd (step s o) = Err e ->
  get_sed_flambda (fst (step s o)) = get_sed_flambda s /\ get_sed_fnu (fst (step s o)) = get_sed_fnu s.
Theorem C198_refuted : ~ (forall os o, (forall x, In x os -> usable x) -> usable o -> keeps (run new_sed os) o).
Proof.
  intros C. specialize (C [SetSed [400; 500] (Some [Some 1; Some 1]) None] (SetSed [400] (Some [Some 1; Some 1]) None)).
  assert (all_positive [400; 500] /\ all_positive [400]) as [P Q] by (split; intros x; cbn; intuition; subst; lra).
  destruct (C ltac:(intros x [<-|[]]; exact P) Q ValueError eq_refl) as [H _]. cbv in H. discriminate.
Qed.
Print Assumptions C198_refuted.
(** every other method *)
Theorem C198_partial os o : (forall x, In x os -> usable x) -> usable o -> sets o = false -> keeps (run new_sed os) o.
Proof.
  intros U V S e E. pose proof (run_good os new_sed good_new U) as G. set (s := run new_sed os) in *. pose proof (step_good s o G V) as G'.
  pose proof (step_fails s o e G V S E) as F.
  assert (s_w (fst (step s o)) = s_w s /\ s_fl (fst (step s o)) = s_fl s) as [E1 E2]. { destruct o; try exact F. destruct outcome as [[|]|]; [contradiction|exact F|exact F]. }
  assert (get_sed_flambda (fst (step s o)) = get_sed_flambda s) as H by (unfold get_sed_flambda; rewrite E1, E2; reflexivity). split; [exact H|].
  pose proof (good_getters s G) as K. pose proof (good_getters _ G') as K'. rewrite H in K'. destruct (get_sed_flambda s) as [[w f]|]; [|congruence].
  destruct K as [-> _], K' as [-> _]. reflexivity.
Qed.
Print Assumptions C198_partial.
Example C198_case : snd (step (run new_sed [SetSed [400; 500] (Some [Some 1; Some 1]) None; Measure]) (Dust [(1, 0)] (Some 1) None 3)) = Err ValueError /\
  s_fl (run new_sed [SetSed [400; 500] (Some [Some 1; Some 1]) None; Measure]) = Some [Some 1; Some 1].
Proof.
  split; [|reflexivity]. cbn. unfold add_dust, dust_params. destruct (Req_EM_T 3 (31/10)) as [E|_]; [lra|]. cbn. destruct (Req_EM_T 3 (31/10)) as [E|_]; [lra|]. reflexivity.
Qed.
(** a bandpass that refuses arrays keeps those it had *)
Theorem C198_bandpass b w sb e : snd (set_band b w sb) = Err e -> fst (set_band b w sb) = b /\ length w <> length sb.
Proof. unfold set_band. destruct (Nat.eqb_spec (length w) (length sb)); [discriminate|auto]. Qed.
Print Assumptions C198_bandpass.

(** ** C199: redshifts *)
Definition redshifted (z : R) (dimming : bool) (wf : list R * list R) : list R * list R := redshift_arrays z dimming (fst wf) (snd wf).
Lemma shift_back z w : shift_w (- z) (shift_w z w) = w.
Proof. unfold shift_w, rltb. destruct (Rlt_dec z 0), (Rlt_dec (- z) 0); try (assert (z = 0) by lra; subst); try (field; lra); lra. Qed.
Lemma dim_back z f : dim (- z) (dim z f) = f.
Proof. unfold dim, rltb. destruct (Rlt_dec z 0), (Rlt_dec (- z) 0); try (assert (z = 0) by lra; subst); try (field; lra); lra. Qed.
Theorem C199_undo z dimming w f : redshifted (- z) dimming (redshifted z dimming (w, f)) = (w, f).
Proof.
  unfold redshifted, redshift_arrays; cbn. destruct dimming; rewrite !map_map; f_equal; rewrite <- (map_id w) at 2 || rewrite <- (map_id f) at 2; apply map_ext; intros; [apply shift_back|apply dim_back|apply shift_back].
Qed.
Print Assumptions C199_undo.
(** the wavelengths are multiplied by 1 + z (refuted for blueshifts) *)
Theorem C199_refuted : ~ (forall z w f, -1 < z -> fst (redshifted z false (w, f)) = map (fun l => l * (1 + z)) w).
Proof. intros C. specialize (C (- (1/2)) [300] []). cbn in C. unfold shift_w, rltb in C. destruct (Rlt_dec (- (1/2)) 0); [|lra]. specialize (C ltac:(lra)). injection C as C. assert (300 / (1 - - (1/2)) = 200) by field. lra. Qed.
Print Assumptions C199_refuted.
Theorem C199_redshift_partial z w f : 0 <= z -> fst (redshifted z false (w, f)) = map (fun l => l * (1 + z)) w /\ snd (redshifted z false (w, f)) = f /\
  snd (redshifted z true (w, f)) = map (fun x => x / (1 + z)) f.
Proof.
  intros H. unfold redshifted, redshift_arrays; cbn. unfold shift_w, dim. rewrite (proj2 (rltb_false z 0) H). auto.
Qed.
Print Assumptions C199_redshift_partial.
Theorem C199_compose_partial a b dimming w f : 0 <= a -> 0 <= b ->
  redshifted b dimming (redshifted a dimming (w, f)) = redshifted ((1 + a) * (1 + b) - 1) dimming (w, f).
Proof.
  intros A B. assert (0 <= (1 + a) * (1 + b) - 1) as D by nra. unfold redshifted, redshift_arrays; cbn.
  assert (forall x, shift_w b (shift_w a x) = shift_w ((1 + a) * (1 + b) - 1) x) as S.
  { intros x. unfold shift_w. rewrite !(proj2 (rltb_false _ 0)) by assumption. ring. }
  assert (forall x, dim b (dim a x) = dim ((1 + a) * (1 + b) - 1) x) as M.
  { intros x. unfold dim. rewrite !(proj2 (rltb_false _ 0)) by assumption. field. nra. }
  rewrite !map_map. f_equal; [apply map_ext, S|]. destruct dimming; [rewrite map_map; apply map_ext, M|reflexivity].
Qed.
Print Assumptions C199_compose_partial.
(** with dimming the light between the same two places of the spectrum is conserved *)
Theorem C199_energy z w f : length f = length w ->
  integral (fst (redshifted z true (w, f))) (fun i => nth i (snd (redshifted z true (w, f))) 0) = integral w (fun i => nth i f 0).
Proof.
  intros L. unfold redshifted, redshift_arrays, integral; cbn [fst snd]. rewrite map_length. f_equal. apply map_ext_in. intros i I. apply in_seq in I.
  assert (forall j, (j < length w)%nat -> nth j (map (shift_w z) w) 0 = shift_w z (nth j w 0)) as A.
  { intros j J. rewrite (nth_indep _ 0 (shift_w z 0)) by (rewrite map_length; lia). apply map_nth. }
  assert (forall j, (j < length w)%nat -> nth j (map (dim z) f) 0 = dim z (nth j f 0)) as B.
  { intros j J. rewrite (nth_indep _ 0 (dim z 0)) by (rewrite map_length; lia). apply map_nth. }
  rewrite !A, !B by lia. unfold shift_w, dim, rltb. destruct (Rlt_dec z 0); field; lra.
Qed.
Print Assumptions C199_energy.
(** a Sed as an object, and arrays given to it, are shifted alike, and redshift and its undoing restore a Sed *)
Theorem C199_object s z dimming w f : s_w s = Some w -> s_fl s = Some (map Some f) ->
  get_sed_flambda (fst (step s (Redshift z dimming))) = Ok (fst (redshifted z dimming (w, f)), map Some (snd (redshifted z dimming (w, f)))) /\
  s_fnu (fst (step s (Redshift z dimming))) = None.
Proof.
  intros Ew Ef. cbn [step]. unfold redshift_sed. rewrite Ew, Ef. destruct dimming; cbn; split; try reflexivity. rewrite !map_map. reflexivity.
Qed.
Print Assumptions C199_object.
Example C199_case : redshifted 1 true ([300; 400], [8; 4]) = ([600; 800], [4; 2]).
Proof. unfold redshifted, redshift_arrays; cbn. unfold shift_w, dim, rltb. destruct (Rlt_dec 1 0); [lra|]. repeat f_equal; lra. Qed.
