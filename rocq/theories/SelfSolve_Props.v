(** Properties C236-C242: LsqrSolver. *)
From Coq Require Import Reals Permutation Sorted Lia Lra.
From Verif Require Import Base Technical_Model Technical_Proofs3 SelfSolve_Model SelfSolve_Spec SelfSolve_Proofs SelfSolve_Proofs2 SelfSolve_Proofs3.
Open Scope Z_scope.

(** * C236: cleaning keeps the largest part in which every star and patch has two observations *)
Theorem C236_core_partial : forall sort l, sorts sort -> near o_id l -> near o_patch l -> length l <> 1%nat ->
  exists r c, clean_data sort l = Some c /\ core l r /\
    StronglySorted Z.lt (c_patches c) /\ (forall k, In k (c_patches c) <-> exists o, In o r /\ o_patch o = k) /\
    StronglySorted Z.lt (c_stars c) /\ (forall k, In k (c_stars c) <-> exists o, In o r /\ o_id o = k) /\ length (c_obs c) = length r.
Proof.
  intros sort l HS NI NP L. destruct (cleaned_facts sort HS l NI NP L) as [r [r' [c [EC [C [P [EP [ES EO]]]]]]]].
  exists r, c. split; [exact EC|]. split; [exact C|].
  assert (IP : forall key k, In k (unique_z (map key r')) <-> exists o, In o r /\ key o = k).
  { intros key k. rewrite unique_z_in, in_map_iff. split; intros [o [A B]].
    - exists o. split; [apply (Permutation_in o P); exact B|exact A].
    - exists o. split; [exact B|apply (Permutation_in o (Permutation_sym P)); exact A]. }
  split; [rewrite EP; apply unique_z_sorted|]. split; [intros k; rewrite EP; apply IP|].
  split; [rewrite ES; apply unique_z_sorted|]. split; [intros k; rewrite ES; apply IP|]. rewrite EO, map_length. apply Permutation_length. exact P.
Qed.
Print Assumptions C236_core_partial.
Definition ob (i p : Z) (m : R) : obs := {| o_id := i; o_patch := p; o_mag := m; o_unc := 1%R |}.
(** stars 7 and 9 in patches 30 and 50; star 5 is seen once, in patch 50; patch 60 has star 7 only *)
Definition some_obs (m : R) : list obs := [ob 7 30 m; ob 9 50 m; ob 5 50 m; ob 9 30 m; ob 7 60 m; ob 7 50 m].
Example C236_case : forall m, sorts sort_by /\ near o_id (some_obs m) /\ near o_patch (some_obs m) /\ length (some_obs m) <> 1%nat /\
  exists c, clean_data sort_by (some_obs m) = Some c /\ c_patches c = [30; 50] /\ c_stars c = [7; 9] /\ map o_id (c_obs c) = [1; 1; 2; 2] /\ map o_patch (c_obs c) = [0; 1; 0; 1].
Proof.
  intros m. split; [exact sort_by_sorts|].
  split; [intros o p I J; cbn in I, J; repeat (destruct I as [<-|I]; [|]); repeat (destruct J as [<-|J]; [|]); try contradiction; reflexivity|].
  split; [intros o p I J; cbn in I, J; repeat (destruct I as [<-|I]; [|]); repeat (destruct J as [<-|J]; [|]); try contradiction; reflexivity|].
  split; [discriminate|]. eexists. split; [reflexivity|]. repeat split.
Qed.
(** a single observation is kept, although its star and its patch are seen once *)
Theorem C236_single_refuted : forall m, exists c, clean_data sort_by [ob 7 30 m] = Some c /\ length (c_obs c) = 1%nat /\ ~ seen_twice [ob 7 30 m].
Proof.
  intros m. eexists. split; [reflexivity|]. split; [reflexivity|]. intros T. destruct (T [] (ob 7 30 m) [] eq_refl) as [[p [[] _]] _].
Qed.
Print Assumptions C236_single_refuted.
(** three stars that are seen once are kept if their numbers are 2^32 apart: the product of the differences is a multiple of 2^64 *)
Theorem C236_overflow_refuted : forall m, let l := [ob 0 30 m; ob (2 ^ 32) 30 m; ob (2 ^ 33) 30 m] in
  (exists c, clean_data sort_by l = Some c /\ c_stars c = [0; 2 ^ 32; 2 ^ 33]) /\ (forall r, core l r -> r = []).
Proof.
  intros m l. split; [eexists; split; [reflexivity|reflexivity]|]. intros r [[rest P] [T _]].
  destruct r as [|o t]; [reflexivity|]. exfalso.
  assert (D : NoDup (map o_id (o :: t ++ rest))).
  { apply (Permutation_NoDup (Permutation_map o_id P)). cbn. repeat constructor; cbn; intuition discriminate. }
  destruct (T [] o t eq_refl) as [[p [I E]] _]. cbn [app] in I. cbn [map] in D. inversion D as [|? ? D1 D2]; subst. apply D1. rewrite <- E. apply in_map. apply in_app_iff. left. exact I.
Qed.
Print Assumptions C236_overflow_refuted.

(** * C237: no patch with a single star *)
Theorem C237_pairs_partial : forall l r, core l r -> NoDup (map (fun o => (o_id o, o_patch o)) l) ->
  forall o, In o r -> (exists p, In p r /\ o_patch p = o_patch o /\ o_id p <> o_id o) /\ (exists p, In p r /\ o_id p = o_id o /\ o_patch p <> o_patch o).
Proof.
  intros l r [[rest P] [T _]] D o I. apply (Permutation_NoDup (Permutation_map (fun o => (o_id o, o_patch o)) P)) in D. rewrite map_app in D.
  apply in_split in I. destruct I as [u [v E]]. destruct (T u o v E) as [[p [IP KP]] [q [IQ KQ]]].
  assert (N : forall p, In p (u ++ v) -> (o_id p, o_patch p) <> (o_id o, o_patch o)).
  { intros s J X. assert (D' : NoDup (map (fun o => (o_id o, o_patch o)) r)).
    { clear -D. induction (map (fun o => (o_id o, o_patch o)) r) as [|x t IH]; [constructor|]. cbn in D. inversion D as [|? ? A B]; subst. constructor; [|apply IH; exact B].
      intros I. apply A. apply in_app_iff. left. exact I. }
    rewrite E, map_app in D'. cbn [map] in D'. apply NoDup_remove_2 in D'. apply D'. rewrite <- X, <- map_app. apply (in_map (fun o => (o_id o, o_patch o))). exact J. }
  assert (W : forall s, In s (u ++ v) -> In s r) by (intros s J; rewrite E; apply in_app_iff in J; apply in_app_iff; destruct J; [left|right; right]; assumption).
  split.
  - exists q. split; [apply W; exact IQ|]. split; [exact KQ|]. intros X. apply (N q IQ). rewrite X, KQ. reflexivity.
  - exists p. split; [apply W; exact IP|]. split; [exact KP|]. intros X. apply (N p IP). rewrite X, KP. reflexivity.
Qed.
Print Assumptions C237_pairs_partial.
Example C237_case : forall m, core [ob 7 30 m; ob 9 50 m; ob 9 30 m; ob 7 50 m] [ob 7 30 m; ob 9 50 m; ob 9 30 m; ob 7 50 m] /\
  NoDup (map (fun o => (o_id o, o_patch o)) [ob 7 30 m; ob 9 50 m; ob 9 30 m; ob 7 50 m]).
Proof.
  intros m. split; [|cbn; repeat constructor; cbn; intuition discriminate]. split; [apply part_refl|]. split; [|intros q Q _; exact Q].
  apply twice_twin. intros o I. cbn in I. destruct I as [<-|[<-|[<-|[<-|[]]]]]; split; reflexivity.
Qed.
(** a star with two rows in one patch is kept, alone with its patch *)
Theorem C237_same_star_refuted : forall m n, let l := [ob 7 30 m; ob 7 30 n] in
  core l l /\ exists c, clean_data sort_by l = Some c /\ c_patches c = [30] /\ c_stars c = [7].
Proof.
  intros m n l. split; [|eexists; split; [reflexivity|split; reflexivity]]. split; [apply part_refl|]. split; [|intros q Q _; exact Q].
  apply twice_twin. intros o I. cbn in I. destruct I as [<-|[<-|[]]]; split; reflexivity.
Qed.
Print Assumptions C237_same_star_refuted.

(** * C238: the running numbers stand for the right stars and patches *)
Theorem C238_numbers : forall sort l c, sorts sort -> near o_id l -> near o_patch l -> length l <> 1%nat -> clean_data sort l = Some c ->
  exists r, core l r /\
    Forall2 (fun o q => 0 <= o_patch q /\ 1 <= o_id q /\ nth_error (c_patches c) (Z.to_nat (o_patch q)) = Some (o_patch o) /\
      nth_error (c_stars c) (Z.to_nat (o_id q - 1)) = Some (o_id o) /\ o_mag q = o_mag o /\ o_unc q = o_unc o) r (c_obs c).
Proof.
  intros sort l c HS NI NP L E. destruct (cleaned_facts sort HS l NI NP L) as [r [r' [c' [EC [C [P [EP [ES EO]]]]]]]].
  rewrite E in EC. injection EC as <-. exists r'. split.
  - destruct C as [C1 [C2 C3]]. split; [|split].
    + destruct C1 as [s Q]. exists s. eapply Permutation_trans; [exact Q|]. apply Permutation_app_tail. apply Permutation_sym. exact P.
    + rewrite twice_twin in C2 |- *. intros o I. rewrite !(twin_perm _ _ _ o P). apply C2. apply (Permutation_in o P). exact I.
    + intros m M T. apply (part_perm _ _ _ (Permutation_sym P)). apply C3; assumption.
  - rewrite EO. apply renumber_right; assumption.
Qed.
Print Assumptions C238_numbers.
Example C238_case : forall m, sorts sort_by /\ near o_id (some_obs m) /\ near o_patch (some_obs m) /\ length (some_obs m) <> 1%nat /\
  exists c, clean_data sort_by (some_obs m) = Some c /\ map o_id (c_obs c) = [1; 1; 2; 2].
Proof. intros m. destruct (C236_case m) as [A [B [C [D [c [E [_ [_ [F _]]]]]]]]]. repeat (split; [assumption|]). exists c. split; assumption. Qed.

Open Scope R_scope.
(** * C239: the result has the least sum of squared residuals *)
(** lsqr solves the equations that it is given *)
Definition solves (sort : (obs -> Z) -> list obs -> list obs) (lsqr : matrix -> list R -> list R) (good : matrix -> list R -> list R -> Prop) (l : list obs) : Prop :=
  forall c a b, clean_data sort l = Some c -> build_matrix c = Ok (a, b) -> good a b (lsqr a b).
Theorem C239_optimal : forall sort lsqr l s, sorts sort -> near o_id l -> near o_patch l -> length l <> 1%nat ->
  run sort lsqr (new_solver l) = Ok s -> solves sort lsqr least_squares l ->
  exists r patches stars, return_solution s = Ok (patches, stars) /\ core l r /\ NoDup (map fst patches) /\ NoDup (map fst stars) /\
    (forall k, In k (map fst patches) <-> exists o, In o r /\ o_patch o = k) /\ (forall k, In k (map fst stars) <-> exists o, In o r /\ o_id o = k) /\
    forall zp mag, tabulates patches zp -> tabulates stars mag -> forall zp' mag', chi2 zp mag r <= chi2 zp' mag' r.
Proof.
  intros sort lsqr l s HS NI NP L E SV. destruct (run_form sort HS lsqr l s NI NP L E) as [r [c [a [b [zp0 [mag0 [C [EC [EB [IP [IS [N1 [N2 [SS [EM [M EX]]]]]]]]]]]]]]]].
  destruct (SV c a b EC EB) as [LX BX]. specialize (EX LX). unfold return_solution. rewrite SS, EX, solution_vec.
  exists r, (map (fun k => (k, zp0 k)) (c_patches c)), (map (fun k => (k, mag0 k)) (c_stars c)).
  split; [reflexivity|]. split; [exact C|]. rewrite !map_map. cbn [fst]. rewrite !map_id.
  split; [exact N1|]. split; [exact N2|]. split; [exact IP|]. split; [exact IS|].
  intros zp mag TZ TM zp' mag'.
  assert (X : chi2 zp mag r = chi2 zp0 mag0 r).
  { apply chi2_ext. intros o I. split.
    - apply TZ. apply in_map_iff. exists (o_patch o). split; [reflexivity|]. apply IP. exists o. split; [exact I|reflexivity].
    - apply TM. apply in_map_iff. exists (o_id o). split; [reflexivity|]. apply IS. exists o. split; [exact I|reflexivity]. }
  rewrite X, <- !M, <- EX. apply BX. rewrite app_length, !map_length. symmetry. exact EM.
Qed.
Print Assumptions C239_optimal.

(** * C240: differences of zero points and of magnitudes are recovered *)
Theorem C240_differences_partial : forall sort lsqr l s zp0 mag0, sorts sort -> near o_id l -> near o_patch l -> length l <> 1%nat ->
  run sort lsqr (new_solver l) = Ok s -> solves sort lsqr least_squares l ->
  (forall o, In o l -> o_mag o = zp0 (o_patch o) + mag0 (o_id o) /\ o_unc o <> 0) ->
  exists r patches stars, return_solution s = Ok (patches, stars) /\ core l r /\
    ((forall o p, In o r -> In p r -> linked r o p) ->
     exists d, (forall k v, In (k, v) patches -> v = zp0 k + d) /\ (forall k v, In (k, v) stars -> v = mag0 k - d)).
Proof.
  intros sort lsqr l s zp0 mag0 HS NI NP L E SV T.
  destruct (run_form sort HS lsqr l s NI NP L E) as [r [c [a [b [zp [mag [C [EC [EB [IP [IS [N1 [N2 [SS [EM [M EX]]]]]]]]]]]]]]]].
  destruct (SV c a b EC EB) as [LX BX]. specialize (EX LX). unfold return_solution. rewrite SS, EX, solution_vec.
  exists r, (map (fun k => (k, zp k)) (c_patches c)), (map (fun k => (k, mag k)) (c_stars c)).
  split; [reflexivity|]. split; [exact C|]. intros K.
  assert (IR : forall o, In o r -> In o l) by (intros o I; destruct C as [C _]; apply (part_in _ _ _ C I)).
  assert (Z : chi2 zp mag r <= 0).
  { rewrite <- M, <- EX. eapply Rle_trans; [apply (BX (map zp0 (c_patches c) ++ map mag0 (c_stars c))); rewrite app_length, !map_length; symmetry; exact EM|].
    rewrite M. unfold chi2. rewrite rsum_zero; [lra|]. intros o I. destruct (T o (IR o I)) as [EO _]. rewrite EO.
    replace (zp0 (o_patch o) + mag0 (o_id o) - (zp0 (o_patch o) + mag0 (o_id o))) with 0 by lra. unfold Rdiv. rewrite Rmult_0_l. lra. }
  assert (Q : forall o, In o r -> zp (o_patch o) + mag (o_id o) = zp0 (o_patch o) + mag0 (o_id o)).
  { intros o I. rewrite <- (chi2_zero zp mag r) by (try assumption; intros p J; apply (T p (IR p J))). apply (T o (IR o I)). }
  destruct r as [|o0 t] eqn:ER.
  - exists 0. split; intros k v I; apply in_map_iff in I; destruct I as [x [X I]]; [apply IP in I|apply IS in I]; destruct I as [o [[] _]].
  - rewrite <- ER in *. assert (I0 : In o0 r) by (rewrite ER; left; reflexivity). exists (zp (o_patch o0) - zp0 (o_patch o0)). split; intros k v I; apply in_map_iff in I; destruct I as [x [X I]]; injection X as <- <-.
    + apply IP in I. destruct I as [o [I <-]]. assert (W := linked_shift r zp mag zp0 mag0 o0 o Q (K o0 o I0 I)). lra.
    + apply IS in I. destruct I as [o [I <-]]. assert (W := linked_shift r zp mag zp0 mag0 o0 o Q (K o0 o I0 I)). assert (V := Q o I). lra.
Qed.
Print Assumptions C240_differences_partial.
(** the solution of least norm has zero points that sum up to the same as the magnitudes, whatever the truth is *)
Theorem C240_balanced : forall sort lsqr l s, sorts sort -> near o_id l -> near o_patch l -> length l <> 1%nat ->
  run sort lsqr (new_solver l) = Ok s -> solves sort lsqr least_norm l ->
  exists patches stars, return_solution s = Ok (patches, stars) /\ rsum (map snd patches) = rsum (map snd stars).
Proof.
  intros sort lsqr l s HS NI NP L E SV.
  destruct (run_form sort HS lsqr l s NI NP L E) as [r [c [a [b [zp [mag [C [EC [EB [IP [IS [N1 [N2 [SS [EM [M EX]]]]]]]]]]]]]]]].
  destruct (SV c a b EC EB) as [[LX BX] NX]. specialize (EX LX). unfold return_solution. rewrite SS, EX, solution_vec.
  exists (map (fun k => (k, zp k)) (c_patches c)), (map (fun k => (k, mag k)) (c_stars c)).
  split; [reflexivity|]. rewrite !map_map. cbn [snd].
  assert (H : forall d, 0 <= 2 * d * (rsum (map zp (c_patches c)) - rsum (map mag (c_stars c))) + INR (length (c_patches c) + length (c_stars c)) * d ^ 2).
  { intros d. specialize (NX (map (fun k => zp k + d) (c_patches c) ++ map (fun k => mag k + - d) (c_stars c))).
    rewrite EX, !norm2_app, !norm2_shift in NX. rewrite plus_INR.
    assert (LS : least_squares a b (map (fun k => zp k + d) (c_patches c) ++ map (fun k => mag k + - d) (c_stars c))).
    { split; [rewrite app_length, !map_length; symmetry; exact EM|]. intros y Y. rewrite M.
      change (fun k => mag k + - d) with (fun k => mag k - d). rewrite chi2_shift, <- M, <- EX. apply BX. exact Y. }
    specialize (NX LS). replace ((- d) ^ 2) with (d ^ 2) in NX by ring. lra. }
  destruct (Nat.eq_dec (length (c_patches c) + length (c_stars c)) 0) as [Z|Z].
  - destruct (c_patches c), (c_stars c); cbn in Z; try lia. reflexivity.
  - assert (X := parabola _ _ H). assert (0 < INR (length (c_patches c) + length (c_stars c))) by (apply lt_0_INR; lia). specialize (X H0). change (rsum (map zp (c_patches c)) = rsum (map mag (c_stars c))). lra.
Qed.
Print Assumptions C240_balanced.

(** two stars of magnitudes 20 and 21 in two patches without zero points *)
Definition four : list obs := [ob 7 30 20; ob 9 50 21; ob 9 30 21; ob 7 50 20].
Definition four_lsqr : matrix -> list R -> list R := fun _ _ => [41/4; 41/4; 39/4; 43/4].
Lemma four_run : forall m n x0 x1 x2 x3 : R, exists s, run sort_by (fun _ _ => [x0; x1; x2; x3]) (new_solver [ob 7 30 m; ob 9 50 n; ob 9 30 n; ob 7 50 m]) = Ok s /\
  return_solution s = Ok ([(30%Z, x0); (50%Z, x1)], [(7%Z, x2); (9%Z, x3)]).
Proof. intros m n x0 x1 x2 x3. eexists. split; [lazy; reflexivity|lazy; reflexivity]. Qed.
Lemma four_solved : solves sort_by four_lsqr least_norm four.
Proof.
  intros c a b EC EB. assert (X : exists c0, clean_data sort_by four = Some c0 /\ c_patches c0 = [30; 50]%Z /\ c_stars c0 = [7; 9]%Z /\
    c_obs c0 = map (renumber (c_patches c0) (c_stars c0)) [ob 7 30 20; ob 7 50 20; ob 9 30 21; ob 9 50 21]).
  { eexists. split; [reflexivity|]. split; [reflexivity|]. split; [reflexivity|]. reflexivity. }
  destruct X as [c0 [E0 [EP [ES EO]]]]. rewrite EC in E0. injection E0 as <-.
  destruct (misfit_chi2 c [ob 7 30 20; ob 7 50 20; ob 9 30 21; ob 9 50 21]) as [a' [b' [EB' [EM [_ M]]]]]; [exact EP|exact ES|exact EO|discriminate|].
  rewrite EB in EB'. injection EB' as <- <-. rewrite EP, ES in EM, M. cbn [length plus] in EM.
  assert (V : forall x0 x1 x2 x3, misfit a b [x0; x1; x2; x3] = (20 - (x0 + x2)) ^ 2 + (20 - (x1 + x2)) ^ 2 + (21 - (x0 + x3)) ^ 2 + (21 - (x1 + x3)) ^ 2).
  { intros x0 x1 x2 x3. specialize (M (fun k => if Z.eqb k 30 then x0 else x1) (fun k => if Z.eqb k 7 then x2 else x3)).
    cbn [map app Z.eqb Pos.eqb] in M. rewrite M. unfold chi2, rsum. cbn [map fold_right ob o_mag o_patch o_id o_unc Z.eqb Pos.eqb]. field. }
  assert (S4 : forall y : list R, length y = m_cols a -> exists x0 x1 x2 x3, y = [x0; x1; x2; x3]).
  { intros y Y. rewrite EM in Y. destruct y as [|x0 [|x1 [|x2 [|x3 [|? ?]]]]]; try discriminate Y. exists x0, x1, x2, x3. reflexivity. }
  unfold four_lsqr. assert (LS : least_squares a b [41/4; 41/4; 39/4; 43/4]).
  { split; [symmetry; exact EM|]. intros y Y. destruct (S4 y Y) as [x0 [x1 [x2 [x3 ->]]]]. rewrite !V.
    assert (G : forall v, 0 <= v ^ 2) by (intros v; rewrite <- Rsqr_pow2; apply Rle_0_sqr).
    assert (A := G (20 - (x0 + x2))). assert (B := G (20 - (x1 + x2))). assert (C := G (21 - (x0 + x3))). assert (D := G (21 - (x1 + x3))). lra. }
  split; [exact LS|]. intros y [Y BY]. destruct (S4 y Y) as [x0 [x1 [x2 [x3 ->]]]]. specialize (BY [41/4; 41/4; 39/4; 43/4] (eq_sym EM)). rewrite !V in BY.
  assert (G : forall v, 0 <= v ^ 2) by (intros v; rewrite <- Rsqr_pow2; apply Rle_0_sqr).
  assert (A := G (20 - (x0 + x2))). assert (B := G (20 - (x1 + x2))). assert (C := G (21 - (x0 + x3))). assert (D := G (21 - (x1 + x3))).
  assert (Z : forall v, v ^ 2 = 0 -> v = 0) by (intros v H; rewrite <- Rsqr_pow2 in H; apply Rsqr_0_uniq; exact H).
  assert (A' : 20 - (x0 + x2) = 0) by (apply Z; lra). assert (B' : 20 - (x1 + x2) = 0) by (apply Z; lra). assert (C' : 21 - (x0 + x3) = 0) by (apply Z; lra).
  assert (E1 : x1 = x0) by lra. assert (E2 : x2 = 20 - x0) by lra. assert (E3 : x3 = 21 - x0) by lra. subst x1 x2 x3.
  unfold norm2, rsum. cbn [map fold_right]. assert (F := G (x0 - 41/4)). lra.
Qed.
Lemma four_near : near o_id four /\ near o_patch four.
Proof.
  split; (intros o p I J; cbn in I, J; destruct I as [<-|[<-|[<-|[<-|[]]]]]; destruct J as [<-|[<-|[<-|[<-|[]]]]]; reflexivity).
Qed.
Example C239_case : sorts sort_by /\ near o_id four /\ near o_patch four /\ length four <> 1%nat /\ solves sort_by four_lsqr least_squares four /\
  exists s, run sort_by four_lsqr (new_solver four) = Ok s /\ return_solution s = Ok ([(30%Z, 41/4); (50%Z, 41/4)], [(7%Z, 39/4); (9%Z, 43/4)]).
Proof.
  split; [exact sort_by_sorts|]. split; [apply four_near|]. split; [apply four_near|]. split; [discriminate|].
  split; [intros c a b EC EB; apply (four_solved c a b EC EB)|]. apply four_run.
Qed.
Example C240_case : (forall o, In o four -> o_mag o = 0 + (if Z.eqb (o_id o) 7 then 20 else 21) /\ o_unc o <> 0) /\ core four four /\ forall o p, In o four -> In p four -> linked four o p.
Proof.
  split; [intros o I; cbn in I; destruct I as [<-|[<-|[<-|[<-|[]]]]]; cbn [ob o_id o_mag o_unc Z.eqb Pos.eqb]; split; lra|].
  split; [apply (C237_case 20) || (split; [apply part_refl|]; split; [|intros q Q _; exact Q]; apply twice_twin; intros o I; cbn in I; destruct I as [<-|[<-|[<-|[<-|[]]]]]; split; reflexivity)|].
  assert (A : forall o, In o four -> linked four o (ob 7 30 20)).
  { assert (I1 : In (ob 7 30 20) four) by (cbn; tauto). assert (I2 : In (ob 7 50 20) four) by (cbn; tauto).
    intros o I. pose proof I as J. cbn in I. destruct I as [<-|[<-|[<-|[<-|[]]]]].
    - apply linked_self. exact J.
    - apply (linked_step _ _ (ob 7 50 20)); [apply (linked_step _ _ (ob 9 50 21)); [apply linked_self; exact J|exact I2|right; reflexivity]|exact I1|left; reflexivity].
    - apply (linked_step _ _ (ob 9 30 21)); [apply linked_self; exact J|exact I1|right; reflexivity].
    - apply (linked_step _ _ (ob 7 50 20)); [apply linked_self; exact J|exact I1|left; reflexivity]. }
  intros o p I J. assert (B := A o I). cbn in J.
  assert (I2 : In (ob 7 50 20) four) by (cbn; tauto). assert (I3 : In (ob 9 30 21) four) by (cbn; tauto). assert (I4 : In (ob 9 50 21) four) by (cbn; tauto).
  destruct J as [<-|[<-|[<-|[<-|[]]]]].
  - exact B.
  - apply (linked_step _ _ (ob 9 30 21)); [apply (linked_step _ _ (ob 7 30 20)); [exact B|exact I3|right; reflexivity]|exact I4|left; reflexivity].
  - apply (linked_step _ _ (ob 7 30 20)); [exact B|exact I3|right; reflexivity].
  - apply (linked_step _ _ (ob 7 30 20)); [exact B|exact I2|left; reflexivity].
Qed.
(** perfect observations without zero points: the solution of least norm moves half of the magnitudes into the zero points *)
Theorem C240_absolute_refuted : sorts sort_by /\ solves sort_by four_lsqr least_norm four /\ (forall o, In o four -> o_mag o = 0 + (if Z.eqb (o_id o) 7 then 20 else 21)) /\
  exists s patches stars, run sort_by four_lsqr (new_solver four) = Ok s /\ return_solution s = Ok (patches, stars) /\
    In (7%Z, 39/4) stars /\ forall k v, In (k, v) patches -> v = 41/4.
Proof.
  split; [exact sort_by_sorts|]. split; [exact four_solved|].
  split; [intros o I; cbn in I; destruct I as [<-|[<-|[<-|[<-|[]]]]]; cbn [ob o_id o_mag Z.eqb Pos.eqb]; lra|].
  destruct (four_run 20 21 (41/4) (41/4) (39/4) (43/4)) as [s [E1 E2]].
  exists s. eexists. eexists. split; [exact E1|]. split; [exact E2|]. split; [left; reflexivity|].
  intros k v I. unfold In in I. destruct I as [E|[E|[]]]; injection E; intros; congruence.
Qed.
Print Assumptions C240_absolute_refuted.

(** * C241: run fails exactly if nothing is left *)
Theorem C241_succeeds_partial : forall sort lsqr l r, sorts sort -> near o_id l -> near o_patch l -> length l <> 1%nat -> core l r ->
  (r = [] -> run sort lsqr (new_solver l) = Err ValueError) /\ (r <> [] -> exists s, run sort lsqr (new_solver l) = Ok s).
Proof.
  intros sort lsqr l r HS NI NP L C. destruct (cleaned_facts sort HS l NI NP L) as [r0 [r' [c [EC [C0 [P [EP [ES EO]]]]]]]].
  assert (Q := core_unique l r r0 C C0). unfold run. cbn [new_solver s_obs]. rewrite EC. split; intros H.
  - subst r. apply Permutation_nil in Q. subst r0. apply Permutation_sym, Permutation_nil in P. subst r'.
    unfold build_matrix. rewrite EO. reflexivity.
  - assert (N : r' <> []). { intros ->. apply Permutation_nil in P. subst r0. apply Permutation_sym, Permutation_nil in Q. contradiction. }
    destruct (misfit_chi2 c r' EP ES EO N) as [a [b [EB _]]]. rewrite EB. cbn [bind]. eexists. reflexivity.
Qed.
Print Assumptions C241_succeeds_partial.
Example C241_case : sorts sort_by /\ near o_id four /\ near o_patch four /\ length four <> 1%nat /\ core four four.
Proof. split; [exact sort_by_sorts|]. split; [apply four_near|]. split; [apply four_near|]. split; [discriminate|]. apply C240_case. Qed.
(** observations of which nothing is left *)
Theorem C241_empty_refuted : forall lsqr m, run sort_by lsqr (new_solver [ob 7 30 m; ob 9 50 m]) = Err ValueError.
Proof. intros lsqr m. reflexivity. Qed.
Print Assumptions C241_empty_refuted.

(** * C242: the caller's observations *)
Theorem C242_values_partial : forall sort l, sorts sort -> Permutation (caller_array sort l) l.
Proof. intros sort l HS. apply sort_perm. exact HS. Qed.
Print Assumptions C242_values_partial.
Theorem C242_order_refuted : forall sort m n, sorts sort -> caller_array sort [ob 9 30 m; ob 7 30 n] <> [ob 9 30 m; ob 7 30 n].
Proof.
  intros sort m n HS E. assert (X := sort_sorted sort HS o_id [ob 9 30 m; ob 7 30 n]). change (sort o_id) with (caller_array sort) in X. rewrite E in X.
  inversion X as [|? ? _ F]. rewrite Forall_forall in F. specialize (F (ob 7 30 n) (or_introl eq_refl)). cbn in F. lia.
Qed.
Print Assumptions C242_order_refuted.
(** a second run raises *)
Theorem C242_again_refuted : forall sort lsqr l s, run sort lsqr (new_solver l) = Ok s -> run sort lsqr s = Err AttributeError.
Proof.
  intros sort lsqr l s E. unfold run in E at 1. cbn [new_solver s_obs] in E. destruct (clean_data sort l) as [c|]; [|discriminate E].
  destruct (build_matrix c) as [p|]; cbn [bind] in E; [|discriminate E]. injection E as <-. reflexivity.
Qed.
Print Assumptions C242_again_refuted.
Example C242_case : exists s, run sort_by four_lsqr (new_solver four) = Ok s.
Proof. destruct (four_run 20 21 (41/4) (41/4) (39/4) (43/4)) as [s [E1 _]]. exists s. exact E1. Qed.
