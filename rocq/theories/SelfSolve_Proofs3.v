(** Proofs: run, the optimum, what is determined. *)
From Coq Require Import Reals Permutation Sorted Lia Lra Psatz.
From Verif Require Import Base Technical_Model Technical_Proofs3 SelfSolve_Model SelfSolve_Spec SelfSolve_Proofs SelfSolve_Proofs2.
Open Scope Z_scope.

Lemma insert_by_perm : forall key o l, Permutation (insert_by key o l) (o :: l).
Proof.
  intros key o l. induction l as [|p t IH]; [apply Permutation_refl|]. cbn [insert_by]. destruct (key o <=? key p); [apply Permutation_refl|].
  eapply Permutation_trans; [apply perm_skip; exact IH|apply perm_swap].
Qed.
Lemma insert_by_sorted : forall key o l, StronglySorted (fun a b => key a <= key b) l -> StronglySorted (fun a b => key a <= key b) (insert_by key o l).
Proof.
  intros key o l S. induction S as [|p t S IH F]; [repeat constructor|]. cbn [insert_by]. destruct (Z.leb_spec (key o) (key p)) as [L|L].
  - constructor; [constructor; assumption|]. constructor; [exact L|]. rewrite Forall_forall in *. intros q I. specialize (F q I). lia.
  - constructor; [exact IH|]. rewrite Forall_forall in *. intros q I. apply (Permutation_in q (insert_by_perm key o t)) in I. destruct I as [<-|I]; [lia|apply F; exact I].
Qed.
Lemma sort_by_sorts : sorts sort_by.
Proof.
  intros key l. induction l as [|o t [IP IS]]; [split; [constructor|constructor]|]. cbn [sort_by fold_right]. split.
  - eapply Permutation_trans; [apply insert_by_perm|]. apply perm_skip. exact IP.
  - apply insert_by_sorted. exact IS.
Qed.

Section Run.
  Context (sort : (obs -> Z) -> list obs -> list obs) (HS : sorts sort).
  Lemma cleaned_facts : forall l, near o_id l -> near o_patch l -> length l <> 1%nat ->
    exists r r' c, clean_data sort l = Some c /\ core l r /\ Permutation r' r /\
      c_patches c = unique_z (map o_patch r') /\ c_stars c = unique_z (map o_id r') /\
      c_obs c = map (renumber (c_patches c) (c_stars c)) r'.
  Proof.
    intros l NI NP L. destruct (loop_core sort HS (S (length l)) l (Nat.lt_succ_diag_r _) NI NP L) as [r [E C]].
    destruct (clean_form sort l r HS E) as [r' [c [E1 [P [EP [ES EO]]]]]].
    exists r, r', c. repeat (split; [assumption|]).
    assert (U : forall key, unique_z (map key r) = unique_z (map key r')).
    { intros key. apply unique_ext. intros x. split; apply Permutation_in; apply Permutation_map; [apply Permutation_sym|]; exact P. }
    split; [rewrite EP; apply U|]. split; [rewrite ES; apply U|exact EO].
  Qed.
  Lemma renumber_right : forall r' ps ss, ps = unique_z (map o_patch r') -> ss = unique_z (map o_id r') ->
    Forall2 (fun o q => 0 <= o_patch q /\ 1 <= o_id q /\ nth_error ps (Z.to_nat (o_patch q)) = Some (o_patch o) /\
      nth_error ss (Z.to_nat (o_id q - 1)) = Some (o_id o) /\ o_mag q = o_mag o /\ o_unc q = o_unc o) r' (map (renumber ps ss) r').
  Proof.
    intros r' ps ss EP ES.
    assert (G : forall w, (forall o, In o w -> In o r') ->
      Forall2 (fun o q => 0 <= o_patch q /\ 1 <= o_id q /\ nth_error ps (Z.to_nat (o_patch q)) = Some (o_patch o) /\
      nth_error ss (Z.to_nat (o_id q - 1)) = Some (o_id o) /\ o_mag q = o_mag o /\ o_unc q = o_unc o) w (map (renumber ps ss) w));
    [|apply G; intros o I; exact I].
    induction w as [|o t IH]; intros H; [constructor|]. cbn [map]. constructor; [|apply IH; intros p I; apply H; right; exact I].
    cbn [renumber o_patch o_id o_mag o_unc]. assert (I := H o (or_introl eq_refl)).
    assert (JP : In (o_patch o) ps) by (rewrite EP; apply unique_z_in, in_map; exact I).
    assert (JS : In (o_id o) ss) by (rewrite ES; apply unique_z_in, in_map; exact I).
    split; [lia|]. split; [lia|]. rewrite Nat2Z.id.
    replace (Z.to_nat (1 + Z.of_nat (index (o_id o) ss) - 1)) with (index (o_id o) ss) by lia.
    split; [rewrite (nth_error_nth' _ 0) by (apply index_lt; exact JP); rewrite index_nth by exact JP; reflexivity|].
    split; [rewrite (nth_error_nth' _ 0) by (apply index_lt; exact JS); rewrite index_nth by exact JS; reflexivity|]. split; reflexivity.
  Qed.
  Lemma core_unique_length : forall l r s, core l r -> core l s -> length r = length s.
  Proof.
    intros l r s [R1 [R2 R3]] [S1 [S2 S3]]. destruct (R3 s S1 S2) as [u P]. destruct (S3 r R1 R2) as [v Q].
    apply Permutation_length in P, Q. rewrite app_length in P, Q. lia.
  Qed.
  Lemma core_unique : forall l r s, core l r -> core l s -> Permutation r s.
  Proof.
    intros l r s C D. assert (L := core_unique_length l r s C D). destruct C as [R1 [R2 R3]], D as [S1 [S2 S3]].
    destruct (R3 s S1 S2) as [u P]. assert (X := Permutation_length P). rewrite app_length in X. destruct u; [|cbn in X; lia]. rewrite app_nil_r in P. exact P.
  Qed.
  Open Scope R_scope.
  Lemma split_vector : forall (ps ss : list Z) (y : list R), length y = (length ps + length ss)%nat -> NoDup ps -> NoDup ss ->
    exists zp mag, y = map zp ps ++ map mag ss.
  Proof.
    intros ps ss y L NP NS.
    assert (G : forall (u : list Z) (w : list R), length w = length u -> NoDup u -> exists f, w = map f u).
    { clear. induction u as [|x u IH]; intros w L N; [destruct w; [exists (fun _ => 0); reflexivity|discriminate]|].
      destruct w as [|v w]; [discriminate|]. inversion N as [|? ? N1 N2]; subst. destruct (IH w) as [f E]; [cbn in L; lia|exact N2|].
      exists (fun z => if Z.eq_dec z x then v else f z). cbn [map]. destruct (Z.eq_dec x x) as [_|D]; [|destruct D; reflexivity]. f_equal.
      rewrite E. apply map_ext_in. intros z I. destruct (Z.eq_dec z x) as [->|_]; [contradiction|reflexivity]. }
    destruct (G ps (firstn (length ps) y)) as [zp E1]; [rewrite firstn_length; lia|exact NP|].
    destruct (G ss (skipn (length ps) y)) as [mag E2]; [rewrite skipn_length; lia|exact NS|].
    exists zp, mag. rewrite <- E1, <- E2. symmetry. apply firstn_skipn.
  Qed.
  Lemma solution_vec : forall c zp mag, solution_of c (map zp (c_patches c) ++ map mag (c_stars c)) =
    (map (fun k => (k, zp k)) (c_patches c), map (fun k => (k, mag k)) (c_stars c)).
  Proof.
    intros c zp mag. unfold solution_of.
    replace (firstn (length (c_patches c)) (map zp (c_patches c) ++ map mag (c_stars c))) with (map zp (c_patches c)).
    2:{ rewrite <- (map_length zp (c_patches c)), firstn_app, Nat.sub_diag, firstn_all. cbn [firstn]. rewrite app_nil_r. reflexivity. }
    replace (skipn (length (c_patches c)) (map zp (c_patches c) ++ map mag (c_stars c))) with (map mag (c_stars c)).
    2:{ rewrite <- (map_length zp (c_patches c)), skipn_app, Nat.sub_diag, skipn_all. reflexivity. }
    f_equal.
    - rewrite <- (map_id (c_patches c)) at 1. apply combine_map2.
    - rewrite <- (map_id (c_stars c)) at 1. apply combine_map2.
  Qed.
  Lemma chi2_ext : forall zp mag zp' mag' r, (forall o, In o r -> zp (o_patch o) = zp' (o_patch o) /\ mag (o_id o) = mag' (o_id o)) ->
    chi2 zp mag r = chi2 zp' mag' r.
  Proof.
    intros zp mag zp' mag' r H. unfold chi2. f_equal. apply map_ext_in. intros o I. destruct (H o I) as [-> ->]. reflexivity.
  Qed.
  (** what run leaves, if lsqr solves the problem that it is given *)
  Lemma run_form : forall lsqr l s, near o_id l -> near o_patch l -> length l <> 1%nat -> run sort lsqr (new_solver l) = Ok s ->
    exists r c a b zp0 mag0, core l r /\ clean_data sort l = Some c /\ build_matrix c = Ok (a, b) /\
      (forall k, In k (c_patches c) <-> exists o, In o r /\ o_patch o = k) /\ (forall k, In k (c_stars c) <-> exists o, In o r /\ o_id o = k) /\
      NoDup (c_patches c) /\ NoDup (c_stars c) /\ s_solution s = Some (c, lsqr a b) /\
      m_cols a = (length (c_patches c) + length (c_stars c))%nat /\
      (forall zp mag, misfit a b (map zp (c_patches c) ++ map mag (c_stars c)) = chi2 zp mag r) /\
      (length (lsqr a b) = m_cols a -> lsqr a b = map zp0 (c_patches c) ++ map mag0 (c_stars c)).
  Proof.
    intros lsqr l s NI NP L E. destruct (cleaned_facts l NI NP L) as [r [r' [c [EC [C [P [EP [ES EO]]]]]]]].
    unfold run in E. cbn [new_solver s_obs] in E. rewrite EC in E.
    destruct r' as [|o0 t] eqn:ER.
    { unfold build_matrix in E. rewrite EO in E. cbn [map length maximum bind] in E. discriminate E. }
    assert (N : r' <> []) by (rewrite ER; discriminate). rewrite <- ER in *.
    destruct (misfit_chi2 c r' EP ES EO N) as [a [b [EB [EM [_ M]]]]]. rewrite EB in E. cbn [bind fst snd] in E. injection E as <-.
    assert (IP : forall key k, In k (unique_z (map key r')) <-> exists o, In o r /\ key o = k).
    { intros key k. rewrite unique_z_in, in_map_iff. split; intros [o [A B]].
      - exists o. split; [apply (Permutation_in o P); exact B|exact A].
      - exists o. split; [exact B|apply (Permutation_in o (Permutation_sym P)); exact A]. }
    assert (N1 : NoDup (c_patches c)) by (rewrite EP; apply sorted_lt_nodup, unique_z_sorted).
    assert (N2 : NoDup (c_stars c)) by (rewrite ES; apply sorted_lt_nodup, unique_z_sorted).
    destruct (Nat.eq_dec (length (lsqr a b)) (m_cols a)) as [LX|LX].
    - destruct (split_vector (c_patches c) (c_stars c) (lsqr a b)) as [zp0 [mag0 EX]]; [rewrite LX; exact EM|exact N1|exact N2|].
      exists r, c, a, b, zp0, mag0. split; [exact C|]. split; [exact EC|]. split; [exact EB|]. split; [intros k; rewrite EP; apply IP|]. split; [intros k; rewrite ES; apply IP|].
      split; [exact N1|]. split; [exact N2|]. split; [reflexivity|]. split; [exact EM|]. split; [|intros _; exact EX].
      intros zp mag. rewrite M. apply chi2_perm. exact P.
    - exists r, c, a, b, (fun _ => 0), (fun _ => 0). split; [exact C|]. split; [exact EC|]. split; [exact EB|]. split; [intros k; rewrite EP; apply IP|]. split; [intros k; rewrite ES; apply IP|].
      split; [exact N1|]. split; [exact N2|]. split; [reflexivity|]. split; [exact EM|]. split; [|intros X; contradiction].
      intros zp mag. rewrite M. apply chi2_perm. exact P.
  Qed.
  Lemma chi2_zero : forall zp mag r, (forall o, In o r -> o_unc o <> 0) -> chi2 zp mag r <= 0 ->
    forall o, In o r -> o_mag o = zp (o_patch o) + mag (o_id o).
  Proof.
    intros zp mag r U. unfold chi2. induction r as [|p t IH]; intros H o I; [destruct I|]. unfold rsum in *. cbn [map fold_right] in H.
    assert (A : 0 <= ((o_mag p - (zp (o_patch p) + mag (o_id p))) / o_unc p) ^ 2) by (rewrite <- Rsqr_pow2; apply Rle_0_sqr).
    assert (B : 0 <= fold_right Rplus 0 (map (fun o => ((o_mag o - (zp (o_patch o) + mag (o_id o))) / o_unc o) ^ 2) t)).
    { clear. induction t as [|q t IH]; [cbn; lra|]. cbn [map fold_right].
      assert (A : 0 <= ((o_mag q - (zp (o_patch q) + mag (o_id q))) / o_unc q) ^ 2) by (rewrite <- Rsqr_pow2; apply Rle_0_sqr). lra. }
    destruct I as [<-|I].
    - assert (Z : ((o_mag p - (zp (o_patch p) + mag (o_id p))) / o_unc p) ^ 2 = 0) by lra.
      assert (Y : (o_mag p - (zp (o_patch p) + mag (o_id p))) / o_unc p = 0).
      { rewrite <- Rsqr_pow2 in Z. apply Rsqr_0_uniq. exact Z. }
      assert (UP := U p (or_introl eq_refl)). assert (W : o_mag p - (zp (o_patch p) + mag (o_id p)) = (o_mag p - (zp (o_patch p) + mag (o_id p))) / o_unc p * o_unc p) by (field; exact UP).
      rewrite Y in W. lra.
    - apply IH; [intros q J; apply U; right; exact J|lra|exact I].
  Qed.
  Lemma linked_in : forall l o p, linked l o p -> In o l /\ In p l.
  Proof. intros l o p H. induction H as [o I|o p q H [A B] I S]; split; assumption. Qed.
  Lemma linked_shift : forall r zp mag zp0 mag0 o p, (forall q, In q r -> zp (o_patch q) + mag (o_id q) = zp0 (o_patch q) + mag0 (o_id q)) ->
    linked r o p -> zp (o_patch p) - zp0 (o_patch p) = zp (o_patch o) - zp0 (o_patch o).
  Proof.
    intros r zp mag zp0 mag0 o p H K. induction K as [o I|o p q K IH I S]; [reflexivity|]. destruct S as [S|S]; [|rewrite <- S; exact IH].
    destruct (linked_in _ _ _ K) as [_ J]. assert (A := H p J). assert (B := H q I). rewrite <- S in B. lra.
  Qed.
  (** a constant may be moved from the zero points to the magnitudes *)
  Lemma chi2_shift : forall zp mag r d, chi2 (fun k => zp k + d) (fun k => mag k - d) r = chi2 zp mag r.
  Proof. intros zp mag r d. unfold chi2. f_equal. apply map_ext. intros o. f_equal. f_equal. lra. Qed.
  Lemma norm2_app : forall u v, norm2 (u ++ v) = norm2 u + norm2 v.
  Proof. intros u v. unfold norm2. rewrite map_app. apply rsum_app. Qed.
  Lemma norm2_shift : forall (f : Z -> R) u d, norm2 (map (fun k => f k + d) u) = norm2 (map f u) + 2 * d * rsum (map f u) + INR (length u) * d ^ 2.
  Proof.
    intros f u d. unfold norm2, rsum. induction u as [|x t IH]; [cbn; lra|]. cbn [map fold_right]. rewrite IH. change (length (x :: t)) with (S (length t)). rewrite S_INR. lra.
  Qed.
  Lemma parabola : forall a b, (forall d, 0 <= 2 * d * a + b * d ^ 2) -> 0 < b -> a = 0.
  Proof.
    intros a b H B. specialize (H (- a / b)). assert (E : 2 * (- a / b) * a + b * (- a / b) ^ 2 = - (a * a / b)) by (field; lra).
    rewrite E in H. assert (X : 0 <= a * a / b).
    { apply Rmult_le_pos; [apply Rle_0_sqr|]. left. apply Rinv_0_lt_compat. exact B. }
    assert (W : a * a = a * a / b * b) by (field; lra).
    assert (Y : a * a / b = 0) by lra. rewrite Y in W. apply Rsqr_0_uniq. unfold Rsqr. lra.
  Qed.
End Run.
