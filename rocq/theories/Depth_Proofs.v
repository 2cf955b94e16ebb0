(** Lemmas about depth. *)
From Verif Require Import Base Slicer_Model GapMetrics_Model GapMetrics_Spec GapMetrics_Proofs.
From Verif Require Import Vector_Model Vector_Spec Vector_Proofs Depth_Model Depth_Spec.
From Coq Require Import Reals Lra Permutation Lia Sorted.
Open Scope R_scope.

Lemma ln10_pos : 0 < ln 10.
Proof. rewrite <- ln_1. apply ln_increasing; lra. Qed.
Lemma flux_pos m : 0 < flux m.
Proof. apply exp_pos. Qed.
Lemma log10_flux m : 5/4 * log10 (flux m) = m.
Proof. unfold log10, flux, Rpower. rewrite ln_exp. pose proof ln10_pos. field. lra. Qed.
Lemma flux_log10 x : 0 < x -> flux (5/4 * log10 x) = x.
Proof.
  intros H. unfold flux, log10, Rpower. replace (4/5 * (5/4 * (ln x / ln 10)) * ln 10) with (ln x).
  - apply exp_ln; auto.
  - pose proof ln10_pos. field. lra.
Qed.
Lemma log10_le x y : 0 < x -> x <= y -> log10 x <= log10 y.
Proof.
  intros Hx Hxy. unfold log10. apply Rmult_le_compat_r; [left; apply Rinv_0_lt_compat, ln10_pos|].
  destruct Hxy as [Hxy| ->]; [left; apply ln_increasing; auto|lra].
Qed.
Lemma log10_lt x y : 0 < x -> x < y -> log10 x < log10 y.
Proof. intros Hx Hxy. unfold log10. apply Rmult_lt_compat_r; [apply Rinv_0_lt_compat, ln10_pos|]. apply ln_increasing; auto. Qed.
Lemma log10_mult x y : 0 < x -> 0 < y -> log10 (x * y) = log10 x + log10 y.
Proof. intros. unfold log10. rewrite ln_mult; auto. pose proof ln10_pos. field. lra. Qed.
Lemma flux_lt a b : a < b -> flux a < flux b.
Proof. intros H. unfold flux. apply Rpower_lt; lra. Qed.
Lemma flux_inj a b : flux a = flux b -> a = b.
Proof. intros H. destruct (Rtotal_order a b) as [L|[E|L]]; auto; apply flux_lt in L; lra. Qed.

Lemma rsum_app a b : rsum (a ++ b) = rsum a + rsum b.
Proof. unfold rsum. induction a as [|x t IH]; simpl; [lra|]. rewrite IH. lra. Qed.
Lemma rsum_perm a b : Permutation a b -> rsum a = rsum b.
Proof. unfold rsum. induction 1; simpl; lra. Qed.
Lemma flux_sum_nonneg ms : 0 <= rsum (map flux ms).
Proof. unfold rsum. induction ms as [|m t IH]; simpl; [lra|]. pose proof (flux_pos m). lra. Qed.
Lemma flux_sum_pos ms : ms <> [] -> 0 < rsum (map flux ms).
Proof. destruct ms as [|m t]; [congruence|]. intros _. unfold rsum. simpl. fold (rsum (map flux t)). pose proof (flux_pos m). pose proof (flux_sum_nonneg t). lra. Qed.
Lemma flux_sum_In ms m : In m ms -> flux m <= rsum (map flux ms).
Proof.
  induction ms as [|x t IH]; intros []; unfold rsum; simpl; fold (rsum (map flux t)).
  - subst. pose proof (flux_sum_nonneg t). lra.
  - pose proof (flux_pos x). specialize (IH H). lra.
Qed.

Lemma coadd_val ms : ms <> [] -> coadd ms = Val (5/4 * log10 (rsum (map flux ms))).
Proof. destruct ms; [congruence|reflexivity]. Qed.
Lemma coadd_Val_inv ms c : coadd ms = Val c <-> ms <> [] /\ same_flux c ms.
Proof.
  unfold same_flux. fold (flux c). change (fold_right Rplus 0 (map (fun m => Rpower 10 (4/5 * m)) ms)) with (rsum (map flux ms)). split.
  - intros H. destruct ms as [|m t]; [discriminate|]. split; [discriminate|].
    rewrite coadd_val in H by discriminate. injection H as <-. apply flux_log10, flux_sum_pos. discriminate.
  - intros [Hne H]. rewrite coadd_val by auto. f_equal. rewrite <- H. apply log10_flux.
Qed.

Lemma coadd_perm a b : Permutation a b -> coadd a = coadd b.
Proof.
  intros H. destruct a as [|x t].
  - apply Permutation_nil in H. subst. reflexivity.
  - assert (b <> []) as Hb by (intros ->; apply Permutation_sym, Permutation_nil in H; discriminate).
    rewrite !coadd_val by (auto; discriminate). f_equal. f_equal. f_equal. apply rsum_perm, Permutation_map; auto.
Qed.
Lemma coadd_single m : coadd [m] = Val m.
Proof. rewrite coadd_val by discriminate. f_equal. simpl. unfold rsum. simpl. rewrite Rplus_0_r. apply log10_flux. Qed.
Lemma coadd_add ms m a b : coadd ms = Val a -> coadd (m :: ms) = Val b -> a < b /\ m < b.
Proof.
  intros Ha Hb. destruct ms as [|x t]; [discriminate|]. rewrite coadd_val in Ha, Hb by discriminate.
  assert (a = 5/4 * log10 (rsum (map flux (x :: t)))) as -> by congruence.
  assert (b = 5/4 * log10 (rsum (map flux (m :: x :: t)))) as -> by congruence.
  assert (rsum (map flux (m :: x :: t)) = flux m + rsum (map flux (x :: t))) as E by reflexivity. rewrite E.
  pose proof (flux_pos m). pose proof (flux_sum_pos (x :: t) ltac:(discriminate)).
  split.
  - apply Rmult_lt_compat_l; [lra|]. apply log10_lt; lra.
  - rewrite <- (log10_flux m) at 1. apply Rmult_lt_compat_l; [lra|]. apply log10_lt; lra.
Qed.
Lemma coadd_deepest ms m c : In m ms -> coadd ms = Val c -> m <= c.
Proof.
  intros Hin Hc. rewrite coadd_val in Hc by (intros ->; destruct Hin). injection Hc as <-.
  rewrite <- (log10_flux m) at 1. apply Rmult_le_compat_l; [lra|]. apply log10_le; [apply flux_pos|apply flux_sum_In; auto].
Qed.
Lemma rsum_repeat x n : rsum (repeat x n) = INR n * x.
Proof. unfold rsum. induction n as [|n IH]; [simpl; lra|]. cbn [repeat fold_right]. rewrite IH, S_INR. lra. Qed.
Lemma map_repeat {A B} (f : A -> B) x n : map f (repeat x n) = repeat (f x) n.
Proof. induction n; simpl; congruence. Qed.
Lemma coadd_repeat m n : (0 < n)%nat -> coadd (repeat m n) = Val (m + 5/4 * log10 (INR n)).
Proof.
  intros Hn. rewrite coadd_val by (destruct n; [lia|discriminate]). f_equal. rewrite map_repeat, rsum_repeat.
  rewrite log10_mult; [|apply lt_0_INR; auto|apply flux_pos]. rewrite Rmult_plus_distr_l, log10_flux. lra.
Qed.
Lemma coadd_app a b x y : coadd a = Val x -> coadd b = Val y -> coadd (a ++ b) = coadd [x; y].
Proof.
  intros Ha Hb. apply coadd_Val_inv in Ha as [Na Ha], Hb as [Nb Hb]. rewrite !coadd_val; try discriminate; [|destruct a; [congruence|discriminate]].
  f_equal. f_equal. f_equal. rewrite map_app, rsum_app. unfold same_flux in *. fold (flux x) in Ha. fold (flux y) in Hb.
  assert (rsum (map flux [x; y]) = flux x + flux y) as -> by (unfold rsum; simpl; lra).
  rewrite Ha, Hb. reflexivity.
Qed.

Lemma calc_depth1 n d : (0 < n)%nat -> coadd (repeat d n) = Val (calc_coadded_depth1 n d).
Proof.
  intros Hn. rewrite coadd_val by (destruct n; [lia|discriminate]). f_equal. rewrite map_repeat, rsum_repeat.
  destruct n; [lia|reflexivity].
Qed.
Lemma calc_depth_spec nv single r : calc_coadded_depth nv single = Ok r ->
  map fst r = map fst nv /\
  forall k f n, nth_error nv k = Some (f, n) -> exists d, dget String.eqb single f = Some d /\
    nth_error r k = Some (f, calc_coadded_depth1 n d).
Proof.
  revert r. induction nv as [|[f n] t IH]; intros r H; simpl in H.
  - inversion H; subst. split; auto. intros [|k] f n Hk; discriminate.
  - destruct (dget String.eqb single f) as [d|] eqn:Ed; [|discriminate].
    destruct (calc_coadded_depth t single) as [r'|] eqn:Er; [|discriminate]. cbn [bind] in H. inversion H; subst.
    destruct (IH r' eq_refl) as [H1 H2]. split; [simpl; congruence|].
    intros [|k] f' n' Hk; [inversion Hk; subst; exists d; auto|]. apply (H2 k); auto.
Qed.
Lemma calc_depth_err nv single : (exists f, In f (map fst nv) /\ dget String.eqb single f = None) ->
  calc_coadded_depth nv single = Err ValueError.
Proof.
  induction nv as [|[f n] t IH]; intros (g & Hin & Hg); [destruct Hin|]. simpl in *.
  destruct Hin as [-> | Hin]; [rewrite Hg; auto|]. destruct (dget String.eqb single f); auto.
  rewrite IH; eauto.
Qed.

(** effective exposure time *)
Lemma teff_flux base fid m : compute_teff base fid m = base / flux fid * flux m.
Proof.
  unfold compute_teff, flux. replace (4/5 * (m - fid)) with (4/5 * m + - (4/5 * fid)) by lra.
  rewrite Rpower_plus, Rpower_Ropp. unfold Rdiv. lra.
Qed.
Lemma teff_sum base fid ms c : coadd ms = Val c -> rsum (map (compute_teff base fid) ms) = compute_teff base fid c.
Proof.
  intros H. apply coadd_Val_inv in H as [_ H]. unfold same_flux in H. fold (flux c) in H.
  rewrite teff_flux, H. change (fun m => Rpower 10 (4/5 * m)) with flux. fold (rsum (map flux ms)).
  induction ms as [|m t IH]; [unfold rsum; simpl; lra|].
  unfold rsum in *. simpl. rewrite teff_flux. 
  assert (fold_right Rplus 0 (map (compute_teff base fid) t) = base / flux fid * fold_right Rplus 0 (map flux t)) as ->; [|lra].
  clear. induction t as [|m t IH]; simpl; [lra|]. rewrite IH, teff_flux. lra.
Qed.

Lemma optimal_spec med m5 opt r : optimal_m5_run med m5 opt = Some r ->
  rsum (map flux m5) + r * flux med = rsum (map flux opt).
Proof.
  unfold optimal_m5_run. destruct m5 as [|a t]; [discriminate|]. destruct opt as [|b u]; [destruct (coadd (a :: t)); discriminate|].
  rewrite !coadd_val by discriminate. intros H. apply (f_equal (fun o => match o with Some x => x | None => 0 end)) in H. rewrite <- H.
  pose proof (flux_sum_pos (a :: t) ltac:(discriminate)). pose proof (flux_sum_pos (b :: u) ltac:(discriminate)).
  rewrite !flux_log10 by auto. pose proof (flux_pos med). field. lra.
Qed.
Lemma optimal_visits med m5 opt k : optimal_m5_run med m5 opt = Some (INR k) -> coadd (m5 ++ repeat med k) = coadd opt.
Proof.
  intros H. pose proof (optimal_spec _ _ _ _ H) as E. unfold optimal_m5_run in H.
  destruct m5 as [|a t]; [discriminate|]. destruct opt as [|b u]; [destruct (coadd (a :: t)); discriminate|].
  rewrite !coadd_val by discriminate. f_equal. f_equal. f_equal.
  rewrite map_app, rsum_app, map_repeat, rsum_repeat. exact E.
Qed.
Lemma optimal_nonneg med m5 opt r : length m5 = length opt ->
  (forall i a b, nth_error m5 i = Some a -> nth_error opt i = Some b -> a <= b) ->
  optimal_m5_run med m5 opt = Some r -> 0 <= r.
Proof.
  intros Hl Hle H. apply optimal_spec in H. pose proof (flux_pos med) as Hp.
  assert (rsum (map flux m5) <= rsum (map flux opt)) as Hs.
  { clear H. revert opt Hl Hle. induction m5 as [|a t IH]; intros [|b u] Hl Hle; simpl in Hl; try discriminate; [lra|].
    unfold rsum. simpl. fold (rsum (map flux t)). fold (rsum (map flux u)).
    specialize (Hle 0%nat a b eq_refl eq_refl) as Hab.
    assert (rsum (map flux t) <= rsum (map flux u)) by (apply IH; [lia|]; intros i x y Hx Hy; apply (Hle (S i)); auto).
    destruct Hab as [Hab| ->]; [apply flux_lt in Hab|]; lra. }
  assert (0 <= r * flux med) by lra. destruct (Rle_lt_dec 0 r); auto.
  assert (r * flux med < 0) by (rewrite <- (Rmult_0_l (flux med)); apply Rmult_lt_compat_r; auto). lra.
Qed.

(** accumulated depth *)
Lemma fold_left_rsum l a : fold_left Rplus l a = a + rsum l.
Proof. unfold rsum. revert a. induction l as [|h t IH]; intros a; simpl; [lra|]. rewrite IH. lra. Qed.
Lemma acc_m5_law bins data r : (2 <= length data)%nat -> StronglySorted Z.le (map fst data) ->
  accumulate_m5_run bins data = Ok r ->
  length r = (length bins - 1)%nat /\
  forall k e, nth_error bins (S k) = Some e ->
    match upto e data with
    | [] => nth_error r k = Some None
    | u => exists c, nth_error r k = Some (Some c) /\ coadd (firstn (S (length u)) (map snd data)) = Val c
    end.
Proof.
  intros Hlen Hs H. unfold accumulate_m5_run in H.
  set (fd := map (fun v => (fst v, flux (snd v))) data) in *.
  assert (map fst fd = map fst data) as Ef by (unfold fd; rewrite map_map; reflexivity).
  assert (map snd fd = map flux (map snd data)) as Es by (unfold fd; rewrite !map_map; reflexivity).
  destruct (accumulate_run Rplus bins fd) as [r0|] eqn:E; [|discriminate]. cbn [bind] in H.
  assert (r = map (option_map (fun f => 5/4 * log10 f)) r0) as -> by congruence. clear H.
  apply accumulate_law in E as [H1 H2]; [|unfold fd; rewrite map_length; auto|rewrite Ef; auto].
  split; [rewrite map_length; auto|]. intros k e Hk. specialize (H2 k e Hk).
  assert (length (upto e fd) = length (upto e data)) as Hu.
  { unfold upto, fd. clear. induction data as [|v t IH]; auto. simpl. destruct (fst v <=? e)%Z; simpl; congruence. }
  rewrite nth_error_map, H2. cbn [option_map]. clear H2.
  destruct (upto e fd) as [|u0 u]; destruct (upto e data) as [|w0 w]; try discriminate; auto.
  rewrite Hu, Es. rewrite firstn_map.
  destruct data as [|v0 data]; [simpl in Hlen; lia|].
  cbn [map]. rewrite firstn_cons. cbn [map fold1]. eexists. split; [reflexivity|].
  rewrite coadd_val by discriminate. f_equal. f_equal. f_equal. rewrite fold_left_rsum. reflexivity.
Qed.

Lemma hist_m5 bins data k : nth_error (histogram_m5_run bins data) k =
  match nth_error bins k, nth_error bins (S k) with
  | Some lo, Some hi =>
     Some (match map snd (filter (fun v => in_stat_bin (length bins - 1) k lo hi (fst v)) data) with
           | [] => BadVal
           | ms => coadd ms
           end)
  | _, _ => None
  end.
Proof.
  unfold histogram_m5_run. rewrite nth_error_map, !Slicer_Proofs.nth_error_combine, Slicer_Proofs.nth_error_removelast, Slicer_Proofs.nth_error_tl.
  destruct (nth_error bins (S k)) as [hi|] eqn:Eh.
  - assert (S k < length bins)%nat as Hl by (apply nth_error_Some; congruence).
    destruct (Nat.ltb_spec (S k) (length bins)); [|lia].
    destruct (nth_error bins k) as [lo|] eqn:El; [|apply nth_error_None in El; lia].
    assert (nth_error (seq 0 (length bins - 1)) k = Some k) as ->.
    { rewrite (nth_error_nth' _ 0%nat) by (rewrite seq_length; lia). rewrite seq_nth by lia. reflexivity. }
    cbn [option_map]. f_equal. destruct (filter _ data) as [|v vs]; [reflexivity|].
    cbn [map]. rewrite coadd_val by discriminate. f_equal. f_equal. f_equal.
    rewrite <- (map_map snd flux). reflexivity.
  - destruct (nth_error (seq 0 (length bins - 1)) k); [|destruct (nth_error bins k); reflexivity].
    destruct (S k <? length bins)%nat; destruct (nth_error bins k); reflexivity.
Qed.
