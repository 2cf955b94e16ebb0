(** Property theorems about depth: C19, C68, C69, C70, C72 (depth), C73, C74, C75. *)
From Verif Require Import Base Slicer_Model GapMetrics_Model GapMetrics_Spec.
From Verif Require Import Vector_Model Vector_Spec Depth_Model Depth_Spec Depth_Proofs.
From Coq Require Import Reals Lra Permutation Lia Sorted.
Open Scope R_scope.

(** C19: the coadded depth is the one whose flux is the sum of the fluxes *)
Theorem C19_coadd_flux : forall ms c, coadd ms = Val c <-> ms <> [] /\ same_flux c ms.
Proof. exact coadd_Val_inv. Qed.
Print Assumptions C19_coadd_flux.
Theorem C19_single_visit : forall m, coadd [m] = Val m.
Proof. exact coadd_single. Qed.
Print Assumptions C19_single_visit.
Theorem C19_order_independent : forall a b, Permutation a b -> coadd a = coadd b.
Proof. exact coadd_perm. Qed.
Print Assumptions C19_order_independent.
Theorem C19_more_visits_deeper : forall ms m a b, coadd ms = Val a -> coadd (m :: ms) = Val b -> a < b /\ m < b.
Proof. exact coadd_add. Qed.
Print Assumptions C19_more_visits_deeper.
Theorem C19_at_least_deepest : forall ms m c, In m ms -> coadd ms = Val c -> m <= c.
Proof. exact coadd_deepest. Qed.
Print Assumptions C19_at_least_deepest.
Theorem C19_equal_visits : forall m n, (0 < n)%nat -> coadd (repeat m n) = Val (m + 5/4 * (ln (INR n) / ln 10)).
Proof. exact coadd_repeat. Qed.
Print Assumptions C19_equal_visits.
(** coadding in two steps gives the same depth as coadding at once *)
Theorem C19_two_steps : forall a b x y, coadd a = Val x -> coadd b = Val y -> coadd (a ++ b) = coadd [x; y].
Proof. exact coadd_app. Qed.
Print Assumptions C19_two_steps.
(** the metric: the visits of the band if one is given, else all *)
Theorem C19_metric : forall f data c,
  (coaddm5_run None data = Val c <-> map snd data <> [] /\ same_flux c (map snd data)) /\
  (coaddm5_run (Some f) data = Val c <->
     exists ms, ms <> [] /\ same_flux c ms /\ ms = map snd (filter (fun v => String.eqb (fst v) f) data)).
Proof.
  intros f data c. split.
  - destruct data as [|v t]; [split; [discriminate|intros [H _]; elim H; reflexivity]|]. apply coadd_Val_inv.
  - destruct data as [|v t]; [split; [discriminate|intros (ms & H & _ & ->); elim H; reflexivity]|].
    unfold coaddm5_run. rewrite coadd_Val_inv. split; [intros [H1 H2]; eauto|intros (ms & H1 & H2 & ->); auto].
Qed.
Print Assumptions C19_metric.
Example C19_case : exists a b, coadd [24] = Val a /\ coadd [25; 24] = Val b /\ a < b.
Proof.
  exists 24. eexists. split; [apply coadd_single|]. split; [reflexivity|].
  destruct (coadd_add [24] 25 24 _ (coadd_single 24) eq_refl). auto.
Qed.

(** C68 (false of the code): with a band given and no visit in that band the metric is not the bad value *)
Theorem C68_no_visit_in_band_refuted : exists f data, data <> [] /\ (forall v, In v data -> fst v <> f) /\
  coaddm5_run (Some f) data <> BadVal.
Proof.
  exists "r"%string, [("g"%string, 25)]. split; [discriminate|]. split; [|discriminate].
  intros v [<-|[]]. discriminate.
Qed.
Print Assumptions C68_no_visit_in_band_refuted.
(** it is minus infinity exactly then; and the bad value exactly for an empty slice *)
Theorem C68_no_visit_in_band_partial : forall f data,
  (coaddm5_run (Some f) data = NegInf <-> data <> [] /\ forall v, In v data -> fst v <> f) /\
  (coaddm5_run (Some f) data = BadVal <-> data = []).
Proof.
  intros f data. destruct data as [|v0 t].
  - split; [split; [discriminate|intros [H _]; congruence]|split; auto].
  - remember (v0 :: t) as data eqn:E.
    assert (coaddm5_run (Some f) data = coadd (map snd (filter (fun v => String.eqb (fst v) f) data))) as Er by (subst; reflexivity).
    rewrite Er. split.
    + destruct (filter (fun v => String.eqb (fst v) f) data) as [|w ws] eqn:Ef.
      * split; auto. intros _. split; [subst; discriminate|]. intros v Hv Hf.
        assert (In v []) as []. rewrite <- Ef. apply filter_In. split; auto. subst f. apply String.eqb_refl.
      * split; [discriminate|]. intros [_ H].
        assert (In w (filter (fun v => String.eqb (fst v) f) data)) as Hw by (rewrite Ef; left; auto).
        apply filter_In in Hw as [Hw1 Hw2]. apply String.eqb_eq in Hw2. elim (H w Hw1 Hw2).
    + split; [|subst; discriminate]. destruct (filter _ data) as [|w ws]; discriminate.
Qed.
Print Assumptions C68_no_visit_in_band_partial.
Example C68_case : coaddm5_run (Some "r"%string) [("r"%string, 24); ("g"%string, 25)] = Val 24.
Proof. exact (coadd_single 24). Qed.

(** C69 *)
Theorem C69_calc_coadded_depth : forall nvisits single r, calc_coadded_depth nvisits single = Ok r ->
  map fst r = map fst nvisits /\
  forall k f n, nth_error nvisits k = Some (f, n) ->
    exists d c, dget String.eqb single f = Some d /\ nth_error r k = Some (f, c) /\
      ((0 < n)%nat -> coadd (repeat d n) = Val c) /\ (n = 0%nat -> c = d).
Proof.
  intros nv single r H. apply calc_depth_spec in H as [H1 H2]. split; auto.
  intros k f n Hk. destruct (H2 k f n Hk) as (d & Hd & Hr). exists d. eexists. split; [eauto|]. split; [eauto|].
  split; [apply calc_depth1|]. intros ->. reflexivity.
Qed.
Print Assumptions C69_calc_coadded_depth.
Theorem C69_missing_band : forall nvisits single, (exists f, In f (map fst nvisits) /\ dget String.eqb single f = None) <->
  calc_coadded_depth nvisits single = Err ValueError.
Proof.
  intros nv single. split; [apply calc_depth_err|]. induction nv as [|[f n] t IH]; simpl; [discriminate|].
  destruct (dget String.eqb single f) as [d|] eqn:E; [|intros _; exists f; auto].
  destruct (calc_coadded_depth t single) as [r|e] eqn:Er; cbn [bind]; [discriminate|].
  intros H. destruct IH as (g & Hg & Hn); [congruence|]. exists g. auto.
Qed.
Print Assumptions C69_missing_band.
Example C69_case : exists c, calc_coadded_depth [("g", 4%nat)]%string [("r", 24); ("g", 25)]%string = Ok [("g"%string, c)] /\
  coadd [25; 25; 25; 25] = Val c.
Proof. eexists. split; [reflexivity|]. apply (calc_depth1 4 25). lia. Qed.

(** C70 *)
Theorem C70_teff_additive : forall base fid ms c, coadd ms = Val c ->
  rsum (map (compute_teff base fid) ms) = compute_teff base fid c.
Proof. exact teff_sum. Qed.
Print Assumptions C70_teff_additive.
Theorem C70_teff_fiducial : forall base fid, compute_teff base fid fid = base.
Proof. intros. unfold compute_teff. rewrite Rminus_diag_eq, Rmult_0_r, Rpower_O; lra. Qed.
Print Assumptions C70_teff_fiducial.
Example C70_case : coadd [24] = Val 24 /\ rsum (map (compute_teff 30 24) [24]) = 30.
Proof. split; [apply coadd_single|]. unfold rsum; simpl. rewrite C70_teff_fiducial. lra. Qed.

(** C72 for the accumulated depth: the coadded depth of the visits up to the edge and one more *)
Theorem C72_accumulate_m5_partial : forall bins data r, (2 <= length data)%nat -> StronglySorted Z.le (map fst data) ->
  accumulate_m5_run bins data = Ok r ->
  length r = (length bins - 1)%nat /\
  forall k e, nth_error bins (S k) = Some e ->
    match upto e data with
    | [] => nth_error r k = Some None
    | u => exists c, nth_error r k = Some (Some c) /\ coadd (firstn (S (length u)) (map snd data)) = Val c
    end.
Proof. exact acc_m5_law. Qed.
Print Assumptions C72_accumulate_m5_partial.
Example C72_m5_case : exists r, accumulate_m5_run [0; 1; 9]%Z [(0%Z, 24); (5%Z, 25)] = Ok r /\ length r = 2%nat.
Proof. eexists. split; reflexivity. Qed.

(** C73: the bins are half-open, the last one is closed *)
Theorem C73_histogram_m5 : forall bins data k, nth_error (histogram_m5_run bins data) k =
  match nth_error bins k, nth_error bins (S k) with
  | Some lo, Some hi =>
     Some (match map snd (filter (fun v => (lo <=? fst v) && (if (S (S k) =? length bins)%nat then fst v <=? hi else fst v <? hi))%Z data) with
           | [] => BadVal
           | ms => coadd ms
           end)
  | _, _ => None
  end.
Proof.
  intros bins data k. rewrite hist_m5. destruct (nth_error bins k) as [lo|]; [|reflexivity]. destruct (nth_error bins (S k)) as [hi|] eqn:E; [|reflexivity].
  assert (S k < length bins)%nat by (apply nth_error_Some; congruence). f_equal.
  rewrite (filter_ext _ (fun v : Z * R => (lo <=? fst v)%Z && (if (S (S k) =? length bins)%nat then (fst v <=? hi)%Z else (fst v <? hi)%Z))); [reflexivity|].
  intros [x m]. unfold in_stat_bin. cbn [fst]. destruct (Nat.eqb_spec (S k) (length bins - 1)), (Nat.eqb_spec (S (S k)) (length bins)); try lia; cbn [andb];
  try rewrite orb_false_r; try reflexivity.
Qed.
Print Assumptions C73_histogram_m5.
Example C73_case : nth_error (histogram_m5_run [0; 5; 9]%Z [(0%Z, 24); (9%Z, 25)]) 1 = Some (Val 25).
Proof. rewrite C73_histogram_m5. cbn -[coadd]. rewrite coadd_single. reflexivity. Qed.

(** C74 (false of the code): visits in other bands change the result - here the band of the first visit
    decides on the dust cut *)
Theorem C74_ngal_other_bands_refuted : exists ax1 median density a_max m5min ebv f data data' r r',
  Permutation data data' /\
  ngal_scale_run ax1 median density a_max m5min ebv f data = Ok r /\
  ngal_scale_run ax1 median density a_max m5min ebv f data' = Ok r' /\ r <> r'.
Proof.
  exists (fun b => if String.eqb b "u" then 5 else 1), (fun _ => 1), (fun _ => 57), 2, 20, 1, "i"%string.
  exists [("u"%string, 24, 1); ("i"%string, 24, 1)], [("i"%string, 24, 1); ("u"%string, 24, 1)].
  exists 0, 57. split; [apply perm_swap|]. split; [|split; [|lra]].
  - unfold ngal_scale_run. simpl String.eqb. destruct (Rlt_dec 2 (5 * 1)); [reflexivity|lra].
  - unfold ngal_scale_run. simpl String.eqb. destruct (Rlt_dec 2 (1 * 1)); [lra|].
    cbn [filter map fst snd]. simpl String.eqb. cbv iota. cbn [map fst snd]. rewrite coadd_single.
    destruct (Rlt_dec 24 20); [lra|reflexivity].
Qed.
Print Assumptions C74_ngal_other_bands_refuted.
(** what holds: with all visits in the band the result only depends on the multiset of visits *)
Theorem C74_ngal_one_band_partial : forall ax1 median density a_max m5min ebv f data data',
  (forall l l', Permutation l l' -> median l = median l') ->
  (forall v, In v data -> fst (fst v) = f) -> Permutation data data' ->
  ngal_scale_run ax1 median density a_max m5min ebv f data = ngal_scale_run ax1 median density a_max m5min ebv f data'.
Proof.
  intros ax1 median density a_max m5min ebv f data data' Hm Hf Hp.
  destruct data as [|[[b m] s] t].
  - apply Permutation_nil in Hp. subst. reflexivity.
  - destruct data' as [|[[b' m'] s'] t']; [apply Permutation_sym, Permutation_nil in Hp; discriminate|].
    assert (b = f) as -> by (apply (Hf (b, m, s)); left; auto).
    assert (b' = f) as -> by (apply (Hf (b', m', s')); apply (Permutation_in _ (Permutation_sym Hp)); left; auto).
    unfold ngal_scale_run. destruct (Rlt_dec a_max (ax1 f * ebv)); auto.
    rewrite (Hm _ _ (Permutation_map snd Hp)).
    erewrite coadd_perm; [reflexivity|]. apply Permutation_map.
    clear -Hp. induction Hp; simpl; repeat match goal with |- context [String.eqb ?a ?b] => destruct (String.eqb a b) end; auto; try constructor; auto.
    etransitivity; eauto.
Qed.
Print Assumptions C74_ngal_one_band_partial.

(** C75 *)
Theorem C75_optimal_m5 : forall med m5 opt k, optimal_m5_run med m5 opt = Some (INR k) ->
  coadd (m5 ++ repeat med k) = coadd opt.
Proof. exact optimal_visits. Qed.
Print Assumptions C75_optimal_m5.
Theorem C75_optimal_m5_flux : forall med m5 opt r, optimal_m5_run med m5 opt = Some r ->
  rsum (map flux m5) + r * flux med = rsum (map flux opt).
Proof. exact optimal_spec. Qed.
Print Assumptions C75_optimal_m5_flux.
Theorem C75_optimal_m5_nonneg : forall med m5 opt r, length m5 = length opt ->
  (forall i a b, nth_error m5 i = Some a -> nth_error opt i = Some b -> a <= b) ->
  optimal_m5_run med m5 opt = Some r -> 0 <= r.
Proof. exact optimal_nonneg. Qed.
Print Assumptions C75_optimal_m5_nonneg.
Example C75_case : optimal_m5_run 24 [24] [24; 24] = Some (INR 1).
Proof.
  unfold optimal_m5_run. rewrite coadd_single, (coadd_val [24; 24]) by discriminate.
  rewrite flux_log10; [|apply flux_sum_pos; discriminate].
  f_equal. unfold rsum. simpl. pose proof (flux_pos 24). field. lra.
Qed.
