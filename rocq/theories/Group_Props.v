(** Property theorems: C53-C56, C103, C104. *)
From Verif Require Import Base Group_Model Group_Spec Group_Proofs.
From Coq Require Import Lia QArith Qround Lqa Permutation.
Open Scope Z_scope.

(** C53: an integer between the bounds, for all data, bounds and bin ranges *)
Theorem C53_bins_in_range : forall inv_cbrt data binmin binmax nbin_max nbin_min, nbin_min <= nbin_max ->
  exists n, optimal_bins inv_cbrt data binmin binmax nbin_max nbin_min = Ok n /\ nbin_min <= n <= nbin_max.
Proof.
  intros inv_cbrt data binmin binmax hi lo H. unfold optimal_bins. destruct data as [|x t]; [exists hi; split; [reflexivity | lia]|].
  destruct (match binmin with Some b => Some b | None => qmin_list (somes (x :: t)) end) as [a|]; [|exists hi; split; [reflexivity | lia]].
  destruct (match binmax with Some b => Some b | None => qmax_list (somes (x :: t)) end) as [b|]; [|exists hi; split; [reflexivity | lia]].
  destruct (filter _ (somes (x :: t))) as [|y good]; [exists hi; split; [reflexivity | lia]|]. cbv zeta. apply clip_ok. exact H.
Qed.
Print Assumptions C53_bins_in_range.
(** data without spread (all finite values equal) give nbin_max *)
Theorem C53_no_spread : forall inv_cbrt data binmin binmax nbin_max nbin_min c,
  nbin_min <= nbin_max -> (forall q, In (Some q) data -> (q == c)%Q) ->
  optimal_bins inv_cbrt data binmin binmax nbin_max nbin_min = Ok nbin_max.
Proof.
  intros inv_cbrt data binmin binmax hi lo c H Hc. unfold optimal_bins. destruct data as [|x t]; [reflexivity|]. set (data := x :: t) in *.
  destruct (match binmin with Some b => Some b | None => qmin_list (somes data) end) as [a|]; [|reflexivity].
  destruct (match binmax with Some b => Some b | None => qmax_list (somes data) end) as [b|]; [|reflexivity].
  assert (forall q, In q (filter (fun x => qleb a x && qleb x b) (somes data)) -> (q == c)%Q /\ (a <= b)%Q) as Hg.
  { intros q Hq. apply filter_In in Hq. destruct Hq as [Hq E]. apply andb_true_iff in E. destruct E as [E1 E2]. apply qleb_iff in E1, E2. split; [|lra].
    apply Hc. unfold somes in Hq. apply in_flat_map in Hq. destruct Hq as ([y|] & Hy & Hi); [|destruct Hi]. destruct Hi as [->|[]]. exact Hy. }
  destruct (filter _ (somes data)) as [|y good] eqn:E; [reflexivity|]. cbv zeta. set (g := y :: good) in *.
  assert (g <> []) as Hne by discriminate.
  assert (percentile g 75 == c)%Q as E75 by (apply percentile_const; [exact Hne | lra | intros q Hq; exact (proj1 (Hg q Hq))]).
  assert (percentile g 25 == c)%Q as E25 by (apply percentile_const; [exact Hne | lra | intros q Hq; exact (proj1 (Hg q Hq))]).
  assert (2 * (percentile g 75 - percentile g 25) * inv_cbrt (length g) == 0)%Q as Ew.
  { setoid_replace (percentile g 75 - percentile g 25)%Q with 0%Q by lra. ring. }
  unfold fl_div. rewrite (proj2 (Qeq_bool_iff _ _) Ew).
  destruct (Qeq_bool (b - a) 0) eqn:Eab; [reflexivity|]. pose proof (proj2 (Hg y (or_introl eq_refl))) as Hab.
  assert (0 < b - a)%Q as Hpos. { apply Qeq_bool_neq in Eab. lra. }
  rewrite (proj2 (qltb_iff _ _) Hpos). cbn [fl_gtb fl_ltb].
  destruct (qltb (inject_Z hi) (inject_Z lo)) eqn:E2; [apply qltb_iff in E2; rewrite <- Zlt_Qlt in E2; lia|]. cbn [fl_int].
  f_equal. unfold trunc. destruct (qleb 0 (inject_Z hi)); [apply Qfloor_Z | apply Qceiling_Z].
Qed.
Print Assumptions C53_no_spread.
Example C53_case : optimal_bins (fun _ => 1#2)%Q [Some 1; None; Some 2; Some 3; Some 9]%Q None None 200 1 = Ok 2 /\
  optimal_bins (fun _ => 1#2)%Q [Some 4; Some 4]%Q (Some 0%Q) None 200 1 = Ok 200.
Proof. split; reflexivity. Qed.

(** C54: visits per band scale with the run length, rounded down; nominal for 10 years; never more for a shorter run *)
Theorem C54_visits_scale : forall L k f, (0 <= L)%Q ->
  (inject_Z (nominal_visits k f) * L / 10 - 1 < inject_Z (scaled_visits L k f) <= inject_Z (nominal_visits k f) * L / 10)%Q /\
  ((L == 10)%Q -> scaled_visits L k f = nominal_visits k f) /\
  ((L <= 10)%Q -> scaled_visits L k f <= nominal_visits k f) /\
  (forall L', (L <= L')%Q -> scaled_visits L k f <= scaled_visits L' k f).
Proof.
  intros L k f HL. set (n := nominal_visits k f). assert (0 <= inject_Z n)%Q as Hn by (unfold n; destruct k, f; discriminate).
  assert (forall L, scaled_visits L k f = Qfloor (inject_Z n * (L / 10))) as Hs.
  { intros x. unfold scaled_visits. fold n. destruct (Qeq_bool x 10) eqn:E; [|reflexivity]. apply Qeq_bool_iff in E.
    transitivity (Qfloor (inject_Z n)); [symmetry; apply Qfloor_Z|]. apply Qfloor_comp. rewrite E. field. }
  assert (forall x, inject_Z n * x / 10 == inject_Z n * (x / 10))%Q as He by (intros; field).
  assert (forall a b, (a <= b)%Q -> Qfloor (inject_Z n * (a / 10)) <= Qfloor (inject_Z n * (b / 10))) as Hm.
  { intros a b Hab. apply Qfloor_resp_le. rewrite !(Qmult_comm (inject_Z n)). apply Qmult_le_compat_r; [|exact Hn].
    unfold Qdiv. apply Qmult_le_compat_r; [exact Hab | discriminate]. }
  assert (Qfloor (inject_Z n * (10 / 10)) = n) as H10. { transitivity (Qfloor (inject_Z n)); [apply Qfloor_comp; field | apply Qfloor_Z]. }
  repeat split.
  - rewrite Hs, (He L). pose proof (Qlt_floor (inject_Z n * (L / 10))) as H. rewrite inject_Z_plus in H. change (inject_Z 1) with 1%Q in H. lra.
  - rewrite Hs, (He L). apply Qfloor_le.
  - intros E. rewrite Hs. transitivity (Qfloor (inject_Z n * (10 / 10))); [|exact H10]. apply Qfloor_comp. rewrite E. reflexivity.
  - intros Hl. rewrite Hs. rewrite <- H10 at 2. apply Hm. exact Hl.
  - intros L' Hl. rewrite !Hs. apply Hm. exact Hl.
Qed.
Print Assumptions C54_visits_scale.
(** the total number of visits is not scaled, and is not the sum over the bands *)
Theorem C54_total_scales_refuted :
  (exists L k, (0 <= L)%Q /\ inject_Z (nominal_total k) * L / 10 < inject_Z (scaled_total L k))%Q /\
  exists k, scaled_total 10 k <> scaled_visits 10 k U + scaled_visits 10 k G + scaled_visits 10 k R + scaled_visits 10 k I + scaled_visits 10 k Z' + scaled_visits 10 k Y.
Proof. split; [exists 1%Q, Design; split; reflexivity || discriminate | exists Stretch; discriminate]. Qed.
Print Assumptions C54_total_scales_refuted.
Example C54_case : scaled_visits (3#1) Design U = 16 /\ scaled_visits 10 Stretch G = 100 /\ scaled_total 1 Design = 825.
Proof. repeat split. Qed.

(** C55: the columns a bundle uses are those it would get alone, when the other stackers leave them alone *)
Theorem C55_independent_of_others_partial : forall pre others merged own have t,
  mix (map fst own) others merged ->
  (forall s req, In (s, req) own -> only_writes s (k_added s) /\ determined_by s req) -> reads_ok have own ->
  (forall s, In s pre -> exists cols, only_writes s cols /\ forall c, In c have -> ~ In c cols) ->
  (forall s, In s others -> exists cols, only_writes s cols /\ forall c, In c have \/ In c (flat_map (fun p => k_added (fst p)) own) -> ~ In c cols) ->
  forall c, In c have \/ In c (flat_map (fun p => k_added (fst p)) own) ->
  column (run_stackers merged (run_stackers pre t)) c = column (run_stackers (map fst own) t) c.
Proof.
  intros pre others merged own have t Hm Hown Hr Hpre Hoth c Hc. destruct (Nat.eq_dec (t_rows t) 0) as [E|Hnz].
  - rewrite (run_empty pre t E), (run_empty merged t E), (run_empty _ t E). reflexivity.
  - pose proof (agree_pre pre have t t Hpre (conj eq_refl (fun c _ => eq_refl))) as Ha.
    assert (t_rows (run_stackers pre t) <> 0%nat) as Hnz' by (rewrite (proj1 Ha); exact Hnz).
    destruct (agree_mix _ _ _ Hm own have _ _ eq_refl Hown Hr Hoth Ha Hnz') as [_ H]. apply H. apply in_or_app. tauto.
Qed.
Print Assumptions C55_independent_of_others_partial.
(** a bundle with a parallactic angle stacker gets the hour angles of an earlier bundle that measured them from another
    column *)
Theorem C55_independent_of_others_refuted : exists other own t,
  column (run_stackers [own] t) "PA" <> column (nth 1 (run_lists [[other]; [own]] t) t) "PA".
Proof.
  exists (ha_stack "ra_dithered"), (pa_stack "ra"), {| t_rows := 1; t_cols := [("ra"%string, [10]); ("ra_dithered"%string, [20])] |}.
  vm_compute. discriminate.
Qed.
Print Assumptions C55_independent_of_others_refuted.
(** a bundle that only reads columns of the database sees fewer visits because another bundle co-adds them *)
Theorem C55_rows_refuted : exists other t,
  column (run_stackers [] t) "night" <> column (nth 1 (run_lists [[other]; []] t) t) "night".
Proof.
  exists coadd_stack, {| t_rows := 2; t_cols := [("night"%string, [3; 3])] |}. vm_compute. discriminate.
Qed.
Print Assumptions C55_rows_refuted.
Lemma ha_writes : only_writes (ha_stack "ra") (k_added (ha_stack "ra")).
Proof.
  intros t. split; [reflexivity|]. intros c Hc. unfold column. cbn [k_run ha_stack set_col t_cols]. rewrite dget_dset_string. destruct (String.eqb_spec c "HA") as [->|_]; [destruct Hc; left; reflexivity | reflexivity].
Qed.
Lemma ha_determined : determined_by (ha_stack "ra") ["ra"%string].
Proof.
  intros t t' _ H c [<-|[]]. unfold column. cbn [k_run ha_stack set_col t_cols]. rewrite !dget_dset_string. cbn [String.eqb Ascii.eqb Bool.eqb].
  unfold get_col. rewrite (H "ra"%string (or_introl eq_refl)). reflexivity.
Qed.
(** an hour angle stacker next to another stacker of another column *)
Example C55_case : exists other, mix (map fst [(ha_stack "ra", ["ra"%string])]) [other] [other; ha_stack "ra"] /\ reads_ok ["ra"%string] [(ha_stack "ra", ["ra"%string])] /\
  only_writes (ha_stack "ra") (k_added (ha_stack "ra")) /\ determined_by (ha_stack "ra") ["ra"%string] /\
  only_writes other ["x"%string] /\ (forall c, In c ["ra"%string] \/ In c ["HA"%string] -> ~ In c ["x"%string]).
Proof.
  exists {| k_added := ["x"%string]; k_run := fun _ t => set_col t "x" [] |}. split; [repeat constructor|].
  split; [split; [intros c Hc; exact Hc | exact Logic.I]|]. split; [exact ha_writes|]. split; [exact ha_determined|]. split.
  - intros t. split; [reflexivity|]. intros c Hc. unfold column. cbn [k_run set_col t_cols]. rewrite dget_dset_string.
    destruct (String.eqb_spec c "x") as [->|_]; [destruct Hc; left; reflexivity | reflexivity].
  - intros c [[<-|[]]|[<-|[]]] [H|[]]; discriminate.
Qed.

(** C56: two bundles of the same metric on different slicers: one reduced bundle replaces the other *)
Theorem C56_all_reduced_kept_refuted : exists bundle_dict current key b r,
  In (key, b) current /\ In r (rb_reduce b) /\ NoDup (map fst bundle_dict) /\ NoDup (map fst current) /\
  forall k, dget String.eqb (reduce_current bundle_dict current) k <> Some (Reduced key r).
Proof.
  exists [("opsim_Pairs_HEAL"%string, Original "opsim_Pairs_HEAL"); ("opsim_Pairs_UNIS"%string, Original "opsim_Pairs_UNIS")],
    [("opsim_Pairs_HEAL"%string, {| rb_metric := "Pairs"; rb_reduce := ["Mean"%string]; rb_root := fun n => ("opsim_" ++ n ++ "_HEAL")%string |});
     ("opsim_Pairs_UNIS"%string, {| rb_metric := "Pairs"; rb_reduce := ["Mean"%string]; rb_root := fun n => ("opsim_" ++ n ++ "_UNIS")%string |})].
  eexists _, _, _. split; [left; reflexivity|]. split; [left; reflexivity|].
  split; [constructor; [intros [H|[]]; discriminate | constructor; [intros [] | constructor]]|].
  split; [constructor; [intros [H|[]]; discriminate | constructor; [intros [] | constructor]]|].
  intros k. set (d := reduce_current _ _). vm_compute in d. subst d. cbn [dget].
  destruct (String.eqb k "opsim_Pairs_HEAL"); [discriminate|]. destruct (String.eqb k "opsim_Pairs_UNIS"); [discriminate|].
  destruct (String.eqb k "Pairs_Mean"); discriminate.
Qed.
Print Assumptions C56_all_reduced_kept_refuted.
(** all reduced bundles and all original ones are kept when the names metric_reduce are new and distinct; missing:
    several bundles of the same metric *)
Theorem C56_all_reduced_kept_partial : forall bundle_dict current,
  NoDup (flat_map (fun kb => map (fun r => (rb_metric (snd kb) ++ "_" ++ r)%string) (rb_reduce (snd kb))) current) ->
  (forall key b r, In (key, b) current -> In r (rb_reduce b) -> dget String.eqb bundle_dict (rb_metric b ++ "_" ++ r)%string = None) ->
  (forall key b r, In (key, b) current -> In r (rb_reduce b) ->
     dget String.eqb (reduce_current bundle_dict current) (rb_metric b ++ "_" ++ r)%string = Some (Reduced key r)) /\
  (forall k e, dget String.eqb bundle_dict k = Some e -> dget String.eqb (reduce_current bundle_dict current) k = Some e).
Proof.
  intros bd cur Hn Hnew. unfold reduce_current. rewrite reduce_fold.
  assert (forall l, (forall key b r, In (key, b) l -> In r (rb_reduce b) -> dget String.eqb bd (rb_metric b ++ "_" ++ r)%string = None) ->
    map fst (assigned bd l) = flat_map (fun kb => map (fun r => (rb_metric (snd kb) ++ "_" ++ r)%string) (rb_reduce (snd kb))) l) as Hmap.
  { induction l as [|[k b] t IH]; intros H; [reflexivity|]. unfold assigned. cbn [flat_map]. rewrite map_app, map_map. f_equal.
    - apply map_ext_in. intros r Hr. cbn [fst snd]. unfold reduce_key, reduced_name, dmem. rewrite (H k b r (or_introl eq_refl) Hr). reflexivity.
    - apply IH. intros k' b' r' H1 H2. apply (H k' b' r'); [right; exact H1 | exact H2]. }
  specialize (Hmap cur Hnew). rewrite (update_fresh (assigned bd cur) []) by (cbn [map app]; rewrite Hmap; exact Hn). cbn [app].
  assert (NoDup (map fst (assigned bd cur))) as Hn' by (rewrite Hmap; exact Hn). split.
  - intros key b r Hk Hr. rewrite (update_get _ _ _ Hn').
    assert (In ((rb_metric b ++ "_" ++ r)%string, Reduced key r) (assigned bd cur)) as Hi.
    { unfold assigned. apply in_flat_map. exists (key, b). split; [exact Hk|]. apply in_map_iff. exists r. split; [|exact Hr]. cbn [fst snd].
      unfold reduce_key, reduced_name, dmem. rewrite (Hnew key b r Hk Hr). reflexivity. }
    rewrite (dget_found _ _ _ Hn' Hi). reflexivity.
  - intros k e He. rewrite (update_get _ _ _ Hn'). destruct (dget String.eqb (assigned bd cur) k) as [v|] eqn:E; [|exact He].
    apply dget_key_in in E. rewrite Hmap in E. apply in_flat_map in E. destruct E as ([key b] & Hk & Hr). apply in_map_iff in Hr.
    destruct Hr as (r & <- & Hr). cbn [snd] in *. rewrite (Hnew key b r Hk Hr) in He. discriminate.
Qed.
Print Assumptions C56_all_reduced_kept_partial.
Example C56_case : reduce_current [("a"%string, Original "a")] [("a"%string, {| rb_metric := "Pairs"; rb_reduce := ["Mean"%string; "Max"%string]; rb_root := fun n => n |})] =
  [("a"%string, Original "a"); ("Pairs_Mean"%string, Reduced "a" "Mean"); ("Pairs_Max"%string, Reduced "a" "Max")].
Proof. reflexivity. Qed.

(** C103: the bounds are ordered, lie within the data, and keep more than p% of the intervals between data, less one *)
Theorem C103_clipping_partial : forall data p, data <> [] -> (0 <= p <= 100)%Q ->
  let '(lo, hi) := percentile_clipping data p in
  (lo <= hi)%Q /\ (exists x, In x data /\ x <= lo)%Q /\ (exists x, In x data /\ hi <= x)%Q /\
  (p / 100 * inject_Z (Z.of_nat (length data) - 1) - 1 < inject_Z (Z.of_nat (retained lo hi data)))%Q.
Proof.
  intros data p Hd Hp. unfold percentile_clipping. set (lw := ((100 - p) / 2)%Q).
  assert (lw == (100 - p) * (1#2))%Q as El by reflexivity. assert (0 <= lw <= 100)%Q by lra. assert (0 <= 100 - lw <= 100)%Q by lra.
  split; [apply percentile_mono; [exact Hd | lra | lra | lra]|].
  split; [apply (percentile_between data lw Hd ltac:(lra))|]. split; [apply (percentile_between data (100 - lw) Hd ltac:(lra))|].
  assert (0 < length (qsort data))%nat as Hn by (rewrite qsort_length; destruct data; [contradiction | cbn; lia]).
  rewrite !percentile_interp. set (s := qsort data) in *. set (h1 := position (length s) lw). set (h2 := position (length s) (100 - lw)).
  pose proof (position_range (length s) lw Hn ltac:(lra)) as R1. pose proof (position_range (length s) (100 - lw) Hn ltac:(lra)) as R2.
  pose proof (position_mono (length s) lw (100 - lw) Hn ltac:(lra)) as R3. fold h1 h2 in R1, R2, R3.
  pose proof (count_between s h1 h2 (qsort_sorted data) ltac:(lra) R3 ltac:(lra)) as Hc.
  assert (retained (interp s h1) (interp s h2) data = retained (interp s h1) (interp s h2) s) as ->.
  { unfold retained. apply filter_perm_length. symmetry. apply qsort_perm. }
  rewrite Zle_Qle in Hc. eapply Qlt_le_trans; [|exact Hc]. rewrite inject_Z_plus. unfold Z.sub at 2. rewrite inject_Z_plus, inject_Z_opp. change (inject_Z 1) with 1%Q.
  pose proof (Qlt_floor h2) as F2. rewrite inject_Z_plus in F2. change (inject_Z 1) with 1%Q in F2.
  pose proof (Qceiling_lt h1) as F1. unfold Z.sub in F1. rewrite inject_Z_plus, inject_Z_opp in F1. change (inject_Z 1) with 1%Q in F1.
  assert (h2 - h1 == p / 100 * inject_Z (Z.of_nat (length data) - 1))%Q as E.
  { unfold h1, h2, position, s. rewrite qsort_length. unfold lw. field. }
  unfold Z.sub in E. rewrite <- E. lra.
Qed.
Print Assumptions C103_clipping_partial.
(** 'percentile' percent of the data are not always retained: of two values none is *)
Theorem C103_clipping_refuted : exists data p, (0 <= p <= 100)%Q /\
  let '(lo, hi) := percentile_clipping data p in
  (inject_Z (Z.of_nat (retained lo hi data)) < p / 100 * inject_Z (Z.of_nat (length data)))%Q.
Proof. exists [0; 1]%Q, 95%Q. split; [split; discriminate | reflexivity]. Qed.
Print Assumptions C103_clipping_refuted.
Example C103_case : let '(lo, hi) := percentile_clipping [5; 1; 2; 4; 3]%Q 50 in (lo == 2)%Q /\ (hi == 4)%Q.
Proof. split; reflexivity. Qed.

(** C104: filter names of several characters are taken apart *)
Theorem C104_one_row_per_night_refuted : exists coadd median filters vs rows,
  NoDup filters /\ (forall f, In f filters <-> exists v, In v vs /\ nv_filter v = f) /\
  collapse_night coadd median "observationStartMJD" filters vs = Ok rows /\
  exists r, In r rows /\ forall v, In v vs -> nv_filter v <> nv_filter r.
Proof.
  exists (fun _ => 25%Q), (fun l => hd 0%Q l), ["r_57"%string], [{| nv_night := 1; nv_filter := "r_57"; nv_m5 := 24; nv_mjd := 7 |}].
  eexists. split; [constructor; [intros [] | constructor]|]. split; [|split; [reflexivity|]].
  - intros f. cbn. split; [intros [<-|[]]; eexists; split; [left; reflexivity | reflexivity] | intros (v & [<-|[]] & <-); left; reflexivity].
  - eexists. split; [left; reflexivity|]. intros v [<-|[]]. discriminate.
Qed.
Print Assumptions C104_one_row_per_night_refuted.
(** the name of the MJD column is ignored when sorting: any other name is an error *)
Theorem C104_mjd_column_refuted : forall coadd median filters vs mjd_col, mjd_col <> "observationStartMJD"%string ->
  collapse_night coadd median mjd_col filters vs = Err ValueError.
Proof. intros. unfold collapse_night. destruct (String.eqb_spec mjd_col "observationStartMJD"); [contradiction | reflexivity]. Qed.
Print Assumptions C104_mjd_column_refuted.
(** with one-character names and the standard MJD column: one row per filter and night, with the statistics of exactly
    the visits of that filter and night, in time order *)
Theorem C104_one_row_per_night_partial : forall coadd median filters vs,
  NoDup filters -> (forall f, In f filters <-> exists v, In v vs /\ nv_filter v = f) -> (forall f, In f filters -> one_char f) ->
  exists rows, collapse_night coadd median "observationStartMJD" filters vs = Ok rows /\
  NoDup (map (fun r => (nv_filter r, nv_night r)) rows) /\
  (forall f n, In (f, n) (map (fun r => (nv_filter r, nv_night r)) rows) <-> exists v, In v vs /\ nv_filter v = f /\ nv_night v = n) /\
  (forall r, In r rows ->
     nv_m5 r = coadd (map nv_m5 (filter (fun v => String.eqb (nv_filter v) (nv_filter r) && (nv_night v =? nv_night r)) vs)) /\
     nv_mjd r = median (map nv_mjd (filter (fun v => String.eqb (nv_filter v) (nv_filter r) && (nv_night v =? nv_night r)) vs))) /\
  (forall i j a b, (i <= j)%nat -> nth_error rows i = Some a -> nth_error rows j = Some b -> (nv_mjd a <= nv_mjd b)%Q).
Proof.
  intros coadd median filters vs Hn Hf H1. unfold collapse_night. rewrite String.eqb_refl. eexists. split; [reflexivity|].
  set (all := flat_map (collapse_filter coadd median vs) filters). set (k := fun r => (nv_filter r, nv_night r)).
  pose proof (msort_perm all) as Hp. pose proof (msort_sorted all) as Hs. set (rows := fold_right minsert [] all) in *.
  assert (forall r, In r all <-> exists f n, In f filters /\ In n (zunique (map nv_night (filter (fun v => String.eqb (nv_filter v) f) vs))) /\
    r = let g := filter (fun v => nv_night v =? n) (filter (fun v => String.eqb (nv_filter v) f) vs) in
        {| nv_night := n; nv_filter := f; nv_m5 := coadd (map nv_m5 g); nv_mjd := median (map nv_mjd g) |}) as Hall.
  { intros r. unfold all. rewrite in_flat_map. split.
    - intros (f & Hff & Hr). rewrite (collapse_filter_rows _ _ _ _ (H1 f Hff)) in Hr. apply in_map_iff in Hr. destruct Hr as (n & <- & Hnn). exists f, n. auto.
    - intros (f & n & Hff & Hnn & ->). exists f. split; [exact Hff|]. rewrite (collapse_filter_rows _ _ _ _ (H1 f Hff)). apply in_map_iff. exists n. auto. }
  split; [|split; [|split]].
  - apply Permutation_NoDup with (l := map k all); [apply Permutation_map, Permutation_sym, Hp|]. unfold all. clear - Hn H1.
    induction filters as [|f t IH]; [constructor|]. cbn [flat_map]. rewrite map_app. inversion Hn as [|? ? Hft Hnt]; subst.
    assert (forall l, (forall r, In r l -> ~ In (k r) (map k (flat_map (collapse_filter coadd median vs) t))) -> NoDup (map k l) ->
      NoDup (map k l ++ map k (flat_map (collapse_filter coadd median vs) t))) as Happ.
    { intros l Hl Hnl. induction l as [|r l IHl]; [apply IH; [exact Hnt | intros g Hg; apply H1; right; exact Hg]|]. cbn [map app] in *.
      inversion Hnl as [|? ? Hr Hnl']; subst. constructor; [|apply IHl; [intros r' Hr'; apply Hl; right; exact Hr' | exact Hnl']].
      intros Hi. apply in_app_or in Hi. destruct Hi as [Hi|Hi]; [exact (Hr Hi) | exact (Hl r (or_introl eq_refl) Hi)]. }
    rewrite (collapse_filter_rows _ _ _ _ (H1 f (or_introl eq_refl))). apply Happ.
    + intros r Hr Hi. apply in_map_iff in Hr. destruct Hr as (n & <- & _). apply in_map_iff in Hi. destruct Hi as (r & E & Hr).
      apply in_flat_map in Hr. destruct Hr as (g & Hg & Hr). rewrite (collapse_filter_rows _ _ _ _ (H1 g (or_intror Hg))) in Hr.
      apply in_map_iff in Hr. destruct Hr as (m & <- & _). unfold k in E. cbn in E. injection E as -> _. contradiction.
    + rewrite map_map. unfold k. cbn [nv_filter nv_night]. apply FinFun.Injective_map_NoDup; [intros a b E; injection E as ->; reflexivity | apply zunique_nodup].
  - intros f n. split.
    + intros Hi. apply in_map_iff in Hi. destruct Hi as (r & E & Hr). apply Permutation_in with (l' := all) in Hr; [|exact Hp]. apply Hall in Hr.
      destruct Hr as (f' & n' & Hff & Hnn & ->). cbn in E. injection E as -> ->. apply (proj1 (zunique_in _ _)) in Hnn. apply in_map_iff in Hnn.
      destruct Hnn as (v & Ev & Hv). apply filter_In in Hv. destruct Hv as [Hv Ef]. apply String.eqb_eq in Ef. exists v. auto.
    + intros (v & Hv & Ef & En). apply in_map_iff.
      eexists. split; [|apply (Permutation_in _ (Permutation_sym Hp)); apply Hall; exists f, n; split; [apply Hf; exists v; auto | split; [|reflexivity]]; apply zunique_in, in_map_iff;
        exists v; split; [exact En | apply filter_In; split; [exact Hv | apply String.eqb_eq; exact Ef]]]. reflexivity.
  - intros r Hr. apply (Permutation_in _ Hp) in Hr. apply Hall in Hr. destruct Hr as (f & n & _ & _ & ->). cbn [nv_filter nv_night nv_m5 nv_mjd].
    rewrite filter_filter. split; f_equal; f_equal; apply filter_ext; intros v; apply andb_comm.
  - intros i j a b Hij Ha Hb. clear - Hs Hij Ha Hb. revert i j Hij Ha Hb. induction Hs as [|x m Hs IH Hf]; intros i j Hij Ha Hb; [destruct i; discriminate|].
    rewrite Forall_forall in Hf. destruct i as [|i], j as [|j]; cbn in *; try lia.
    + injection Ha as ->. injection Hb as ->. lra.
    + injection Ha as ->. apply Hf. apply nth_error_In in Hb. exact Hb.
    + apply (IH i j); [lia | exact Ha | exact Hb].
Qed.
Print Assumptions C104_one_row_per_night_partial.
Example C104_case : exists rows, collapse_night (fun l => hd 0%Q l) (fun l => hd 0%Q l) "observationStartMJD" ["g"%string; "r"%string]
    [{| nv_night := 2; nv_filter := "r"; nv_m5 := 24; nv_mjd := 7 |}; {| nv_night := 2; nv_filter := "r"; nv_m5 := 25; nv_mjd := 8 |};
     {| nv_night := 1; nv_filter := "g"; nv_m5 := 24; nv_mjd := 3 |}; {| nv_night := 1; nv_filter := "r"; nv_m5 := 23; nv_mjd := 2 |}] = Ok rows /\
  map (fun r => (nv_filter r, nv_night r)) rows = [("r"%string, 1); ("g"%string, 1); ("r"%string, 2)].
Proof. eexists. split; reflexivity. Qed.
