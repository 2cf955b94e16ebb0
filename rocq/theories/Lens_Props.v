(** Properties of the dust-corrected depth and weak-lensing metrics: C280-C284. *)
From Coq Require Import String Ascii Reals ZArith Lra Lia Psatz List Permutation.
From Verif Require Import Base Depth_Model Depth_Spec Depth_Proofs Template_Spec Lens_Model Lens_Spec Lens_Proofs Small_Spec.
From Verif Require Small_Proofs Template_Proofs.
Import ListNotations.
Open Scope R_scope.

(** ** Concrete slices *)
Definition ax1_0 : dict := [("u", 4.8); ("g", 3.6); ("r", 2.7); ("i", 2.1); ("z", 1.6); ("y", 1.3)]%string.
Definition mk (b : string) (m e : R) : visit := {| v_str := (fun _ => b); v_m5 := m; v_exp := e; v_airmass := 1; v_sky := 21; v_nexp := 1 |}.
Definition tab (l : list visit) : table := {| t_cols := ["band"%string]; t_rows := l |}.
Definition six : list visit := map (fun b => mk b 26 30) ugrizy.
Lemma single_dust ext m : DustDepth ext [m] (m - ext).
Proof. split; [discriminate|]. cbn. replace (m - ext + ext) with m by ring. ring. Qed.
Lemma in_band_table t : In "band"%string (t_cols t) -> has "band" (t_cols t) = true.
Proof. apply has_in. Qed.

(** ** C280: coadded depth corrected for dust *)
(** For visits in one band: the depth [d] reported is the one with [10^(0.8 (d + A)) = sum 10^(0.8 m5)], where [A] is the
    band's coefficient times E(B-V); the bad value is reported for no visits. *)
Theorem C280_depth : forall ax1 filter_col badval ebv t b a,
  In filter_col (t_cols t) -> (forall v, In v (t_rows t) -> v_str v filter_col = b /\ -666 < v_m5 v) ->
  lookup ax1 b = Some a ->
  (t_rows t = [] -> exgal_m5 ax1 filter_col badval ebv t = Ok badval)
  /\ (t_rows t <> [] -> forall d, exgal_m5 ax1 filter_col badval ebv t = Ok (Some d) <-> DustDepth (a * ebv) (map v_m5 (t_rows t)) d).
Proof.
  intros ax1 fc bad ebv t b a HC HV HA. split; [apply exgal_empty|]. intros NE d.
  destruct (exgal_some ax1 fc bad ebv t b a) as (d' & E & D); auto.
  - now apply has_in.
  - destruct (t_rows t) as [|v r]; [congruence|]. exists v, r. split; [reflexivity|]. apply HV. now left.
  - destruct (t_rows t) as [|v r]; [congruence|]. exists v. split; [now left|]. apply HV. now left.
  - rewrite E. split.
    + intro H. injection H as <-. exact D.
    + intro H. now rewrite (dust_unique _ _ _ _ D H).
Qed.
Print Assumptions C280_depth.
Example C280_depth_case : exgal_m5 ax1_0 "band" None 0.1 (tab [mk "r" 26 30]) = Ok (Some (26 - 2.7 * 0.1)).
Proof.
  destruct (C280_depth ax1_0 "band" None 0.1 (tab [mk "r" 26 30]) "r" 2.7) as [_ H]; [now left| |reflexivity|].
  - intros v [<-|[]]. cbn. split; [reflexivity|lra].
  - apply H; [discriminate|]. apply single_dust.
Qed.
(** Visits of several bands: the correction is the one of whichever visit comes first. *)
Theorem C280_order_refuted : ~ (forall ax1 badval ebv t rows', Permutation (t_rows t) rows' ->
  exgal_m5 ax1 "band" badval ebv t = exgal_m5 ax1 "band" badval ebv {| t_cols := t_cols t; t_rows := rows' |}).
Proof.
  intro H. specialize (H ax1_0 None 1 (tab [mk "r" 26 30; mk "u" 26 30]) [mk "u" 26 30; mk "r" 26 30] (perm_swap _ _ _)).
  destruct (exgal_some ax1_0 "band" None 1 (tab [mk "r" 26 30; mk "u" 26 30]) "r" 2.7) as (d & E & D); try reflexivity; try discriminate.
  { exists (mk "r" 26 30), [mk "u" 26 30]. auto. } { exists (mk "r" 26 30). cbn. split; [auto|lra]. }
  destruct (exgal_some ax1_0 "band" None 1 {| t_cols := ["band"%string]; t_rows := [mk "u" 26 30; mk "r" 26 30] |} "u" 4.8) as (d' & E' & D'); try reflexivity; try discriminate.
  { exists (mk "u" 26 30), [mk "r" 26 30]. auto. } { exists (mk "u" 26 30). cbn. split; [auto|lra]. }
  cbn [t_cols tab] in H. unfold tab in E, H. cbn [t_cols] in *. rewrite E, E' in H. injection H as <-. destruct D as [_ D]. destruct D' as [_ D'].
  cbn [map t_rows tab v_m5 mk] in D, D'. rewrite <- D in D'. apply Rpower_inj_10 in D'. lra.
Qed.
Print Assumptions C280_order_refuted.

(** ** C281: ExgalM5WithCuts *)
(** The value reported is the dust-corrected depth of the visits in [lsst_filter] if dust, coverage and depth pass the cuts,
    and the bad value otherwise; nothing is raised. *)
Theorem C281_cuts : forall ax1 lsst_filter extinction_cut depth_cut n_filters badval ebv t a,
  In "band"%string (t_cols t) -> (forall v, In v (t_rows t) -> -666 < v_m5 v) -> -666 < depth_cut ->
  lookup ax1 lsst_filter = Some a ->
  let depths := map v_m5 (filter (fun v => String.eqb (v_str v "band") lsst_filter) (t_rows t)) in
  let passes d := ebv <= extinction_cut /\ AtLeast n_filters (map (fun v => v_str v "band"%string) (t_rows t))
                  /\ DustDepth (a * ebv) depths d /\ depth_cut <= d in
  exists x, exgal_with_cuts ax1 "band" lsst_filter extinction_cut depth_cut n_filters badval ebv t = Ok x
  /\ (forall d, passes d -> x = Some d)
  /\ ((forall d, ~ passes d) -> x = badval).
Proof.
  intros ax1 f cut dc n bad ebv t a HC HD HL HA depths passes. unfold exgal_with_cuts.
  apply in_band_table in HC.
  destruct (rltb cut ebv) eqn:E1.
  { apply rltb_true in E1. exists bad. split; [reflexivity|]. split; [|auto]. intros d (P & _). lra. }
  apply rltb_false in E1. unfold column. rewrite HC. cbn [bind].
  destruct (distinct (map (fun v => v_str v "band"%string) (t_rows t)) <? n)%nat eqn:E2.
  { apply distinct_ltb_true in E2. exists bad. split; [reflexivity|]. split; [|auto]. intros d (_ & P & _). contradiction. }
  apply distinct_ltb in E2. rewrite (select_ok _ _ _ HC). cbn [bind].
  destruct (exgal_band ax1 "band" (Some (-666)) ebv t f a HC HA HD) as [[N X]|(d & X & D)]; rewrite X; cbn [bind nltb].
  - rewrite (proj2 (rltb_true _ _) HL). exists bad. split; [reflexivity|]. split; [|auto].
    intros d (_ & _ & (NE & _) & _). unfold depths in NE. unfold rows_in in N. rewrite N in NE. now destruct NE.
  - destruct (rltb d dc) eqn:E3.
    + apply rltb_true in E3. exists bad. split; [reflexivity|]. split; [|auto].
      intros d' (_ & _ & D' & LE). rewrite (dust_unique _ _ _ _ D' D) in LE. lra.
    + apply rltb_false in E3. exists (Some d). split; [reflexivity|]. split.
      * intros d' (_ & _ & D' & _). now rewrite (dust_unique _ _ _ _ D' D).
      * intro NP. exfalso. apply (NP d). repeat split; auto; apply D.
Qed.
Print Assumptions C281_cuts.
Lemma six_atleast : AtLeast 6 (map (fun v => v_str v "band"%string) six).
Proof. exists ugrizy. split; [|split; [intros x I; exact I|cbn; lia]]. repeat constructor; cbn; intuition discriminate. Qed.
Example C281_cuts_case : exgal_with_cuts ax1_0 "band" "i" 0.2 25.5 6 None 0.1 (tab six) = Ok (Some (26 - 2.1 * 0.1)).
Proof.
  destruct (C281_cuts ax1_0 "i" 0.2 25.5 6 None 0.1 (tab six) 2.1) as (x & E & P & _); try reflexivity.
  - now left.
  - intros v I. cbn in I. repeat (destruct I as [<-|I]; [cbn; lra|]). destruct I.
  - lra.
  - rewrite E. f_equal. apply P. split; [lra|]. split; [apply six_atleast|]. split; [apply single_dust|lra].
Qed.
(** With another filter column the metric raises for every slice that passes the first two cuts and has visits in the
    requested band, unless there is a column "band" too. *)
Theorem C281_column_refuted : ~ (forall ax1 filter_col lsst_filter extinction_cut depth_cut n_filters badval ebv t,
  In filter_col (t_cols t) -> (forall v, In v (t_rows t) -> lookup ax1 (v_str v filter_col) <> None) ->
  exists x, exgal_with_cuts ax1 filter_col lsst_filter extinction_cut depth_cut n_filters badval ebv t = Ok x).
Proof.
  intro H. set (t := {| t_cols := ["filter"%string]; t_rows := [mk "i" 26 30] |}).
  destruct (H ax1_0 "filter"%string "i"%string 0.2 25 1%nat None 0.1 t) as (x & E).
  - now left.
  - intros v [<-|[]]. discriminate.
  - unfold exgal_with_cuts in E. destruct (rltb 0.2 0.1) eqn:E1; [apply rltb_true in E1; lra|].
    cbn [column t t_cols has existsb String.eqb Ascii.eqb Bool.eqb orb bind map t_rows] in E.
    replace (distinct [v_str (mk "i" 26 30) "filter"%string] <? 1)%nat with false in E by reflexivity.
    rewrite select_ok in E by reflexivity. cbn [bind] in E. rewrite exgal_nocol in E; [discriminate|reflexivity|].
    exists (mk "i" 26 30). cbn. split; [now left|lra].
Qed.
Print Assumptions C281_column_refuted.

(** ** C282: WeakLensingNvisits *)
(** Where the dust and the depth in [lsst_filter] pass, the number of visits (in every band) longer than the minimum is
    reported, else the bad value. *)
Theorem C282_count : forall ax1 filter_col lsst_filter depth_cut ebvlim min_exp badval ebv t a,
  In filter_col (t_cols t) -> (forall v, In v (t_rows t) -> -666 < v_m5 v) -> -666 < depth_cut ->
  lookup ax1 lsst_filter = Some a ->
  let depths := map v_m5 (filter (fun v => String.eqb (v_str v filter_col) lsst_filter) (t_rows t)) in
  let passes d := ebv <= ebvlim /\ DustDepth (a * ebv) depths d /\ depth_cut <= d in
  exists x, wl_nvisits ax1 filter_col lsst_filter depth_cut ebvlim min_exp badval ebv t = Ok x
  /\ (forall d n, passes d -> CountIs (fun v => min_exp < v_exp v) (t_rows t) n -> x = Some (INR n))
  /\ ((forall d, ~ passes d) -> x = badval).
Proof.
  intros ax1 fc f dc lim me bad ebv t a HC HD HL HA depths passes. unfold wl_nvisits.
  apply has_in in HC.
  destruct (rltb lim ebv) eqn:E1.
  { apply rltb_true in E1. exists bad. split; [reflexivity|]. split; [|auto]. intros d n (P & _). lra. }
  apply rltb_false in E1. rewrite (select_ok _ _ _ HC). cbn [bind].
  destruct (exgal_band ax1 fc (Some (-666)) ebv t f a HC HA HD) as [[N X]|(d & X & D)]; rewrite X; cbn [bind nltb].
  - rewrite (proj2 (rltb_true _ _) HL). exists bad. split; [reflexivity|]. split; [|auto].
    intros d n (_ & (NE & _) & _). unfold depths in NE. unfold rows_in in N. rewrite N in NE. now destruct NE.
  - destruct (rltb d dc) eqn:E3.
    + apply rltb_true in E3. exists bad. split; [reflexivity|]. split; [|auto].
      intros d' n (_ & D' & LE). rewrite (dust_unique _ _ _ _ D' D) in LE. lra.
    + apply rltb_false in E3. eexists. split; [reflexivity|]. split.
      * intros d' n _ C. f_equal. f_equal. eapply Small_Proofs.count_unique; [|exact C].
        apply Small_Proofs.count_filter. intros. apply rltb_true.
      * intro NP. exfalso. apply (NP d). repeat split; auto; apply D.
Qed.
Print Assumptions C282_count.
Example C282_count_case : wl_nvisits ax1_0 "band" "i" 24.5 0.2 15 (Some (-666)) 0.1 (tab (mk "i" 25 15 :: six)) = Ok (Some 6).
Proof.
  destruct (C282_count ax1_0 "band" "i" 24.5 0.2 15 (Some (-666)) 0.1 (tab (mk "i" 25 15 :: six)) 2.1) as (x & E & P & _); try reflexivity.
  - now left.
  - intros v I. cbn in I. repeat (destruct I as [<-|I]; [cbn; lra|]). destruct I.
  - lra.
  - rewrite E. f_equal. destruct (dust_exists (2.1 * 0.1) [25; 26] ltac:(discriminate)) as (c & CO & D).
    replace 6 with (INR 6) by (cbn; lra). apply (P (c - 2.1 * 0.1)).
    + split; [lra|]. split; [exact D|]. pose proof (coadd_deepest [25; 26] 26 c (or_intror (or_introl eq_refl)) CO). lra.
    + cbn [t_rows tab]. apply count_no; [cbn; lra|]. cbn. repeat (apply count_yes; [cbn; lra|]). constructor.
Qed.
(** Adding visits never lowers a count (nor turns it into the bad value). *)
Theorem C282_more : forall ax1 filter_col lsst_filter depth_cut ebvlim min_exp badval ebv cols rows extra a d,
  In filter_col cols -> (forall v, In v (rows ++ extra) -> -666 < v_m5 v) -> -666 < depth_cut -> lookup ax1 lsst_filter = Some a ->
  ebv <= ebvlim -> DustDepth (a * ebv) (map v_m5 (filter (fun v => String.eqb (v_str v filter_col) lsst_filter) rows)) d -> depth_cut <= d ->
  exists n n', wl_nvisits ax1 filter_col lsst_filter depth_cut ebvlim min_exp badval ebv {| t_cols := cols; t_rows := rows |} = Ok (Some (INR n))
    /\ wl_nvisits ax1 filter_col lsst_filter depth_cut ebvlim min_exp badval ebv {| t_cols := cols; t_rows := rows ++ extra |} = Ok (Some (INR n'))
    /\ (n <= n')%nat.
Proof.
  intros ax1 fc f dc lim me bad ebv cols rows extra a d HC HD HL HA E1 D LE.
  destruct (C282_count ax1 fc f dc lim me bad ebv {| t_cols := cols; t_rows := rows |} a) as (x & E & P & _); auto.
  { intros v I. apply HD. apply in_or_app. now left. }
  destruct (C282_count ax1 fc f dc lim me bad ebv {| t_cols := cols; t_rows := rows ++ extra |} a) as (x' & E' & P' & _); auto.
  cbn [t_rows t_cols] in *.
  assert (C : forall l, CountIs (fun v => me < v_exp v) l (length (filter (fun v => rltb me (v_exp v)) l)))
    by (intro l; apply Small_Proofs.count_filter; intros; apply rltb_true).
  exists (length (filter (fun v => rltb me (v_exp v)) rows)), (length (filter (fun v => rltb me (v_exp v)) (rows ++ extra))).
  split; [rewrite E; f_equal; eapply P; [repeat split; eauto; apply D|apply C]|].
  split; [|rewrite filter_app, app_length; lia].
  rewrite E'. f_equal.
  assert (NE : map v_m5 (filter (fun v => String.eqb (v_str v fc) f) (rows ++ extra)) <> []).
  { destruct D as [NE _]. rewrite filter_app, map_app. intro Q. apply app_eq_nil in Q. destruct Q as [Q _]. contradiction. }
  destruct (dust_exists (a * ebv) _ NE) as (c & _ & D').
  eapply P'; [|apply C]. split; [assumption|]. split; [exact D'|].
  rewrite filter_app, map_app in D'. pose proof (dust_more _ _ _ _ _ D D'). lra.
Qed.
Print Assumptions C282_more.
Example C282_more_case : DustDepth (2.1 * 0.1) (map v_m5 (filter (fun v => String.eqb (v_str v "band") "i") six)) (26 - 2.1 * 0.1) /\ 24.5 <= 26 - 2.1 * 0.1.
Proof. split; [apply single_dust|lra]. Qed.

(** ** C283: RIZDetectionCoaddExposureTime *)
(** Where the dust allows, the total exposure time of the visits in the detection bands (r, i and z by default) longer than the
    minimum is reported. *)
Theorem C283_total : forall filter_col ebvlim min_exp det min_bands badval ebv t,
  In filter_col (t_cols t) -> ebv <= ebvlim ->
  let bands := match det with [] => ["r"; "i"; "z"]%string | _ => det end in
  forall used, Sel (fun v => min_exp < v_exp v /\ In (v_str v filter_col) bands) (t_rows t) used ->
  riz_exptime filter_col ebvlim min_exp det min_bands badval ebv t = Ok (Some (fold_right Rplus 0 (map v_exp used))).
Proof.
  intros fc lim me det mb bad ebv t HC E bands used S. unfold riz_exptime.
  apply has_in in HC. rewrite (proj2 (rltb_false _ _) E). unfold column. rewrite HC. cbn [bind]. do 2 f_equal. unfold rsum. f_equal. f_equal.
  eapply Template_Proofs.sel_unique; [|exact S]. apply Template_Proofs.sel_filter. intro v. rewrite Bool.andb_true_iff, rltb_true.
  fold (has (v_str v fc) (det_bands det)). rewrite has_in. reflexivity.
Qed.
Print Assumptions C283_total.
Example C283_total_case : riz_exptime "band" 0.2 15 [] [] (Some (-666)) 0.1 (tab six) = Ok (Some 90).
Proof.
  rewrite (C283_total "band" 0.2 15 [] [] (Some (-666)) 0.1 (tab six)) with (used := [mk "r" 26 30; mk "i" 26 30; mk "z" 26 30]).
  - do 2 f_equal. cbn. lra.
  - now left.
  - lra.
  - cbn. do 2 (apply sel_no; [intros [_ I]; cbn in I; intuition discriminate|]).
    do 3 (apply sel_yes; [cbn; split; [lra|tauto]|]). apply sel_no; [intros [_ I]; cbn in I; intuition discriminate|]. constructor.
Qed.
(** Dusty fields are excluded. *)
Theorem C283_dust : forall filter_col ebvlim min_exp det min_bands badval ebv t,
  ebvlim < ebv -> riz_exptime filter_col ebvlim min_exp det min_bands badval ebv t = Ok badval.
Proof. intros. unfold riz_exptime. now rewrite (proj2 (rltb_true _ _) H). Qed.
Print Assumptions C283_dust.
Example C283_dust_case : 0.2 < 0.3.
Proof. lra. Qed.
(** Areas where the bands [min_bands] are not all present are not excluded. *)
Theorem C283_bands_refuted : ~ (forall ebvlim min_exp det min_bands ebv t x,
  riz_exptime "band" ebvlim min_exp det min_bands None ebv t = Ok (Some x) ->
  forall b, In b min_bands -> exists v, In v (t_rows t) /\ v_str v "band"%string = b).
Proof.
  intro H. destruct (H 0.2 15 [] ["u"; "g"; "r"; "i"; "z"; "y"]%string 0.1 (tab [mk "r" 26 30]) 30) with (b := "u"%string) as (v & I & B).
  - rewrite (C283_total "band" 0.2 15 [] _ None 0.1 (tab [mk "r" 26 30])) with (used := [mk "r" 26 30]).
    + do 2 f_equal. cbn. lra.
    + now left.
    + lra.
    + constructor; [|constructor]. cbn. split; [lra|tauto].
  - now left.
  - destruct I as [<-|[]]. discriminate.
Qed.
Print Assumptions C283_bands_refuted.
(** A visit of exactly the minimal exposure time does not contribute. *)
Theorem C283_minimal_refuted : ~ (forall ebvlim min_exp ebv t x v,
  riz_exptime "band" ebvlim min_exp [] [] None ebv t = Ok (Some x) -> (forall w, In w (t_rows t) -> 0 < v_exp w) ->
  In v (t_rows t) -> In (v_str v "band"%string) ["r"; "i"; "z"]%string -> min_exp <= v_exp v -> v_exp v <= x).
Proof.
  intro H. specialize (H 0.2 15 0.1 (tab [mk "r" 26 15]) 0 (mk "r" 26 15)).
  rewrite (C283_total "band" 0.2 15 [] [] None 0.1 (tab [mk "r" 26 15])) with (used := []) in H.
  - cbn in H. specialize (H eq_refl). assert (15 <= 0); [|lra].
    apply H; [intros w [<-|[]]; cbn; lra|now left|now left|lra].
  - now left.
  - lra.
  - apply sel_no; [cbn; intros [C _]; lra|constructor].
Qed.
Print Assumptions C283_minimal_refuted.

(** ** C284: NestedRIZExptimeExgalM5Metric *)
(** The pair holds the value of ExgalM5WithCuts and the exposure time of the i-band visits. *)
Theorem C284_pair_partial : forall ax1 lsst_filter extinction_cut depth_cut n_filters badval ebv t d e,
  In "band"%string (t_cols t) -> ebv <= extinction_cut ->
  nested_riz ax1 "band" lsst_filter extinction_cut depth_cut n_filters badval ebv t = Ok (d, e) ->
  exgal_with_cuts ax1 "band" lsst_filter extinction_cut depth_cut n_filters badval ebv t = Ok d
  /\ forall used, Sel (fun v => 15 < v_exp v /\ v_str v "band"%string = "i"%string) (t_rows t) used -> e = Some (fold_right Rplus 0 (map v_exp used)).
Proof.
  intros ax1 f cut dc n bad ebv t d e HC E H. unfold nested_riz in H.
  destruct (exgal_with_cuts ax1 "band" f cut dc n bad ebv t) as [d'|] eqn:X; [|discriminate]. cbn [bind] in H.
  rewrite select_ok in H by (now apply has_in). cbn [bind] in H.
  unfold riz_exptime in H. rewrite (proj2 (rltb_false _ _) E) in H. unfold column in H. cbn [t_cols t_rows] in H.
  rewrite (proj2 (has_in _ _) HC) in H. cbn [bind] in H. injection H as <- <-. split; [reflexivity|].
  intros used S. f_equal. unfold rsum. f_equal. f_equal.
  assert (FF : forall (p q : visit -> bool) l, filter p (filter q l) = filter (fun v => p v && q v)%bool l).
  { intros p q l. induction l as [|v l IH]; [reflexivity|]. cbn [filter]. destruct (q v); cbn [filter]; [rewrite Bool.andb_true_r|rewrite Bool.andb_false_r]; now rewrite IH. }
  unfold rows_in. rewrite FF. eapply Template_Proofs.sel_unique; [|exact S]. apply Template_Proofs.sel_filter. intro v.
  rewrite !Bool.andb_true_iff, rltb_true, String.eqb_eq. cbn [det_bands existsb].
  split.
  - intros [[A _] B]. auto.
  - intros [A B]. rewrite B. auto.
Qed.
Print Assumptions C284_pair_partial.
(** The exposure time "riz" leaves out the r and z visits. *)
Theorem C284_riz_refuted : ~ (forall ax1 n_filters ebv t d e,
  nested_riz ax1 "band" "i" 0.2 24 n_filters None ebv t = Ok (d, e) ->
  riz_exptime "band" 0.2 15 [] [] (Some (-666)) ebv t = Ok e).
Proof.
  intro H. destruct (nested_riz ax1_0 "band" "i" 0.2 24 6 None 0.1 (tab six)) as [[d e]|] eqn:E.
  - pose proof (H _ _ _ _ _ _ E) as R. rewrite C283_total_case in R. injection R as <-.
    destruct (C284_pair_partial ax1_0 "i" 0.2 24 6 None 0.1 (tab six) d (Some 90) (or_introl eq_refl) ltac:(lra) E) as [_ P].
    specialize (P [mk "i" 26 30]). cbn in P.
    assert (Some 90 = Some (30 + 0)).
    { apply P. do 3 (apply sel_no; [intros [_ I]; cbn in I; discriminate|]). apply sel_yes; [cbn; split; [lra|reflexivity]|].
      do 2 (apply sel_no; [intros [_ I]; cbn in I; discriminate|]). constructor. }
    injection H0 as C. lra.
  - unfold nested_riz in E. destruct (C281_cuts ax1_0 "i" 0.2 24 6 None 0.1 (tab six) 2.1) as (x & X & _); try reflexivity; try lra.
    + now left.
    + intros v I. cbn in I. repeat (destruct I as [<-|I]; [cbn; lra|]). destruct I.
    + rewrite X in E. cbn [bind] in E. rewrite select_ok in E by reflexivity. cbn [bind] in E. unfold riz_exptime in E.
      destruct (rltb 0.2 0.1); discriminate.
Qed.
Print Assumptions C284_riz_refuted.
Example C284_pair_case : exists d e, nested_riz ax1_0 "band" "i" 0.2 24 6 None 0.1 (tab six) = Ok (d, e).
Proof.
  unfold nested_riz. destruct (C281_cuts ax1_0 "i" 0.2 24 6 None 0.1 (tab six) 2.1) as (x & X & _); try reflexivity; try lra.
  - now left.
  - intros v I. cbn in I. repeat (destruct I as [<-|I]; [cbn; lra|]). destruct I.
  - rewrite X. cbn [bind]. rewrite select_ok by reflexivity. cbn [bind]. unfold riz_exptime. rewrite (proj2 (rltb_false _ _)) by lra. cbn [column t_cols has existsb String.eqb Ascii.eqb Bool.eqb orb bind tab]. eauto.
Qed.
(** Of a dusty field the depth is the bad value and the exposure time is the number -666. *)
Theorem C284_dusty_refuted : ~ (forall ax1 badval ebv t d e, 0.2 < ebv -> In "band"%string (t_cols t) ->
  nested_riz ax1 "band" "i" 0.2 24 6 badval ebv t = Ok (d, e) -> d = badval /\ e = badval).
Proof.
  intro H. assert (E : nested_riz ax1_0 "band" "i" 0.2 24 6 None 0.3 (tab six) = Ok (None, Some (-666))).
  { unfold nested_riz, exgal_with_cuts, riz_exptime. rewrite (proj2 (rltb_true 0.2 0.3)) by lra. cbn [bind].
    rewrite select_ok by reflexivity. reflexivity. }
  destruct (H ax1_0 None 0.3 (tab six) None (Some (-666)) ltac:(lra) (or_introl eq_refl) E) as [_ C]. discriminate.
Qed.
Print Assumptions C284_dusty_refuted.
