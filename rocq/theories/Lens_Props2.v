(** Properties of the linear models of depths: C285-C287. *)
From Coq Require Import String Ascii Reals ZArith Lra Lia Psatz List Permutation.
From Verif Require Import Base Depth_Model Depth_Spec Depth_Proofs Lens_Model Lens_Spec Lens_Proofs Small_Spec Lens_Props.
Import ListNotations.
Open Scope R_scope.

(** [ds] are the dust-corrected depths of the visits in the bands [bands]. *)
Definition Depths (ax1 : dict) (filter_col : string) (ebv : R) (t : table) (bands : list string) (ds : list R) : Prop :=
  Forall2 (fun b d => exists a, lookup ax1 b = Some a /\
     DustDepth (a * ebv) (map v_m5 (filter (fun v => String.eqb (v_str v filter_col) b) (t_rows t))) d) bands ds.
(** sum of coefficient times depth *)
Definition combination (cs ds : list R) : R := fold_right Rplus 0 (map (fun p => fst p * snd p) (combine cs ds)).

Lemma depths_row ax1 fc bad ebv t bands ds : has fc (t_cols t) = true -> (forall v, In v (t_rows t) -> -666 < v_m5 v) ->
  bands <> [] -> Depths ax1 fc ebv t bands ds -> depth_row ax1 fc bad ebv t bands = Ok (map Some ds).
Proof.
  intros HC HD NE D. unfold depth_row. destruct bands as [|b0 bs0]; [congruence|]. clear NE. set (bands := b0 :: bs0) in *.
  destruct (band_depths_ok ax1 fc bad ebv t bands HC HD) as (ns & E & F).
  { intros b I. clear - D I. induction D as [|c d l l' (a & A & _) D IH]; [destruct I|]. destruct I as [<-|I]; [congruence|auto]. }
  rewrite E. f_equal. clear E. revert ds D. clearbody bands. induction F as [|b n bands ns (a & A & P) F IH]; intros ds D; inversion D as [|? d ? ds' (a' & A' & P') D']; subst; [reflexivity|].
  cbn [map]. f_equal; [|now apply IH]. rewrite A in A'. injection A' as <-.
  destruct P as [[N _]|(x & -> & P)].
  - destruct P' as [NE _]. unfold rows_in in N. rewrite N in NE. now destruct NE.
  - f_equal. eapply dust_unique; eassumption.
Qed.
Lemma dot_comb ds cs : ndot (map Some ds) cs = Some (combination cs ds).
Proof.
  rewrite ndot_some. f_equal. unfold combination. revert cs. induction ds as [|d ds IH]; intro cs; destruct cs as [|c cs]; try reflexivity.
  cbn. rewrite IH. ring.
Qed.
Lemma not_bad ds bad : (forall x, bad = Some x -> ~ In x ds) -> existsb (fun x => neqb x bad) (map Some ds) = false.
Proof.
  intro H. destruct (existsb (fun x => neqb x bad) (map Some ds)) eqn:E; [|reflexivity]. apply existsb_exists in E.
  destruct E as (n & I & Q). apply in_map_iff in I. destruct I as (d & <- & I). destruct bad as [x|]; [|discriminate].
  cbn in Q. apply reqb_true in Q. subst. destruct (H x eq_refl I).
Qed.
Lemma no_cuts md bands : forall ds, single_cuts md [] [] bands ds = Ok false.
Proof. induction bands as [|b r IH]; intros [|d ds]; try reflexivity. cbn. apply IH. Qed.

(** ** C285: SingleLinearMultibandModelMetric *)
(** With an empty dictionary of mean depths and no depth cuts the value is the constant plus the sum of coefficient times
    dust-corrected depth over the bands of the model. *)
Theorem C285_value_partial : forall ax1 model post extinction_cut n_filters filter_col badval ebv t ds,
  In filter_col (t_cols t) -> (forall v, In v (t_rows t) -> -666 < v_m5 v) ->
  ebv <= extinction_cut -> AtLeast n_filters (map (fun v => v_str v filter_col) (t_rows t)) ->
  let bands := filter (fun b => existsb (String.eqb b) ["u"; "g"; "r"; "i"; "z"; "y"]%string) (map fst model) in
  bands <> [] -> Depths ax1 filter_col ebv t bands ds -> (forall x, badval = Some x -> ~ In x ds) ->
  let coefficient b := match dget String.eqb model b with Some c => c | None => 0 end in
  single_linear ax1 model [] [] [] post extinction_cut n_filters filter_col badval ebv t
  = Ok (post (Some (coefficient "cst"%string + combination (map coefficient bands) ds))).
Proof.
  intros ax1 model post cut n fc bad ebv t ds HC HD HE HN bands NE D NB coefficient. unfold single_linear.
  apply has_in in HC. rewrite (proj2 (rltb_false _ _) HE). unfold column. rewrite HC. cbn [bind].
  rewrite (proj2 (distinct_ltb _ _) HN). fold bands. change (model_bands model) with bands.
  rewrite (depths_row ax1 fc bad ebv t bands ds HC HD NE D). cbn [bind].
  rewrite subtract_none by reflexivity. cbn [bind]. rewrite (not_bad ds bad NB), no_cuts. cbn [bind].
  rewrite dot_comb. reflexivity.
Qed.
Print Assumptions C285_value_partial.
Lemma six_depth b : In b ugrizy -> map v_m5 (filter (fun v => String.eqb (v_str v "band") b) six) = [26].
Proof. intro I. cbn in I. repeat (destruct I as [<-|I]; [reflexivity|]). destruct I. Qed.
Lemma six_depths bands : (forall b, In b bands -> In b ugrizy) -> Depths ax1_0 "band" 0 (tab six) bands (map (fun _ => 26) bands).
Proof.
  induction bands as [|b r IH]; intro H; cbn [map]; constructor; [|apply IH; intros; apply H; now right].
  assert (I : In b ugrizy) by (apply H; now left).
  assert (A : exists a, lookup ax1_0 b = Some a).
  { cbn in I. repeat (destruct I as [<-|I]; [eexists; reflexivity|]). destruct I. }
  destruct A as (a & A). exists a. split; [exact A|]. cbn [t_rows tab]. rewrite (six_depth b I).
  replace 26 with (26 - a * 0) at 2 by ring. apply single_dust.
Qed.
Lemma six_deep v : In v six -> -666 < v_m5 v.
Proof. intro I. cbn in I. repeat (destruct I as [<-|I]; [cbn; lra|]). destruct I. Qed.
Definition two_bands : dict := [("i", 0.5); ("cst", 1); ("r", 2)]%string.
Example C285_value_case : single_linear ax1_0 two_bands [] [] [] (fun x => x) 0.2 6 "band" None 0 (tab six) = Ok (Some (1 + (0.5 * 26 + (2 * 26 + 0)))).
Proof.
  rewrite (C285_value_partial ax1_0 two_bands (fun x => x) 0.2 6 "band" None 0 (tab six) [26; 26]).
  - reflexivity.
  - now left.
  - apply six_deep.
  - lra.
  - apply six_atleast.
  - discriminate.
  - apply (six_depths ["i"; "r"]%string). intros b I. cbn in I. cbn. intuition.
  - discriminate.
Qed.
(** One band and its mean depth: the mean is subtracted first. *)
Theorem C285_one_partial : forall ax1 b c post extinction_cut n_filters filter_col badval ebv t d mean,
  In b ["u"; "g"; "r"; "i"; "z"; "y"]%string ->
  In filter_col (t_cols t) -> (forall v, In v (t_rows t) -> -666 < v_m5 v) ->
  ebv <= extinction_cut -> AtLeast n_filters (map (fun v => v_str v filter_col) (t_rows t)) ->
  Depths ax1 filter_col ebv t [b] [d] -> badval <> Some (d - mean) ->
  single_linear ax1 [(b, c)] [(b, mean)] [] [] post extinction_cut n_filters filter_col badval ebv t = Ok (post (Some (c * (d - mean)))).
Proof.
  intros ax1 b c post cut n fc bad ebv t d mean Ib HC HD HE HN D NB. unfold single_linear.
  apply has_in in HC. rewrite (proj2 (rltb_false _ _) HE). unfold column. rewrite HC. cbn [bind].
  rewrite (proj2 (distinct_ltb _ _) HN).
  assert (MB : model_bands [(b, c)] = [b]).
  { unfold model_bands. cbn [map fst filter]. replace (existsb (String.eqb b) ugrizy) with true; [reflexivity|]. symmetry. fold (has b ugrizy). now apply has_in. }
  rewrite MB. rewrite (depths_row ax1 fc bad ebv t [b] [d] HC HD ltac:(discriminate) D). cbn [bind subtract_means].
  unfold lookup. cbn [dget]. rewrite String.eqb_refl. cbn [map nsub bind].
  assert (NB' : existsb (fun x => neqb x bad) [Some (d - mean)] = false).
  { change [Some (d - mean)] with (map Some [d - mean]). apply not_bad. intros x -> [E|[]]. subst. congruence. }
  change (nsub (Some d) (Some mean)) with (Some (d - mean)).
  match goal with |- context [existsb ?f ?l] => replace (existsb f l) with false by (symmetry; exact NB') end.
  change [Some (d - mean)] with (map Some [d - mean]). rewrite no_cuts. cbn [bind]. rewrite dot_comb. unfold combination, cst, coef, lookup. cbn [map dget combine fold_right fst snd nadd].
  rewrite String.eqb_refl.
  assert (NC : ("cst" =? b)%string = false) by (cbn in Ib; repeat (destruct Ib as [<-|Ib]; [reflexivity|]); destruct Ib).
  rewrite NC. replace (0 + (c * (d - mean) + 0)) with (c * (d - mean)) by ring. reflexivity.
Qed.
Print Assumptions C285_one_partial.
Example C285_one_case : single_linear ax1_0 [("i", 3)]%string [("i", 25)]%string [] [] (fun x => x) 0.2 6 "band" None 0 (tab six) = Ok (Some (3 * (26 - 25))).
Proof.
  apply (C285_one_partial ax1_0 "i" 3 (fun x => x) 0.2 6 "band" None 0 (tab six) 26 25).
  - cbn. tauto.
  - now left.
  - apply six_deep.
  - lra.
  - apply six_atleast.
  - apply (six_depths ["i"]%string). intros b I. cbn in I. cbn. intuition.
  - discriminate.
Qed.
(** With the default mean depths (zero in every band) a model of two or more bands raises for every slice that passes the
    cuts on dust and coverage and whose bands have known coefficients. *)
Theorem C285_default_refuted : forall ax1 model min_cut max_cut post extinction_cut n_filters filter_col badval ebv t,
  In filter_col (t_cols t) -> (forall v, In v (t_rows t) -> -666 < v_m5 v) ->
  ebv <= extinction_cut -> AtLeast n_filters (map (fun v => v_str v filter_col) (t_rows t)) ->
  let bands := filter (fun b => existsb (String.eqb b) ["u"; "g"; "r"; "i"; "z"; "y"]%string) (map fst model) in
  (2 <= length bands)%nat -> (forall b, In b bands -> lookup ax1 b <> None) ->
  single_linear ax1 model (map (fun b => (b, 0)) ["u"; "g"; "r"; "i"; "z"; "y"]%string) min_cut max_cut post extinction_cut n_filters filter_col badval ebv t
  = Err IndexError.
Proof.
  intros ax1 model mn mx post cut n fc bad ebv t HC HD HE HN bands L2 HA. unfold single_linear.
  apply has_in in HC. rewrite (proj2 (rltb_false _ _) HE). unfold column. rewrite HC. cbn [bind].
  rewrite (proj2 (distinct_ltb _ _) HN). change (model_bands model) with bands.
  assert (IB : forall b, In b bands -> In b ugrizy) by (intros b I; unfold bands in I; apply filter_In in I; destruct I as [_ I]; now apply has_in in I).
  assert (LK : forall b, In b ugrizy -> lookup (map (fun b => (b, 0)) ugrizy) b = Some 0).
  { intros b I. cbn in I. repeat (destruct I as [<-|I]; [reflexivity|]). destruct I. }
  fold ugrizy. destruct bands as [|b0 [|b1 rest]] eqn:EB; [cbn in L2; lia|cbn in L2; lia|].
  unfold depth_row. destruct (band_depths_ok ax1 fc bad ebv t (b0 :: b1 :: rest) HC HD HA) as (ds & E & _).
  rewrite E. cbn [bind]. cbn [subtract_means]. rewrite (LK b0) by (apply IB; now left).
  rewrite (LK b1) by (apply IB; right; now left). reflexivity.
Qed.
Print Assumptions C285_default_refuted.
Example C285_default_case : single_linear ax1_0 two_bands (map (fun b => (b, 0)) ["u"; "g"; "r"; "i"; "z"; "y"]%string) [] [] (fun x => x) 0.2 6 "band" None 0 (tab six) = Err IndexError.
Proof.
  apply C285_default_refuted.
  - now left.
  - apply six_deep.
  - lra.
  - apply six_atleast.
  - cbn. lia.
  - intros b I. cbn in I. destruct I as [<-|[<-|[]]]; discriminate.
Qed.
(** A band without visits: with a number as bad value and a mean depth, the bad value itself is used as a depth. *)
Theorem C285_missing_refuted : ~ (forall ax1 model mean_depth n_filters badval ebv t x,
  ~ (exists v, In v (t_rows t) /\ In (v_str v "band"%string) (map fst model)) ->
  single_linear ax1 model mean_depth [] [] (fun x => x) 0.2 n_filters "band" badval ebv t = Ok x -> x = badval).
Proof.
  intro H. specialize (H ax1_0 [("i", 1)]%string [("i", 25)]%string 1%nat (Some (-666)) 0 (tab [mk "r" 26 30]) (Some (0 + ((-666 - 25) * 1 + 0)))).
  assert (Some (0 + ((-666 - 25) * 1 + 0)) = Some (-666)); [|injection H0; lra]. apply H.
  - intros (v & [<-|[]] & [I|[]]). discriminate.
  - unfold single_linear. rewrite (proj2 (rltb_false 0.2 0)) by lra.
    change (column (tab [mk "r" 26 30]) "band") with (@Ok (list string) ["r"%string]). cbn [bind].
    replace (distinct ["r"%string] <? 1)%nat with false by reflexivity.
    change (model_bands [("i"%string, 1)]) with ["i"%string].
    match goal with |- context [depth_row ?a ?b ?c ?d ?e ?f] =>
      replace (depth_row a b c d e f) with (@Ok (list num) [Some (-666)]) by reflexivity end. cbn [bind].
    match goal with |- context [subtract_means ?a ?b ?c ?d] =>
      change (subtract_means a b c d) with (@Ok (list num) [Some (-666 - 25)]) end. cbn [bind existsb neqb].
    rewrite reqb_false by lra. cbn [orb]. rewrite no_cuts. reflexivity.
Qed.
Print Assumptions C285_missing_refuted.

(** ** C286: NestedLinearMultibandModelMetric *)
Lemma nested_nocut bad ds : map (fun p => nested_cut [] [] bad (fst p) (snd p)) (combine ugrizy (map Some ds)) = map Some (firstn 6 ds).
Proof.
  do 7 (destruct ds as [|? ds]; [reflexivity|]). reflexivity.
Qed.
Lemma nested_bins_value ax1 post fc bad ebv t ds : has fc (t_cols t) = true -> (forall v, In v (t_rows t) -> -666 < v_m5 v) ->
  Depths ax1 fc ebv t ugrizy ds -> forall models,
  nested_bins ax1 models [] [] [] post fc bad ebv t
  = Ok (map (fun model => post (Some (coef model "cst" + combination (map (coef model) ugrizy) ds))) models).
Proof.
  intros HC HD D. induction models as [|model rest IH]; [reflexivity|]. cbn [nested_bins].
  rewrite (depths_row ax1 fc bad ebv t ugrizy ds HC HD ltac:(discriminate) D). cbn [bind].
  rewrite nested_nocut.
  assert (L : length ds = 6%nat).
  { clear - D. assert (G : forall (b : list string) d, Depths ax1 fc ebv t b d -> length d = length b) by (induction 1; cbn; congruence). now rewrite (G _ _ D). }
  rewrite firstn_all2 by lia. rewrite subtract_none by reflexivity. cbn [bind]. rewrite IH. cbn [bind map]. rewrite dot_comb. reflexivity.
Qed.
(** Without mean depths and cuts, where all six bands have visits: one value for each model, the constant plus the sum over
    u, g, r, i, z, y of coefficient (zero when absent) times dust-corrected depth. *)
Theorem C286_values_partial : forall ax1 models post extinction_cut n_filters filter_col badval ebv t ds,
  In filter_col (t_cols t) -> (forall v, In v (t_rows t) -> -666 < v_m5 v) ->
  ebv <= extinction_cut -> AtLeast n_filters (map (fun v => v_str v filter_col) (t_rows t)) ->
  Depths ax1 filter_col ebv t ["u"; "g"; "r"; "i"; "z"; "y"]%string ds ->
  let coefficient model b := match dget String.eqb model b with Some c => c | None => 0 end in
  nested_linear ax1 models [] [] [] post extinction_cut n_filters filter_col badval ebv t
  = Ok (map (fun model => post (Some (coefficient model "cst"%string
                                     + combination (map (coefficient model) ["u"; "g"; "r"; "i"; "z"; "y"]%string) ds))) models).
Proof.
  intros ax1 models post cut n fc bad ebv t ds HC HD HE HN D coefficient. unfold nested_linear. apply has_in in HC.
  rewrite (proj2 (rltb_false _ _) HE). unfold column. rewrite HC. cbn [bind]. rewrite (proj2 (distinct_ltb _ _) HN).
  now rewrite (nested_bins_value ax1 post fc bad ebv t ds HC HD D).
Qed.
Print Assumptions C286_values_partial.
Example C286_values_case : exists l, nested_linear ax1_0 [two_bands; [("u", 1)]%string] [] [] [] (fun x => x) 0.2 6 "band" None 0 (tab six) = Ok l /\ length l = 2%nat.
Proof.
  eexists. split; [|shelve].
  apply C286_values_partial with (ds := map (fun _ => 26) ugrizy).
  - now left.
  - apply six_deep.
  - lra.
  - apply six_atleast.
  - apply (six_depths ugrizy). auto.
  Unshelve. reflexivity.
Qed.
(** The number of values is the number of models whatever happens. *)
Theorem C286_length : forall ax1 models mean_depth min_cut max_cut post extinction_cut n_filters filter_col badval ebv t l,
  nested_linear ax1 models mean_depth min_cut max_cut post extinction_cut n_filters filter_col badval ebv t = Ok l -> length l = length models.
Proof.
  intros ax1 models md mn mx post cut n fc bad ebv t l. unfold nested_linear.
  destruct (rltb cut ebv); [intro H; injection H as <-; apply repeat_length|].
  destruct (column t fc) as [fs|]; [|discriminate]. cbn [bind].
  destruct (distinct fs <? n)%nat; [intro H; injection H as <-; apply repeat_length|].
  revert l. induction models as [|m rest IH]; intros l H; [injection H as <-; reflexivity|]. cbn [nested_bins] in H.
  destruct (depth_row ax1 fc bad ebv t ugrizy) as [d0|]; [|discriminate]. cbn [bind] in H.
  destruct (subtract_means md 0 ugrizy _) as [d|]; [|discriminate]. cbn [bind] in H.
  destruct (nested_bins ax1 rest md mn mx post fc bad ebv t) as [r|]; [|discriminate]. cbn [bind] in H. injection H as <-.
  cbn. f_equal. now apply IH.
Qed.
Print Assumptions C286_length.
(** A band that no model uses and that has no visits spoils every value (bad value NaN, the default). *)
Theorem C286_unused_refuted : ~ (forall ax1 models ebv t l,
  nested_linear ax1 models [] [] [] (fun x => x) 0.2 1 "band" None ebv t = Ok l ->
  ebv <= 0.2 ->
  forall model, In model models ->
  (forall b, In b (map fst model) -> exists v, In v (t_rows t) /\ v_str v "band"%string = b) -> (forall x, In x l -> x <> None)).
Proof.
  intro H. set (t := tab [mk "i" 26 30]).
  assert (HC : has "band" (t_cols t) = true) by reflexivity.
  assert (HD : forall v, In v (t_rows t) -> -666 < v_m5 v) by (intros v [<-|[]]; cbn; lra).
  destruct (band_depths_ok ax1_0 "band" None 0 t ugrizy HC HD) as (ds & E & F).
  { intros b I. cbn in I. repeat (destruct I as [<-|I]; [discriminate|]). destruct I. }
  assert (RUN : nested_linear ax1_0 [[("i", 1)]%string] [] [] [] (fun x => x) 0.2 1 "band" None 0 t = Ok [None]).
  { unfold nested_linear. rewrite (proj2 (rltb_false 0.2 0)) by lra. unfold column. rewrite HC. cbn [bind].
    replace (distinct (map (fun v => v_str v "band"%string) (t_rows t)) <? 1)%nat with false by reflexivity.
    cbn [nested_bins]. unfold depth_row. cbn [ugrizy]. fold ugrizy. change ["u"; "g"; "r"; "i"; "z"; "y"]%string with ugrizy. rewrite E. cbn [bind].
    rewrite subtract_none by reflexivity. cbn [bind].
    inversion F as [|? d0 ? ds0 (a & _ & P) F0]; subst.
    assert (d0 = None).
    { destruct P as [[_ ->]|(x & _ & NE & _)]; [reflexivity|]. now destruct NE. }
    subst d0. rewrite ndot_nan; [reflexivity| |].
    - cbn [ugrizy combine map fst snd]. now left.
    - rewrite !map_length, combine_length. pose proof (Forall2_length' _ _ _ F) as L. rewrite L. reflexivity. }
  apply (H _ _ _ _ _ RUN ltac:(lra) [("i", 1)]%string (or_introl eq_refl)) with (x := None).
  - intros b [<-|[]]. exists (mk "i" 26 30). split; [now left|reflexivity].
  - now left.
  - reflexivity.
Qed.
Print Assumptions C286_unused_refuted.
(** Giving the mean depth of any band other than u raises for every slice that passes the cuts. *)
Theorem C286_mean_refuted : forall ax1 model rest mean_depth min_cut max_cut post extinction_cut n_filters filter_col badval ebv t b,
  In filter_col (t_cols t) -> (forall v, In v (t_rows t) -> -666 < v_m5 v) ->
  ebv <= extinction_cut -> AtLeast n_filters (map (fun v => v_str v filter_col) (t_rows t)) ->
  (forall c, In c ["u"; "g"; "r"; "i"; "z"; "y"]%string -> lookup ax1 c <> None) ->
  In b ["g"; "r"; "i"; "z"; "y"]%string -> lookup mean_depth b <> None ->
  nested_linear ax1 (model :: rest) mean_depth min_cut max_cut post extinction_cut n_filters filter_col badval ebv t = Err IndexError.
Proof.
  intros ax1 model rest md mn mx post cut n fc bad ebv t b HC HD HE HN HA Ib HM. unfold nested_linear. apply has_in in HC.
  rewrite (proj2 (rltb_false _ _) HE). unfold column. rewrite HC. cbn [bind]. rewrite (proj2 (distinct_ltb _ _) HN).
  cbn [nested_bins]. destruct (band_depths_ok ax1 fc bad ebv t ugrizy HC HD HA) as (ds & E & _).
  unfold depth_row. change ugrizy with ("u" :: ["g"; "r"; "i"; "z"; "y"])%string at 1. cbv iota beta. rewrite E. cbn [bind].
  set (d1 := map _ (combine ugrizy ds)).
  assert (SM : subtract_means md 0 ugrizy d1 = Err IndexError).
  { change ugrizy with ("u" :: ["g"; "r"; "i"; "z"; "y"])%string. cbn [subtract_means].
    cbn in Ib. destruct Ib as [<-|[<-|[<-|[<-|[<-|[]]]]]];
      repeat match goal with |- context [lookup md ?x] => destruct (lookup md x) end; congruence. }
  rewrite SM. reflexivity.
Qed.
Print Assumptions C286_mean_refuted.
Example C286_mean_case : nested_linear ax1_0 [two_bands] [("g", 25)]%string [] [] (fun x => x) 0.2 6 "band" None 0 (tab six) = Err IndexError.
Proof.
  apply C286_mean_refuted with (b := "g"%string).
  - now left.
  - apply six_deep.
  - lra.
  - apply six_atleast.
  - intros c I. cbn in I. repeat (destruct I as [<-|I]; [discriminate|]). destruct I.
  - now left.
  - discriminate.
Qed.

(** ** C287: MultibandExgalM5 *)
(** Six values, for u, g, r, i, z, y in this order: the dust-corrected depth of the band, or the bad value for a band without
    visits; six bad values when the field is too dusty or has too few bands. *)
Theorem C287_bands : forall ax1 extinction_cut n_filters filter_col badval ebv t,
  In filter_col (t_cols t) -> (forall v, In v (t_rows t) -> -666 < v_m5 v) ->
  (forall c, In c ["u"; "g"; "r"; "i"; "z"; "y"]%string -> lookup ax1 c <> None) ->
  exists l, multiband_exgal ax1 extinction_cut n_filters filter_col badval ebv t = Ok l /\ length l = 6%nat
  /\ (ebv <= extinction_cut -> AtLeast n_filters (map (fun v => v_str v filter_col) (t_rows t)) ->
      Forall2 (fun b x => let ms := map v_m5 (filter (fun v => String.eqb (v_str v filter_col) b) (t_rows t)) in
                          (ms = [] /\ x = badval) \/ exists a d, lookup ax1 b = Some a /\ DustDepth (a * ebv) ms d /\ x = Some d)
              ["u"; "g"; "r"; "i"; "z"; "y"]%string l)
  /\ (extinction_cut < ebv \/ ~ AtLeast n_filters (map (fun v => v_str v filter_col) (t_rows t)) -> l = repeat badval 6).
Proof.
  intros ax1 cut n fc bad ebv t HC HD HA. unfold multiband_exgal. apply has_in in HC.
  destruct (rltb cut ebv) eqn:E1.
  { apply rltb_true in E1. exists (repeat bad 6). split; [reflexivity|]. split; [reflexivity|]. split; [intros; lra|auto]. }
  apply rltb_false in E1. unfold column. rewrite HC. cbn [bind].
  destruct (distinct (map (fun v => v_str v fc) (t_rows t)) <? n)%nat eqn:E2.
  { apply distinct_ltb_true in E2. exists (repeat bad 6). split; [reflexivity|]. split; [reflexivity|]. split; [intros; contradiction|auto]. }
  apply distinct_ltb in E2.
  destruct (band_depths_ok ax1 fc bad ebv t ugrizy HC HD HA) as (ds & E & F).
  exists ds. split; [exact E|]. pose proof (Forall2_length' _ _ _ F) as L. split; [now rewrite L|]. split.
  - intros _ _. eapply Forall2_impl'; [|exact F]. intros b x (a & A & [[N ->]|(d & -> & D)]); cbv zeta.
    + left. unfold rows_in in N. rewrite N. auto.
    + right. eauto.
  - intros [C|C]; [lra|contradiction].
Qed.
Print Assumptions C287_bands.
Example C287_bands_case : multiband_exgal ax1_0 0.2 6 "band" None 0 (tab six) = Ok (map (fun _ => Some 26) ugrizy).
Proof.
  unfold multiband_exgal. rewrite (proj2 (rltb_false 0.2 0)) by lra.
  change (column (tab six) "band") with (@Ok (list string) ugrizy). cbn [bind].
  replace (distinct ugrizy <? 6)%nat with false by reflexivity.
  rewrite (depths_row ax1_0 "band" None 0 (tab six) ugrizy (map (fun _ => 26) ugrizy)); [reflexivity|reflexivity|apply six_deep|discriminate|].
  apply six_depths. auto.
Qed.
