(** Property theorems: C49-C52, C57, C95-C102. *)
From Verif Require Import Base Stacker_Model Stacker_Spec Stacker_Proofs.
From Coq Require Import Lia QArith Lqa Reals Lra Permutation Ascii.
Open Scope Z_scope.

(** C49: the search for default stackers ends, keeps the given stackers in front, and every needed column is then
    requested from the database or made by a stacker of the list; nothing else is requested *)
Theorem C49_columns_provided : forall w order slicer_cols metric_cols stackers,
  (forall m, Permutation (order m) m) ->
  exists defaults db,
    find_req_cols w order slicer_cols metric_cols stackers = Some (stackers ++ defaults, db) /\
    (forall col, needed slicer_cols metric_cols (stackers ++ defaults) col ->
       In col db \/ made_by w (stackers ++ defaults) col \/ col = "metricdata"%string \/ col = "None"%string) /\
    (forall col, In col db -> needed slicer_cols metric_cols (stackers ++ defaults) col).
Proof.
  intros w order sc mc l Hp. destruct (find_req_cols_spec w order sc mc l Hp) as (ext & db & E & Hext & Hn & Hd).
  exists ext, db. split; [exact E|]. split.
  - intros col Hc. destruct (Hn col Hc) as [[_ [H|H]]|(k & Hk & s & Hs & Ek)]; [left; exact H | right; right; exact H|].
    right. left. exists s. split; [exact Hs|]. rewrite Ek. exact (proj2 (source_made _ _ _ Hk)).
  - intros col Hc. exact (proj1 (proj2 (Hd col Hc))).
Qed.
Print Assumptions C49_columns_provided.
(** the default stackers are those of classes not given, each class once or not at all is not needed: a default stacker
    is only there because it is the source of some column *)
Theorem C49_defaults_are_sources : forall w order slicer_cols metric_cols stackers final db,
  (forall m, Permutation (order m) m) ->
  find_req_cols w order slicer_cols metric_cols stackers = Some (final, db) ->
  forall n s, (length stackers <= n)%nat -> nth_error final n = Some s ->
  In (i_class s) (w_reg w) /\ i_req s = w_req w (i_class s) /\ exists col, In col (w_added w (i_class s)).
Proof.
  intros w order sc mc l final db Hp E n s Hn Hs. destruct (find_req_cols_spec w order sc mc l Hp) as (ext & db' & E' & Hext & _ & _).
  rewrite E' in E. injection E as <- <-. rewrite nth_error_app2 in Hs by exact Hn. apply nth_error_In in Hs.
  destruct (Hext s Hs) as [Er (c & Hc)]. destruct (source_made _ _ _ Hc) as [Hr Ha]. split; [exact Hr|]. split; [exact Er|].
  exists c. exact Ha.
Qed.
Print Assumptions C49_defaults_are_sources.
(** HourAngle (1) and ParallacticAngle (2, here reading HA): a metric on PA brings both in *)
Definition demo_world : world := {|
  w_reg := [1%nat; 2%nat];
  w_added := fun k => match k with 1%nat => ["HA"%string] | 2%nat => ["PA"%string] | _ => [] end;
  w_units := fun _ => 1%nat;
  w_req := fun k => match k with 1%nat => ["lst"%string; "ra"%string] | 2%nat => ["HA"%string; "dec"%string] | _ => [] end |}.
Example C49_case : find_req_cols demo_world (fun l => l) ["ra"%string] ["PA"%string; "metricdata"%string] [] =
  Some ([{| i_class := 2; i_req := ["HA"%string; "dec"%string] |}; {| i_class := 1; i_req := ["lst"%string; "ra"%string] |}],
        ["ra"%string; "dec"%string; "lst"%string; "ra"%string]).
Proof. reflexivity. Qed.

(** C57: the stackers found later run later, so one that another reads from comes after it *)
Theorem C57_inputs_first_refuted : ~ forall w order slicer_cols metric_cols stackers final db,
  (forall m, Permutation (order m) m) ->
  find_req_cols w order slicer_cols metric_cols stackers = Some (final, db) -> runs_after_inputs w final.
Proof.
  intros H. pose proof (H demo_world (fun l => l) [] ["PA"%string] [] _ _ (fun m => Permutation_refl m) eq_refl
    [] _ _ eq_refl "HA"%string (or_introl eq_refl)) as H'.
  destruct H' as (s & [] & _). exists {| i_class := 1; i_req := ["lst"%string; "ra"%string] |}.
  split; [right; left; reflexivity | left; reflexivity].
Qed.
Print Assumptions C57_inputs_first_refuted.
(** it holds when the given stackers are in order and no default stacker reads a column that a default stacker makes;
    missing: default stackers that depend on one another, and given stackers that depend on default ones *)
Theorem C57_inputs_first_partial : forall w order slicer_cols metric_cols stackers final db,
  (forall m, Permutation (order m) m) ->
  find_req_cols w order slicer_cols metric_cols stackers = Some (final, db) ->
  (forall before s after, stackers = before ++ s :: after -> forall col, In col (i_req s) ->
     made_by w before col \/ (~ made_by w stackers col /\ forall k, In k (w_reg w) -> ~ In col (w_added w k))) ->
  (forall k, In k (w_reg w) -> forall col, In col (w_req w k) ->
     made_by w stackers col \/ forall k', In k' (w_reg w) -> ~ In col (w_added w k')) ->
  runs_after_inputs w final.
Proof.
  intros w order sc mc l final db Hp E Hl Hd before s after Ef col Hc Hm.
  destruct (find_req_cols_spec w order sc mc l Hp) as (ext & db' & E' & Hext & _ & _). rewrite E' in E. injection E as Efin <-.
  assert (forall s', In s' ext -> In (i_class s') (w_reg w)) as Hreg.
  { intros s' Hs'. destruct (Hext s' Hs') as [_ (c & H)]. exact (proj1 (source_made _ _ _ H)). }
  assert (forall c, ~ made_by w l c -> (forall k, In k (w_reg w) -> ~ In c (w_added w k)) -> ~ made_by w final c) as Hno.
  { intros c N1 N2 (s' & Hs' & Ha). rewrite <- Efin in Hs'. apply in_app_or in Hs'. destruct Hs' as [Hs'|Hs'].
    - apply N1. exists s'. split; assumption.
    - exact (N2 _ (Hreg s' Hs') Ha). }
  destruct (Nat.lt_ge_cases (length before) (length l)) as [Hlt|Hge].
  - assert (exists after', l = before ++ s :: after') as (after' & El).
    { clear - Ef Efin Hlt. rewrite Ef in Efin. clear Ef. revert l Efin Hlt. induction before as [|b t IH]; intros l Efin Hlt.
      - destruct l as [|x l]; [cbn in Hlt; lia|]. cbn in Efin. injection Efin as -> _. exists l. reflexivity.
      - destruct l as [|x l]; [cbn in Hlt; lia|]. cbn in Efin. injection Efin as -> Efin. cbn in Hlt.
        destruct (IH l Efin ltac:(lia)) as (a' & ->). exists a'. reflexivity. }
    destruct (Hl before s after' El col Hc) as [H|[H1 H2]]; [exact H | destruct (Hno col H1 H2 Hm)].
  - assert (exists ext1 ext2, before = l ++ ext1 /\ ext = ext1 ++ s :: ext2) as (ext1 & ext2 & -> & Eext).
    { clear - Ef Efin Hge. rewrite Ef in Efin. clear Ef. revert before Efin Hge. induction l as [|x l IH]; intros before Efin Hge.
      - exists before, after. split; [reflexivity | exact Efin].
      - destruct before as [|b t]; [cbn in Hge; lia|]. cbn in Efin. injection Efin as -> Efin. cbn in Hge.
        destruct (IH t Efin ltac:(lia)) as (e1 & e2 & -> & ->). exists e1, e2. split; reflexivity. }
    assert (In s ext) as Hse by (rewrite Eext; apply in_or_app; right; left; reflexivity).
    destruct (Hext s Hse) as [Er _]. rewrite Er in Hc.
    assert (made_by w l col) as (s' & Hs' & Ha).
    { destruct (Hd _ (Hreg s Hse) col Hc) as [H|H]; [exact H|]. destruct Hm as (s' & Hs' & Ha). rewrite <- Efin in Hs'.
      apply in_app_or in Hs'. destruct Hs' as [Hs'|Hs']; [exists s'; split; assumption|]. destruct (H _ (Hreg s' Hs') Ha). }
    exists s'. split; [apply in_or_app; left; exact Hs' | exact Ha].
Qed.
Print Assumptions C57_inputs_first_partial.
(** an explicit hour angle stacker before the parallactic angle one *)
Example C57_case : exists final db, find_req_cols demo_world (fun l => l) [] ["PA"%string]
    [{| i_class := 1; i_req := ["lst"%string; "ra"%string] |}] = Some (final, db) /\ length final = 2%nat /\ runs_after_inputs demo_world final.
Proof.
  eexists _, _. split; [reflexivity|]. split; [reflexivity|].
  eapply (C57_inputs_first_partial demo_world (fun l => l) [] ["PA"%string] [{| i_class := 1; i_req := ["lst"%string; "ra"%string] |}]);
    [intros; apply Permutation_refl | reflexivity | |].
  - intros [|b [|b' t]] s after Hs col Hc; cbn in Hs; try discriminate Hs.
    injection Hs as <- <-. cbn in Hc. right. split.
    + intros (s & [<-|[]] & Ha). cbn in Ha. destruct Ha as [<-|[]]. destruct Hc as [H|[H|[]]]; discriminate.
    + intros k [<-|[<-|[]]]; cbn; intros [<-|[]]; destruct Hc as [H|[H|[]]]; discriminate.
  - intros k [<-|[<-|[]]] col Hc; cbn in Hc.
    + right. intros k' [<-|[<-|[]]]; cbn; intros [<-|[]]; destruct Hc as [H|[H|[]]]; discriminate.
    + destruct Hc as [<-|[<-|[]]].
      * left. exists {| i_class := 1; i_req := ["lst"%string; "ra"%string] |}. split; left; reflexivity.
      * right. intros k' [<-|[<-|[]]]; cbn; intros [H|[]]; discriminate.
Qed.

(** C95: a stacker that declares fewer units than columns (Dcr2Stacker: 4 columns, 2 units) is not known as the source
    of the columns without units, which are then asked of the database *)
Definition dcr2_world : world := {|
  w_reg := [0%nat];
  w_added := fun _ => ["dcr_var"%string; "ra_dcr_var"%string; "dec_dcr_var"%string; "ra_dec_dcr_cov"%string];
  w_units := fun _ => 2%nat;
  w_req := fun _ => ["band"%string; "altitude"%string] |}.
Theorem C95_stacker_columns_not_queried_refuted : ~ forall w order slicer_cols metric_cols stackers final db,
  (forall m, Permutation (order m) m) ->
  find_req_cols w order slicer_cols metric_cols stackers = Some (final, db) ->
  forall col, made_by w final col -> ~ In col db.
Proof.
  intros H. specialize (H dcr2_world (fun l => l) [] ["dec_dcr_var"%string] [{| i_class := 0; i_req := ["band"%string; "altitude"%string] |}] _ _
    (fun m => Permutation_refl m) eq_refl "dec_dcr_var"%string).
  apply H; [exists {| i_class := 0; i_req := ["band"%string; "altitude"%string] |}; split; [left; reflexivity | right; right; left; reflexivity]|].
  left. reflexivity.
Qed.
Print Assumptions C95_stacker_columns_not_queried_refuted.
(** nor are the columns of a stacker class defined after the first import of the bundles *)
Theorem C95_new_class_refuted : exists w final db,
  ~ In 7%nat (w_reg w) /\ find_req_cols w (fun l => l) [] ["mycol"%string] [{| i_class := 7; i_req := ["ra"%string] |}] = Some (final, db) /\
  made_by w final "mycol"%string /\ In "mycol"%string db.
Proof.
  exists {| w_reg := []; w_added := fun _ => ["mycol"%string]; w_units := fun _ => 1%nat; w_req := fun _ => [] |}.
  eexists _, _. split; [intros [] |]. split; [reflexivity|]. split; [|left; reflexivity].
  exists {| i_class := 7; i_req := ["ra"%string] |}. split; left; reflexivity.
Qed.
Print Assumptions C95_new_class_refuted.
(** no requested column is made by a registered class that declares a unit for each of its columns; missing: the other
    classes *)
Theorem C95_stacker_columns_not_queried_partial : forall w order slicer_cols metric_cols stackers final db,
  (forall m, Permutation (order m) m) ->
  find_req_cols w order slicer_cols metric_cols stackers = Some (final, db) ->
  forall col, In col db -> forall k, In k (w_reg w) -> (length (w_added w k) <= w_units w k)%nat -> ~ In col (w_added w k).
Proof.
  intros w order sc mc l final db Hp E col Hc k Hk Hu.
  destruct (find_req_cols_spec w order sc mc l Hp) as (ext & db' & E' & _ & _ & Hd). rewrite E' in E. injection E as _ <-.
  pose proof (source_none w col (proj1 (Hd col Hc)) k Hk) as Hn. rewrite firstn_all2 in Hn by exact Hu. exact Hn.
Qed.
Print Assumptions C95_stacker_columns_not_queried_partial.
Example C95_case : In 1%nat (w_reg demo_world) /\ (length (w_added demo_world 1) <= w_units demo_world 1)%nat.
Proof. split; [left; reflexivity | cbn; lia]. Qed.

(** C96: when two classes make the same column (appMag is made by four), a default stacker of the class registered last
    is added next to the given one, and runs after it *)
Definition appmag_world : world := {|
  w_reg := [0%nat; 1%nat];
  w_added := fun _ => ["appMag"%string];
  w_units := fun _ => 1%nat;
  w_req := fun k => match k with 0%nat => ["magV"%string] | _ => ["helio_dist"%string] end |}.
Theorem C96_given_stacker_decides_refuted : ~ forall w order slicer_cols metric_cols stackers final db,
  (forall m, Permutation (order m) m) ->
  find_req_cols w order slicer_cols metric_cols stackers = Some (final, db) ->
  forall col, made_by w stackers col ->
  forall n s, (length stackers <= n)%nat -> nth_error final n = Some s -> ~ In col (w_added w (i_class s)).
Proof.
  intros H. refine (H appmag_world (fun l => l) [] ["appMag"%string] [{| i_class := 0; i_req := ["magV"%string] |}] _ _
    (fun m => Permutation_refl m) eq_refl "appMag"%string _ 1%nat _ (le_n _) eq_refl (or_introl eq_refl)).
  exists {| i_class := 0; i_req := ["magV"%string] |}. split; left; reflexivity.
Qed.
Print Assumptions C96_given_stacker_decides_refuted.
(** when no two classes make the same column, the default stackers leave the columns of the given ones alone *)
Theorem C96_given_stacker_decides_partial : forall w order slicer_cols metric_cols stackers final db,
  (forall m, Permutation (order m) m) ->
  find_req_cols w order slicer_cols metric_cols stackers = Some (final, db) ->
  (forall k k' col, In col (w_added w k) -> In col (w_added w k') -> k = k') ->
  forall col, made_by w stackers col ->
  forall n s, (length stackers <= n)%nat -> nth_error final n = Some s -> In col (w_added w (i_class s)) -> False.
Proof.
  intros w order sc mc l final db Hp E Huniq col (s0 & Hs0 & Ha0) n s Hn Hs Ha. unfold find_req_cols in E.
  set (known := nodup string_dec (sc ++ mc ++ flat_map i_req l)) in E.
  destruct (default_loop _ w order l _ _) as [[fin db0]|] eqn:EL; [|discriminate]. injection E as -> _.
  pose proof (Huniq _ _ _ Ha0 Ha) as Ek.
  (* no default stacker has a class that was given *)
  assert (forall fuel l1 db1 new fin' db', (forall k, In k new -> forall x, In x l1 -> i_class x <> k) -> NoDup new ->
    default_loop fuel w order l1 db1 new = Some (fin', db') ->
    exists ext, fin' = l1 ++ ext /\ forall x y, In x l1 -> In y ext -> i_class x <> i_class y) as Hl.
  { induction fuel as [|f IH]; intros l1 db1 new fin' db' Hnew Hnd EL'.
    { destruct new; [injection EL' as <- <-; exists []; split; [rewrite app_nil_r; reflexivity | intros x y _ []] | discriminate]. }
    destruct new as [|k0 new0]; [injection EL' as <- <-; exists []; split; [rewrite app_nil_r; reflexivity | intros x y _ []]|].
    rewrite loop_step in EL'. cbv zeta in EL'. apply IH in EL'.
    - destruct EL' as (ext & -> & Hx). eexists. split; [rewrite <- app_assoc; reflexivity|]. intros x y Hx1 Hy. apply in_app_or in Hy.
      destruct Hy as [Hy|Hy].
      + apply in_map_iff in Hy. destruct Hy as (k & <- & Hk). cbn. apply Hnew; [|exact Hx1].
        apply Permutation_in with (l := order (k0 :: new0)); [apply Hp | exact Hk].
      + apply Hx; [apply in_or_app; left; exact Hx1 | exact Hy].
    - intros k Hk. apply in_not_listed in Hk. exact (proj2 Hk).
    - unfold not_listed, source_classes. apply NoDup_filter, NoDup_nodup. }
  destruct (Hl _ _ _ _ _ _ ltac:(intros k Hk; apply in_not_listed in Hk; exact (proj2 Hk))
    ltac:(unfold not_listed, source_classes; apply NoDup_filter, NoDup_nodup) EL) as (ext & -> & Hx).
  rewrite nth_error_app2 in Hs by exact Hn. apply nth_error_In in Hs. exact (Hx s0 s Hs0 Hs Ek).
Qed.
Print Assumptions C96_given_stacker_decides_partial.
Example C96_case : forall k k' col, In col (w_added demo_world k) -> In col (w_added demo_world k') -> k = k'.
Proof. intros [|[|[|k]]] [|[|[|k']]] col H1 H2; cbn in *; try contradiction; try reflexivity; destruct H1 as [<-|[]], H2 as [H|[]]; discriminate. Qed.

(** C50: a visit that is fine is given NaN because the k-th visit of some filter is saturated and it is the k-th of
    the table *)
Theorem C50_nan_iff_saturated_refuted : exists filters vs garbage i v,
  length garbage = length vs /\ NoDup filters /\ (forall f, In f filters <-> exists x, In x vs /\ sv_filter x = f) /\
  nth_error vs i = Some v /\ ~ saturated v /\ nth_error (sat_run filters vs garbage) i = Some None.
Proof.
  exists ["g"%string; "y"%string], [{| sv_filter := "g"; sv_remaining := 5; sv_mag := 16 |}; {| sv_filter := "y"; sv_remaining := -1; sv_mag := 0 |}],
    [Some 0; Some 0], 0%nat. eexists. split; [reflexivity|]. split; [|split; [|split; [reflexivity | split; [cbn; unfold saturated; cbn; lia | reflexivity]]]].
  - constructor; [intros [H|[]]; discriminate|]. constructor; [intros []|constructor].
  - intros f. cbn. split.
    + intros [<-|[<-|[]]]; eexists; [split; [left; reflexivity | reflexivity] | split; [right; left; reflexivity | reflexivity]].
    + intros (x & [<-|[<-|[]]] & <-); cbn; auto.
Qed.
Print Assumptions C50_nan_iff_saturated_refuted.
(** saturated visits always are NaN, whatever the filters *)
Theorem C50_saturated_are_nan : forall filters vs garbage i v,
  length garbage = length vs -> nth_error vs i = Some v -> In (sv_filter v) filters -> saturated v ->
  nth_error (sat_run filters vs garbage) i = Some None.
Proof. intros. apply saturated_nan with (v := v); auto. Qed.
Print Assumptions C50_saturated_are_nan.
(** with a single filter, or with no saturated visit at all, the statement holds; missing: several filters, some visit
    saturated *)
Theorem C50_nan_iff_saturated_partial : forall filters vs garbage,
  length garbage = length vs -> (forall v, In v vs -> In (sv_filter v) filters) ->
  (exists f, filters = [f]) \/ (forall v, In v vs -> ~ saturated v) ->
  forall i v, nth_error vs i = Some v ->
    nth_error (sat_run filters vs garbage) i = Some (if sv_remaining v <? 0 then None else Some (sv_mag v)).
Proof.
  intros filters vs g Hl Hf Hc i v Hv. assert (In v vs) as Hin by (apply nth_error_In in Hv; exact Hv).
  destruct (Z.ltb_spec (sv_remaining v) 0) as [Hs|Hs].
  - apply saturated_nan with (v := v); [exact Hl | exact Hv | left; apply Hf; exact Hin | exact Hs].
  - apply unsaturated_mag with (v := v); [exact Hl | exact Hv | left; apply Hf; exact Hin | unfold saturated; lia|].
    destruct Hc as [[f ->]|Hc].
    + intros f' [<-|[]]. rewrite where_filter_all.
      * intros Hi. apply where_saturated_in in Hi. destruct Hi as (k & v' & -> & Hk & Hr). cbn [Nat.add] in Hv. rewrite Hk in Hv. injection Hv as ->. lia.
      * intros x Hx. destruct (Hf x Hx) as [E|[]]. symmetry. exact E.
    + intros f _ Hi. apply where_saturated_in in Hi. destruct Hi as (k & v' & _ & Hk & Hr). apply nth_error_In in Hk.
      apply in_map_iff in Hk. destruct Hk as ([j x] & Ex & Hx). cbn in Ex. subst x. apply where_filter_in in Hx.
      destruct Hx as (k' & _ & Hx & _). apply nth_error_In in Hx. exact (Hc v' Hx Hr).
Qed.
Print Assumptions C50_nan_iff_saturated_partial.
Example C50_case : sat_run ["g"%string] [{| sv_filter := "g"; sv_remaining := 5; sv_mag := 16 |}; {| sv_filter := "g"; sv_remaining := -1; sv_mag := 0 |};
    {| sv_filter := "g"; sv_remaining := 7; sv_mag := 17 |}] [None; None; Some 3] = [Some 16; None; Some 17].
Proof. reflexivity. Qed.

(** C51 *)
Theorem C51_hour_angle_range : forall (degrees : bool) lst ra,
  let turn := (if degrees then 360 else 2)%Q in      (* one turn in degrees, or in multiples of pi *)
  (0 <= lst <= turn)%Q -> (0 <= ra <= turn)%Q ->
  (-(12) <= hour_angle degrees lst ra <= 12)%Q /\
  exists k : Z, (hour_angle degrees lst ra == (lst - ra) / turn * 24 + inject_Z k * 24)%Q.
Proof.
  intros degrees lst ra turn Hl Hr. unfold hour_angle.
  assert (exists d, d == (lst - ra) / turn * 2 /\ -(2) <= d <= 2 /\ (if degrees then lst / 180 else lst) - (if degrees then ra / 180 else ra) == d)%Q as (d & Ed & Hd & Eq).
  { exists ((lst - ra) / turn * 2)%Q. unfold turn in *. destruct degrees; (split; [reflexivity|]; split; [split|]).
    - setoid_replace ((lst - ra) / 360 * 2)%Q with ((lst - ra) * (1 # 180))%Q by field. Lqa.lra.
    - setoid_replace ((lst - ra) / 360 * 2)%Q with ((lst - ra) * (1 # 180))%Q by field. Lqa.lra.
    - field.
    - setoid_replace ((lst - ra) / 2 * 2)%Q with (lst - ra)%Q by field. Lqa.lra.
    - setoid_replace ((lst - ra) / 2 * 2)%Q with (lst - ra)%Q by field. Lqa.lra.
    - field. }
  set (h := ((if degrees then lst / 180 else lst) - (if degrees then ra / 180 else ra))%Q) in *.
  set (q := ((lst - ra) / turn)%Q) in *.
  destruct (Qlt_le_dec h (-1)) as [H1|H1].
  - destruct (Qlt_le_dec 1 (h + 2)) as [H2|H2]; [exfalso; Lqa.lra|]. split; [split; Lqa.lra|]. exists 1. change (inject_Z 1) with 1%Q. Lqa.lra.
  - destruct (Qlt_le_dec 1 h) as [H2|H2]; (split; [split; Lqa.lra|]).
    + exists (-1). change (inject_Z (-1)) with (-(1))%Q. Lqa.lra.
    + exists 0. change (inject_Z 0) with 0%Q. Lqa.lra.
Qed.
Print Assumptions C51_hour_angle_range.
Example C51_case : (hour_angle true 350 10 == -(4#3))%Q /\ (hour_angle true 10 350 == 4#3)%Q.
Proof. split; reflexivity. Qed.

(** C52 *)
Theorem C52_overhead : forall max_gap vs i v, nth_error vs i = Some v ->
  nth_error (overhead_run max_gap vs) i = Some
    match i with
    | O => None
    | S j =>
        match nth_error vs j with
        | Some p =>
            let o := (ov_start v + ov_visit v) - (ov_start p + ov_visit p) - ov_exp v in
            if (ov_day v =? ov_day p) && match max_gap with Some g => o <=? g | None => true end then Some o else None
        | None => None
        end
    end.
Proof.
  intros max_gap vs i v Hv. unfold overhead_run.
  assert (forall vs prev i v, nth_error vs i = Some v ->
    nth_error (overheads max_gap prev vs) i = Some (overhead_of max_gap (match i with O => prev | S j => nth_error vs j end) v)) as H.
  { clear. induction vs as [|a t IH]; intros prev [|i] v Hv; try discriminate; cbn in *.
    - injection Hv as ->. reflexivity.
    - rewrite (IH (Some a) i v Hv). destruct i; reflexivity. }
  rewrite (H vs None i v Hv). destruct i as [|j]; [reflexivity|].
  destruct (nth_error vs j) as [p|] eqn:Ep; [|reflexivity]. cbn [overhead_of]. unfold ov_end. f_equal.
  set (o := ov_start v + ov_visit v - (ov_start p + ov_visit p) - ov_exp v).
  destruct max_gap as [g|].
  - rewrite Z.ltb_antisym. destruct (o <=? g); cbn; [|rewrite andb_false_r; reflexivity]. rewrite andb_true_r. reflexivity.
  - rewrite andb_true_r. reflexivity.
Qed.
Print Assumptions C52_overhead.
(** a reported overhead is at most max_gap, and belongs to two visits of one night *)
Theorem C52_bounded : forall g vs i o, nth_error (overhead_run (Some g) vs) i = Some (Some o) ->
  o <= g /\ exists j p v, i = S j /\ nth_error vs j = Some p /\ nth_error vs i = Some v /\ ov_day p = ov_day v.
Proof.
  intros g vs i o H.
  assert (length (overhead_run (Some g) vs) = length vs) as Hlen.
  { unfold overhead_run. generalize (@None ovisit). clear. induction vs as [|a t IH]; intros prev; cbn; [reflexivity | rewrite IH; reflexivity]. }
  destruct (nth_error vs i) as [v|] eqn:Hv.
  - rewrite (C52_overhead (Some g) vs i v Hv) in H. destruct i as [|j]; [discriminate|].
    destruct (nth_error vs j) as [p|] eqn:Ep; [|discriminate]. cbv zeta in H. destruct (Z.eqb_spec (ov_day v) (ov_day p)) as [Ed|]; [|discriminate].
    cbn [andb] in H. destruct (Z.leb_spec (ov_start v + ov_visit v - (ov_start p + ov_visit p) - ov_exp v) g) as [Hle|]; [|discriminate].
    injection H as <-. split; [exact Hle|]. exists j, p, v. repeat split; auto.
  - apply nth_error_None in Hv. rewrite <- Hlen in Hv. apply nth_error_None in Hv. rewrite Hv in H. discriminate.
Qed.
Print Assumptions C52_bounded.
Example C52_case : overhead_run (Some 100)
    [{| ov_start := 0; ov_visit := 34; ov_exp := 30; ov_day := 1 |}; {| ov_start := 40; ov_visit := 34; ov_exp := 30; ov_day := 1 |};
     {| ov_start := 400; ov_visit := 34; ov_exp := 30; ov_day := 1 |}; {| ov_start := 440; ov_visit := 34; ov_exp := 30; ov_day := 2 |}]
  = [None; Some 10; None; None].
Proof. reflexivity. Qed.

(** C97 *)
Theorem C97_dcr2_moments : forall ztan pa mag,
  let '(total, rara, decdec, radec) := dcr2_columns ztan pa mag in
  (rara + decdec = total)%R /\ (radec * radec = rara * decdec)%R /\ (0 <= mag -> 0 <= rara /\ 0 <= decdec /\ 0 <= total)%R.
Proof.
  intros ztan pa mag. unfold dcr2_columns. pose proof (sin2_cos2 pa) as H. unfold Rsqr in H. split; [|split].
  - replace (mag * (ztan ^ 2 * sin pa ^ 2) + mag * (ztan ^ 2 * cos pa ^ 2))%R with (mag * ztan ^ 2 * (sin pa * sin pa + cos pa * cos pa))%R by ring.
    rewrite H. ring.
  - ring.
  - intros Hm. assert (0 <= ztan ^ 2)%R by (apply pow2_ge_0). assert (0 <= sin pa ^ 2)%R by (apply pow2_ge_0). assert (0 <= cos pa ^ 2)%R by (apply pow2_ge_0).
    split; [|split].
    + exact (Rmult_le_pos _ _ Hm (Rmult_le_pos _ _ H0 H1)).
    + exact (Rmult_le_pos _ _ Hm (Rmult_le_pos _ _ H0 H2)).
    + exact (Rmult_le_pos _ _ Hm H0).
Qed.
Print Assumptions C97_dcr2_moments.
Example C97_case : dcr2_columns 1 0 2 = (2 * 1 ^ 2, 2 * (1 ^ 2 * 0 ^ 2), 2 * (1 ^ 2 * 1 ^ 2), 2 * (1 ^ 2 * 0 * 1))%R.
Proof. unfold dcr2_columns. rewrite sin_0, cos_0. reflexivity. Qed.

(** C98: a zenith distance stacker given to Dcr2Stacker is stored under a misspelt name *)
Theorem C98_given_inner_stackers_refuted : forall S (dz dpa z : S) pa,
  dcr2_inner (dcr2_init dz dpa (Some z) pa) = Err AttributeError.
Proof. reflexivity. Qed.
Print Assumptions C98_given_inner_stackers_refuted.
(** a given parallactic angle stacker is used; missing: a given zenith distance stacker *)
Theorem C98_given_inner_stackers_partial : forall S (dz dpa : S) pa,
  dcr2_inner (dcr2_init dz dpa None pa) = Ok (dz, match pa with Some p => p | None => dpa end).
Proof. intros. destruct pa; reflexivity. Qed.
Print Assumptions C98_given_inner_stackers_partial.
Example C98_case : dcr2_inner (dcr2_init 1%nat 2%nat None (Some 3%nat)) = Ok (1%nat, 3%nat).
Proof. reflexivity. Qed.

(** C99 *)
Theorem C99_follow_up_count : forall (T V S : Type) (airmass : T -> S -> V -> Q) limit steps scopes v,
  exists followers : list T,
    n_observatories airmass limit steps scopes v = Z.of_nat (length followers) /\
    (forall scope, In scope followers <-> In scope scopes /\ exists s, In s steps /\ (1 <= airmass scope s v <= limit)%Q) /\
    (NoDup scopes -> NoDup followers) /\ (length followers <= length scopes)%nat.
Proof.
  intros T V S airmass limit steps scopes v.
  set (p := fun scope => existsb (fun s => (Qle_bool (airmass scope s v) limit && Qle_bool 1 (airmass scope s v))%bool) steps).
  exists (filter p scopes). split; [apply n_observatories_count|]. split; [|split].
  - intros scope. rewrite filter_In. unfold p. rewrite existsb_exists. split; intros [Hs (s & Hs' & H)]; (split; [exact Hs|]; exists s; split; [exact Hs'|]).
    + apply andb_true_iff in H. destruct H as [H1 H2]. apply Qle_bool_iff in H1, H2. split; assumption.
    + destruct H as [H1 H2]. apply andb_true_iff. split; apply Qle_bool_iff; assumption.
  - apply NoDup_filter.
  - clear. induction scopes as [|a t IH]; [apply le_n|]. cbn [filter]. destruct (p a); cbn; lia.
Qed.
Print Assumptions C99_follow_up_count.
Example C99_case : n_observatories (fun t s v => (t + s + v)%Q) 3 [0; 1]%Q [0; 1; 7]%Q (1#2)%Q = 2.
Proof. reflexivity. Qed.

(** C100: the root of a note is what precedes its first comma; stored whole when it has at most 50 characters *)
Theorem C100_note_root_partial : forall note, exists rest,
  note = (note_root note ++ rest)%string /\ (rest = ""%string \/ exists tail, rest = String "," tail) /\
  (forall i, String.get i (note_root note) <> Some ","%char) /\
  ((String.length (note_root note) <= 50)%nat -> note_root_column note = note_root note).
Proof.
  intros note. destruct (note_root_spec note) as (rest & E & Hr & Hg). exists rest. repeat split; auto.
  intros H. apply substring_all. exact H.
Qed.
Print Assumptions C100_note_root_partial.
(** two notes with different roots can be stored alike *)
Theorem C100_note_root_refuted : exists a b, note_root a <> note_root b /\ note_root_column a = note_root_column b.
Proof.
  exists "long_gaps_blob_pair_scan_with_a_rather_detailed_name_i"%string, "long_gaps_blob_pair_scan_with_a_rather_detailed_name_z"%string.
  split; [vm_compute; intros H; discriminate H | vm_compute; reflexivity].
Qed.
Print Assumptions C100_note_root_refuted.
Example C100_case : note_root_column "DD:COSMOS, g"%string = "DD:COSMOS"%string.
Proof. reflexivity. Qed.

(** C101: visits closer than the tolerance but not at the same place are added to each other's rows *)
Theorem C101_coadd_keeps_totals_refuted : exists tol vs, 0 < tol /\
  sum_by cv_time (coadd_run tol vs) <> sum_by cv_time vs.
Proof.
  exists 10, [{| cv_ra := 0; cv_dec := 0; cv_band := 1; cv_night := 1; cv_time := 30; cv_nexp := 2 |};
              {| cv_ra := 3; cv_dec := 0; cv_band := 1; cv_night := 1; cv_time := 30; cv_nexp := 2 |}].
  split; [lia|]. vm_compute. discriminate.
Qed.
Print Assumptions C101_coadd_keeps_totals_refuted.
(** the total exposure time and the total number of exposures are kept when two visits within the tolerance in the same
    band are at exactly the same place; missing: nearby positions *)
Theorem C101_coadd_keeps_totals_partial : forall tol vs, 0 < tol ->
  (forall v v', In v vs -> In v' vs -> Z.abs (cv_ra v - cv_ra v') < tol -> Z.abs (cv_dec v - cv_dec v') < tol ->
     cv_band v = cv_band v' -> cv_ra v = cv_ra v' /\ cv_dec v = cv_dec v') ->
  sum_by cv_time (coadd_run tol vs) = sum_by cv_time vs /\ sum_by cv_nexp (coadd_run tol vs) = sum_by cv_nexp vs.
Proof.
  intros tol vs Ht Hsep.
  assert (forall v v', In v vs -> In v' vs -> near tol (key_of v') v = true -> key_of v = key_of v') as H.
  { intros v v' Hv Hv' Hn. unfold near, key_of in *. rewrite !andb_true_iff, !Z.ltb_lt, Z.eqb_eq in Hn.
    destruct Hn as [[H1 H2] H3]. destruct (Hsep v v' Hv Hv' H1 H2 H3). congruence. }
  split; apply coadd_total; auto; intros [[a b] c] n l; reflexivity.
Qed.
Print Assumptions C101_coadd_keeps_totals_partial.
Example C101_case : coadd_run 10
    [{| cv_ra := 0; cv_dec := 0; cv_band := 1; cv_night := 1; cv_time := 30; cv_nexp := 2 |};
     {| cv_ra := 0; cv_dec := 0; cv_band := 1; cv_night := 1; cv_time := 15; cv_nexp := 1 |};
     {| cv_ra := 0; cv_dec := 0; cv_band := 1; cv_night := 2; cv_time := 30; cv_nexp := 2 |}] =
    [{| cv_ra := 0; cv_dec := 0; cv_band := 1; cv_night := 1; cv_time := 45; cv_nexp := 3 |};
     {| cv_ra := 0; cv_dec := 0; cv_band := 1; cv_night := 2; cv_time := 30; cv_nexp := 2 |}].
Proof. reflexivity. Qed.

(** C102: zeropoints given without atmospheric extinction coefficients *)
Theorem C102_saturation_inputs_refuted : forall A (zp lz lk : A), sat_km (Some zp) None lz lk = Err UnboundLocalError.
Proof. reflexivity. Qed.
Print Assumptions C102_saturation_inputs_refuted.
(** given values are used and missing ones looked up otherwise; missing: zeropoints alone *)
Theorem C102_saturation_inputs_partial : forall A (zp km : option A) lz lk, zp = None \/ km <> None ->
  sat_km zp km lz lk = Ok (match zp with Some z => z | None => lz end, match km with Some k => k | None => lk end).
Proof. intros A [z|] [k|] lz lk [H|H]; try discriminate H; try reflexivity. destruct (H eq_refl). Qed.
Print Assumptions C102_saturation_inputs_partial.
Example C102_case : sat_km None (Some 4) 2 3 = Ok (2, 4) /\ sat_km None None 2 3 = Ok (2, 3).
Proof. split; reflexivity. Qed.
