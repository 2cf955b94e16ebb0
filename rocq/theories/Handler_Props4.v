(** C380: the labels of the legend.  C381: the title.  C382: the colours.  C383: where the plot is shown.  C384: what is drawn and recorded. *)
From Coq Require Import Ascii String Permutation Lia.
From Verif Require Import Base Maps_Model Handler_Model Handler_Spec Handler_Proofs Handler_Proofs3 Handler_Props Handler_Props2.
Import List. Import ListNotations.
Open Scope string_scope.

(* ---------------------------------------------------------------- C380 *)
Lemma first_space : forall a b x y, Lacks " " a -> Lacks " " b -> a ++ String " " x = b ++ String " " y -> a = b /\ x = y.
Proof.
  induction a as [|c a IH]; intros [|d b] x y La Lb E; cbn in E.
  - injection E as ->. now split.
  - injection E as <- E. apply lacks_cons in Lb. now destruct Lb.
  - injection E as -> E. apply lacks_cons in La. now destruct La.
  - injection E as -> E. apply lacks_cons in La, Lb. destruct (IH b x y) as [-> ->]; tauto.
Qed.
Lemma legend_nth : forall iter bs i b, length bs <> 1 -> nth_error bs i = Some b -> get (b_dict b) "label" = None ->
  nth_error (legend_labels iter bs) i = Some (VStr (auto_label iter bs b)).
Proof.
  intros iter bs i b L E G. unfold legend_labels. destruct bs as [|b0 [|b1 t]]; [destruct i; discriminate | easy |].
  rewrite (map_nth_error _ _ _ E), G. reflexivity.
Qed.
(** Bundles without labels of their own have the same label only if they agree in run, description and metric, provided that the names of the runs
    and the descriptions have no spaces, or that only one of the three varies. *)
Theorem C380_distinct_partial : forall iter, (forall l, Permutation (iter l) l) -> forall bs i j b c,
  nth_error bs i = Some b -> nth_error bs j = Some c -> length bs <> 1 -> get (b_dict b) "label" = None -> get (b_dict c) "label" = None ->
  (forall x, In x bs -> Lacks " " (b_run x) /\ Lacks " " (b_info x)) \/
  ((exists x, Shared b_run bs x) /\ (exists x, Shared b_info bs x)) \/ ((exists x, Shared b_run bs x) /\ (exists x, Shared b_metric bs x)) \/
  ((exists x, Shared b_info bs x) /\ (exists x, Shared b_metric bs x)) ->
  nth_error (legend_labels iter bs) i = nth_error (legend_labels iter bs) j -> b_run b = b_run c /\ b_info b = b_info c /\ b_metric b = b_metric c.
Proof.
  intros iter perm bs i j b c Eb Ec L Gb Gc H E. rewrite (legend_nth _ _ _ _ L Eb Gb), (legend_nth _ _ _ _ L Ec Gc) in E. injection E as E.
  pose proof (nth_error_In _ _ Eb) as Ib. pose proof (nth_error_In _ _ Ec) as Ic.
  assert (N : bs <> []) by (intros ->; easy).
  unfold auto_label, run_names, info_labels, metric_names in E.
  assert (P : forall f : bundle -> string, (exists x, Shared f bs x /\ iter (as_set (map f bs)) = [x] /\ f b = f c) \/ (exists p q r, Varies f bs /\ iter (as_set (map f bs)) = p :: q :: r)).
  { intro f. destruct (shared_or_varies f bs N) as [[x S] | V].
    - left. exists x. split; [exact S|]. split; [now apply set_one|]. destruct S as [_ S]. now rewrite (S b Ib), (S c Ic).
    - right. destruct (set_many iter perm _ _ V) as (p & q & r & Q). eauto 6. }
  assert (X : forall (f : bundle -> string), (exists x, Shared f bs x) -> Varies f bs -> False).
  { intros f (x & _ & S) (p & q & Ip & Iq & D). apply D. now rewrite (S p Ip), (S q Iq). }
  destruct (P b_run) as [(x1 & S1 & R1 & F1) | (p1 & q1 & r1 & V1 & R1)], (P b_info) as [(x2 & S2 & R2 & F2) | (p2 & q2 & r2 & V2 & R2)],
    (P b_metric) as [(x3 & S3 & R3 & F3) | (p3 & q3 & r3 & V3 & R3)]; rewrite R1, R2, R3 in E; cbn [append] in E; rewrite ?append_nil in E.
  - auto.
  - injection E as E. auto.
  - injection E as E. auto.
  - destruct H as [H | [[A B] | [[A B] | [A B]]]]; try (exfalso; eauto; fail).
    injection E as E. destruct (H b Ib) as [_ Hb], (H c Ic) as [_ Hc]. destruct (first_space _ _ _ _ Hb Hc E). auto.
  - auto.
  - destruct H as [H | [[A B] | [[A B] | [A B]]]]; try (exfalso; eauto; fail).
    destruct (H b Ib) as [Hb _], (H c Ic) as [Hc _]. destruct (first_space _ _ _ _ Hb Hc E). auto.
  - destruct H as [H | [[A B] | [[A B] | [A B]]]]; try (exfalso; eauto; fail).
    destruct (H b Ib) as [Hb _], (H c Ic) as [Hc _]. destruct (first_space _ _ _ _ Hb Hc E). auto.
  - destruct H as [H | [[A B] | [[A B] | [A B]]]]; try (exfalso; eauto; fail).
    destruct (H b Ib) as [Hb Hb'], (H c Ic) as [Hc Hc']. destruct (first_space _ _ _ _ Hb Hc E) as [? E']. destruct (first_space _ _ _ _ Hb' Hc' E'). auto.
Qed.
Print Assumptions C380_distinct_partial.
Example C380_case : legend_labels (fun l => l) [demo "" "a" "g" "m"; demo "" "b" "g" "n"] = [VStr "a m"; VStr "b n"] /\ Lacks " " "a" /\ Lacks " " "g".
Proof. split; [reflexivity|]. split; apply lacks_cons; (split; [discriminate | apply lacks_nil]). Qed.
(** With spaces different bundles may have the same label. *)
Theorem C380_space_refuted : exists b c, b_run b = b_run c /\ b_info b <> b_info c /\ b_metric b <> b_metric c /\
  forall iter, (forall l, Permutation (iter l) l) -> exists v, legend_labels iter [b; c] = [v; v].
Proof.
  exists (demo "" "a" "r band" "depth"), (demo "" "a" "r" "band depth"). repeat (split; [easy|]). intros iter perm. eexists. unfold legend_labels. cbn [map get dget b_dict demo].
  unfold auto_label, run_names, info_labels, metric_names.
  rewrite (set_one iter perm b_run _ "a"); [|split; [easy | now intros x [<- | [<- | []]]]].
  destruct (set_many iter perm b_info [demo "" "a" "r band" "depth"; demo "" "a" "r" "band depth"]) as (p & q & r & ->); [exists (demo "" "a" "r band" "depth"), (demo "" "a" "r" "band depth"); cbn; intuition discriminate|].
  destruct (set_many iter perm b_metric [demo "" "a" "r band" "depth"; demo "" "a" "r" "band depth"]) as (p' & q' & r' & ->); [exists (demo "" "a" "r band" "depth"), (demo "" "a" "r" "band depth"); cbn; intuition discriminate|].
  reflexivity.
Qed.
Print Assumptions C380_space_refuted.

(* ---------------------------------------------------------------- C381 *)
Definition Part (f : bundle -> string) (pre : string) (bs : list bundle) (s : string) : Prop := (exists x, Shared f bs x /\ s = pre ++ x) \/ (Varies f bs /\ s = "").
(** The title has what all bundles share: the run, the description, the metric; what varies is not in it.  If they share nothing the title is made
    of the joint names. *)
Theorem C381_title : forall iter, (forall l, Permutation (iter l) l) -> forall bs t, title iter bs = Ok t ->
  (forall r i m, Part b_run "" bs r -> Part b_info " " bs i -> Part b_metric ": " bs m -> r ++ i ++ m <> "" -> t = r ++ i ++ m) /\
  (Varies b_run bs -> Varies b_info bs -> Varies b_metric bs -> exists j, joint_metadata iter bs = Ok j /\ t = j ++ " " ++ joint_metric_names iter bs).
Proof.
  intros iter perm bs t E. unfold title, run_names, info_labels, metric_names in E. cbv beta zeta in E. destruct (joint_metadata iter bs) as [j|] eqn:Ej; [|discriminate]. cbn [bind] in E.
  assert (OI : forall x y : string, Ok x = Ok y -> x = y) by congruence. apply OI in E.
  assert (P : forall f pre s, Part f pre bs s -> match iter (as_set (map f bs)) with [x] => pre ++ x | _ => "" end = s).
  { intros f pre s [(x & S & ->) | (V & ->)]; [now rewrite (set_one iter perm _ _ _ S)|]. now destruct (set_many iter perm _ _ V) as (a & b & l & ->). }
  split.
  - intros r i m Hr Hi Hm N. rewrite (P _ _ _ Hr), (P _ _ _ Hi), (P _ _ _ Hm) in E. destruct (String.eqb_spec (r ++ i ++ m) ""); [contradiction | congruence].
  - intros V1 V2 V3. exists j. split; [reflexivity|].
    rewrite (P b_run "" ""), (P b_info " " ""), (P b_metric ": " "") in E by (right; auto). exact (eq_sym E).
Qed.
Print Assumptions C381_title.
Example C381_case : title (fun l => l) [demo "" "run" "g" "m"; demo "" "run" "r" "m"] = Ok "run: m" /\ title (fun l => l) [demo "" "run" "g" "m"] = Ok "run g: m".
Proof. split; reflexivity. Qed.

(* ---------------------------------------------------------------- C382 *)
Lemma no_quote_length : forall f n, nth_error Bands n = Some f -> filter_colour f = option_map VStr (dget String.eqb BandColours f) /\ String.length f = 1 /\ Lacks """" f.
Proof.
  intros f n E. do 6 (destruct n as [|n]; [injection E as <-; split; [reflexivity|]; split; [reflexivity|]; apply lacks_cons; split; [discriminate | apply lacks_nil]|]). destruct n; discriminate.
Qed.
(** A bundle selected by its band, in double quotes, is drawn in the colour of the band, unless it has a colour of its own; the colours are those
    of the bands when they differ. *)
Theorem C382_bands_partial : forall random bs cols, colours random bs = Ok cols -> length bs <> 1 ->
  (exists c d, In c bs /\ In d bs /\ colour c <> colour d) ->
  forall i b, nth_error bs i = Some b ->
  (forall v, get (b_dict b) "color" = Some v -> nth_error cols i = Some v) /\
  (forall pre f post n v, get (b_dict b) "color" = None -> b_constraint b = Some (pre ++ String """" (f ++ String """" post)) -> nth_error Bands n = Some f -> In (f, v) BandColours ->
     Inside "filter" pre -> Lacks """" pre -> Lacks """" post -> String.length post <> 1 -> nth_error cols i = Some (VStr v)).
Proof.
  intros random bs cols E L (c & d & Ic & Id & D) i b Hb.
  assert (Q : cols = map colour bs).
  { unfold colours in E. destruct bs as [|b0 [|b1 t]]; [destruct i; discriminate | easy |]. destruct (unique_len _) as [n|] eqn:U; [|discriminate]. cbn [bind] in E. injection E as <-.
    destruct (Nat.eqb_spec n 1) as [->|]; [|reflexivity]. exfalso. apply D. apply (Handler_Proofs2.unique_one _ _ U); [lia | now apply in_map | now apply in_map]. }
  rewrite Q, (map_nth_error colour _ _ Hb). split.
  - intros v G. unfold colour. now rewrite G.
  - intros pre f post n v G C B Iv Fi L1 L2 L3. f_equal. unfold colour. rewrite G, C.
    replace (contains "filter" _) with true by (symmetry; apply contains_inside; destruct Fi as (x & y & ->); exists x, (y ++ String """" (f ++ String """" post)); now rewrite !append_assoc').
    destruct (no_quote_length _ _ B) as (H1 & H2 & H3). rewrite (split_app _ _ _ L1), (split_app _ _ _ H3), (split_lacks _ _ L2). cbn [fold_left]. rewrite H2. cbn [Nat.eqb].
    replace (Nat.eqb (String.length post) 1) with false by (symmetry; now apply Nat.eqb_neq). rewrite H1.
    assert (V : dget String.eqb BandColours f = Some v).
    { clear -Iv. cbn in Iv. decompose [or] Iv; try (match goal with H : _ = (f, v) |- _ => injection H as <- <-; reflexivity end). contradiction. }
    rewrite V. cbn [option_map].
    (* the part before the band may itself be one letter; the band comes after it *)
    destruct (Nat.eqb (String.length pre) 1); reflexivity.
Qed.
Print Assumptions C382_bands_partial.
Definition selected (f : string) : bundle :=
  {| b_root := f; b_slicer := "HealpixSlicer"; b_metric := "m"; b_units := Some "mag"; b_dtype := "float"; b_run := "a"; b_info := f;
     b_constraint := Some f; b_dict := []; b_col := "x"; b_col_units := ""; b_group := "G"; b_subgroup := "S"; b_order := 0; b_values := Some true |}.
Example C382_case : colours rnd [selected "filter = ""g"""; selected "filter = ""r"""; demo "" "" "" ""] = Ok [VStr "g"; VStr "y"; VStr "b"].
Proof. reflexivity. Qed.
(** In single quotes, as SQL has them, the band is not seen: such bundles are drawn in colours taken at random. *)
Theorem C382_quotes_refuted : forall random bs, 2 <= length bs -> (forall b, In b bs -> get (b_dict b) "color" = None /\ exists s, b_constraint b = Some s /\ Lacks """" s /\ String.length s <> 1) ->
  colours random bs = Ok (map random (seq 0 (length bs))).
Proof.
  intros random bs L H.
  assert (C : forall b, In b bs -> colour b = VStr "b").
  { intros b Ib. destruct (H b Ib) as (G & s & Es & Ls & Ns). unfold colour. rewrite G, Es. destruct (contains "filter" s); [|reflexivity]. rewrite (split_lacks _ _ Ls). cbn [fold_left].
    now rewrite (proj2 (Nat.eqb_neq _ _) Ns). }
  unfold colours. destruct bs as [|b0 [|b1 t]]; [cbn in L; lia | cbn in L; lia|].
  assert (U : unique_len (map colour (b0 :: b1 :: t)) = Ok 1).
  { destruct (scalars_one (map colour (b0 :: b1 :: t)) (VStr "b") I) as (n & E & Ln); [intros x Ix; apply in_map_iff in Ix; destruct Ix as (b & <- & Ib); now apply C|].
    rewrite E. f_equal. destruct n as [|n]; [|lia]. exfalso. unfold unique_len in E. cbn [map] in E. rewrite (C b0) in E by now left. cbn [forallb is_pair andb] in E.
    destruct (existsb _ _); [discriminate|]. destruct (existsb _ _); [discriminate|].
    assert (OI : forall x y : nat, Ok x = Ok y -> x = y) by congruence. apply OI in E. apply length_zero_iff_nil in E.
    assert (Q : In (VStr "b") (nodup val_dec (VStr "b" :: colour b1 :: map colour t))) by (apply nodup_In; now left). rewrite E in Q. easy. }
  rewrite U. reflexivity.
Qed.
Print Assumptions C382_quotes_refuted.
Example C382_quotes_case : colours rnd [selected "filter = 'g'"; selected "filter = 'r'"] = Ok [VNum 0; VNum 1].
Proof. reflexivity. Qed.

(* ---------------------------------------------------------------- C383 *)
Lemma display_order : forall bs o, (forall b, In b bs -> (b_order b <= fold_left (fun o b => if (o <? b_order b)%Z then (b_order b + 1)%Z else o) bs o)%Z) /\
  (o <= fold_left (fun o b => if (o <? b_order b)%Z then (b_order b + 1)%Z else o) bs o)%Z /\
  (fold_left (fun o b => if (o <? b_order b)%Z then (b_order b + 1)%Z else o) bs o = o \/ exists b, In b bs /\ fold_left (fun o b => if (o <? b_order b)%Z then (b_order b + 1)%Z else o) bs o = (b_order b + 1)%Z).
Proof.
  induction bs as [|b t IH]; intro o; cbn [fold_left]; [split; [easy|]; split; [lia | now left]|].
  destruct (IH (if (o <? b_order b)%Z then (b_order b + 1)%Z else o)) as (A & B & C). destruct (Z.ltb_spec o (b_order b)).
  - split; [intros c [<-|Ic]; [lia | now apply A]|]. split; [lia|]. right. destruct C as [-> | (c & Ic & ->)]; [exists b; split; [now left | reflexivity] | exists c; split; [now right | reflexivity]].
  - split; [intros c [<-|Ic]; [lia | now apply A]|]. split; [lia|]. destruct C as [-> | (c & Ic & ->)]; [now left | right; exists c; split; [now right | reflexivity]].
Qed.
(** A plot of several bundles is shown in the group they share, or else in "Comparisons", not before any of them and at most one place after the last. *)
Theorem C383_place_partial : forall bs, bs <> [] -> let '(g, s, o) := display bs in
  ((Shared b_group bs g) \/ (Varies b_group bs /\ g = "Comparisons")) /\ ((Shared b_subgroup bs s) \/ (Varies b_subgroup bs /\ s = "Comparisons")) /\
  (forall b, In b bs -> b_order b <= o)%Z /\ (o = 0 \/ exists b, In b bs /\ o = b_order b + 1)%Z.
Proof.
  intros bs N. unfold display.
  assert (P : forall f : bundle -> string, Shared f bs (match as_set (map f bs) with [x] => x | _ => "Comparisons" end) \/ (Varies f bs /\ match as_set (map f bs) with [x] => x | _ => "Comparisons" end = "Comparisons")).
  { intro f. destruct (shared_or_varies f bs N) as [[x S]|V].
    - left. pose proof (set_one (fun l => l) (fun l => Permutation_refl l) f bs x S) as Q. cbn in Q. now rewrite Q.
    - right. split; [exact V|]. destruct (set_many (fun l => l) (fun l => Permutation_refl l) f bs V) as (a & b & t & Q). cbn in Q. now rewrite Q. }
  split; [apply P|]. split; [apply P|]. destruct (display_order bs 0) as (A & _ & C). now split.
Qed.
Print Assumptions C383_place_partial.
Definition ranked (n : Z) : bundle :=
  {| b_root := ""; b_slicer := "HealpixSlicer"; b_metric := "m"; b_units := Some "mag"; b_dtype := "float"; b_run := "a"; b_info := "";
     b_constraint := None; b_dict := []; b_col := "x"; b_col_units := ""; b_group := "G"; b_subgroup := "S"; b_order := n; b_values := Some true |}.
Example C383_case : display [ranked 1; ranked 3] = ("G", "S", 4%Z).
Proof. reflexivity. Qed.
(** It need not come after them, and depends on their order. *)
Theorem C383_after_refuted : exists b c, display [b; c] = ("G", "S", b_order c) /\ display [c; b] = ("G", "S", b_order c + 1)%Z.
Proof. exists (ranked 3), (ranked 4). split; reflexivity. Qed.
Print Assumptions C383_after_refuted.

(* ---------------------------------------------------------------- C384 *)
(** The handler keeps every bundle it is given, and a plot draws exactly those with values.  A figure is saved and recorded exactly if there is one;
    there is a legend for several bundles unless it is turned off. *)
Theorem C384_drawn : forall iter random given_bs bs ds pf g savefig out, set_metric_bundles iter random given_bs = Ok (bs, ds) ->
  plot iter random bs ds pf g savefig = Ok (Some out) -> let '(ds', shown, kind, legend, saved) := out in
  (forall b, In b shown <-> In b given_bs /\ b_values b = Some true) /\
  (saved = true <-> savefig = true /\ exists b, In b given_bs /\ b_values b = Some true) /\
  (1 < length given_bs -> (forall d, In d ds' -> get d "legend_loc" = None) -> legend = true) /\
  (length given_bs = 1 -> (forall d, In d ds' -> get d "legend_loc" = None) -> legend = false) /\
  (kind = p_type pf \/ 1 < length given_bs /\ kind = "Combo" ++ p_type pf) /\ (forall b, In b given_bs -> b_slicer b = b_slicer (hd b bs)).
Proof.
  intros iter random given_bs bs ds pf g savefig out E P. destruct out as [[[[ds' shown] kind] legend] saved].
  unfold set_metric_bundles in E. destruct (check_slicers (ordered given_bs)) as [[]|] eqn:S; [|discriminate]. cbn [bind] in E. destruct (set_plot_dicts _ _ _ _ _ _ _) as [ds0|]; [|discriminate]. cbn [bind] in E. injection E as <- <-.
  pose proof (ordered_perm given_bs) as Pm. set (bs := ordered given_bs) in *. clearbody bs.
  assert (I : forall b, In b bs <-> In b given_bs) by (intro b; split; apply Permutation_in; [exact Pm | now symmetry]).
  assert (Ln : length bs = length given_bs) by now apply Permutation_length.
  unfold plot in P. destruct (negb (p_object pf) && _); [discriminate|]. destruct (set_plot_dicts _ _ _ _ _ _ _) as [ds1|] eqn:Es; [|discriminate]. cbn [bind] in P.
  destruct ds1 as [|d0 ds1]; [discriminate|]. cbn [bind] in P. injection P as <- <- <- <- <-.
  assert (Dr : forall b, In b (drawn bs) <-> In b given_bs /\ b_values b = Some true).
  { intro b. unfold drawn. rewrite filter_In, I. destruct (b_values b) as [[]|]; intuition discriminate. }
  split; [exact Dr|]. split; [|split; [|split; [|split]]].
  - destruct (drawn bs) as [|b l] eqn:D.
    + rewrite andb_false_r. split; [discriminate|]. intros (_ & b & Q). now apply Dr in Q.
    + rewrite andb_true_r. split; [intros ->; split; [reflexivity|]; exists b; apply Dr; now left | now intros [-> _]].
  - intros L H. rewrite (H d0) by now left. destruct bs as [|? [|? ?]]; cbn in Ln; try lia; reflexivity.
  - intros L H. rewrite (H d0) by now left. destruct bs as [|? [|? ?]]; cbn in Ln; try lia; reflexivity.
  - destruct bs as [|? [|? ?]]; [now left | now left | right; cbn in Ln; split; [lia | reflexivity]].
  - intros b Ib. apply I in Ib. destruct bs as [|b0 t]; [easy|]. unfold check_slicers in S. cbn [hd].
    destruct (forallb _ (b0 :: t)) eqn:F in S; [|discriminate]. rewrite forallb_forall in F. now apply String.eqb_eq, F.
Qed.
Print Assumptions C384_drawn.
Example C384_case : exists bs ds out, set_metric_bundles (fun l => l) rnd two = Ok (bs, ds) /\ plot (fun l => l) rnd bs ds histogram Nothing true = Ok (Some out) /\
  (let '(_, shown, kind, legend, saved) := out in shown = two /\ kind = "ComboHistogram" /\ legend = true /\ saved = true).
Proof. eexists; eexists; eexists. split; [vm_compute; reflexivity|]. split; [vm_compute; reflexivity|]. repeat split. Qed.
