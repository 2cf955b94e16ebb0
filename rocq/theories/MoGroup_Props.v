(** Properties of groups of moving object metrics and of the moving object slicer. *)
From Verif Require Import Base MoGroup_Model MoGroup_Spec MoGroup_Proofs.
From Coq Require Import Lia Permutation.
Open Scope Z_scope.

(** for the examples: a magnitude stacker with a loss, one metric that reads the magnitude, and bundles *)
Definition ex_mag (loss : Z) : mo_stk := {| ms_name := "MoMagStacker"; ms_conf := loss; ms_cols := ["appMag"%string]; ms_fun := fun t href h _ => map (fun m => m + loss + h - href) (d_col t "magV") |}.
Definition ex_metric (name : string) : mo_metric := {| mm_name := name; mm_bad := -1; mm_run := fun t _ => hd (-1) (d_col t "appMag"); mm_children := [] |}.
Definition ex_slicer : mo_slicer := setup_slicer None "orbits" [1; 2] [20; 21] (Some ("obs"%string, [{| o_id := 1; o_attr := 5 |}; {| o_id := 2; o_attr := 6 |}; {| o_id := 1; o_attr := 7 |}])).
Definition ex_bundle (name : string) (loss : Z) : mo_bundle := make_bundle (fun f => f) (ex_mag 0) (ex_metric name) ex_slicer None [ex_mag loss] None [].
Definition ex_table : mdata := {| d_rows := 1; d_col := fun c => if String.eqb c "magV" then [22] else [0] |}.

(** * C149 bundles that run together do not conflict *)
Theorem C149_partition : forall d keys, (forall k, In k keys -> exists b, bundle_of d k b) ->
  concat (find_compatible d keys) = keys /\ forall l, In l (find_compatible d keys) -> l <> [].
Proof. intros d keys H. destruct (find_placed d keys H) as [P1 P2 _ _]. split; assumption. Qed.
Print Assumptions C149_partition.
Theorem C149_no_conflict : forall d keys l i j a b ba bb, (forall k, In k keys -> exists b, bundle_of d k b) ->
  In l (find_compatible d keys) -> i <> j -> nth_error l i = Some a -> nth_error l j = Some b -> bundle_of d a ba -> bundle_of d b bb -> no_conflict ba bb.
Proof.
  intros d keys l i j a b ba bb H Hl Hij Hi Hj Ba Bb. destruct (find_placed d keys H) as [_ _ P3 _]. apply in_split in Hl. destruct Hl as (pre & post & E).
  destruct (Nat.lt_total i j) as [L|[L|L]]; [exact (P3 pre l post i j a b E L Hi Hj ba bb Ba Bb)|contradiction|]. apply no_conflict_sym. exact (P3 pre l post j i b a E L Hj Hi bb ba Bb Ba).
Qed.
Print Assumptions C149_no_conflict.
(** meant: a bundle starts a new list only when it conflicts with every earlier list.  Only the last list is considered *)
Theorem C149_fewest_lists_refuted : ~ (forall d keys pre l mid l' post k b, (forall k, In k keys -> exists b, bundle_of d k b) ->
  find_compatible d keys = pre ++ l :: mid ++ l' :: post -> nth_error l' 0 = Some k -> bundle_of d k b -> exists k' b', In k' l /\ bundle_of d k' b' /\ ~ no_conflict b' b).
Proof.
  intros C. pose (d := [("a"%string, ex_bundle "a" 1); ("b"%string, ex_bundle "b" 2); ("c"%string, ex_bundle "c" 1)]).
  assert (forall k, In k ["a"; "b"; "c"]%string -> exists b, bundle_of d k b) as H by (intros k [<-|[<-|[<-|[]]]]; eexists; reflexivity).
  destruct (C d ["a"; "b"; "c"]%string [] ["a"%string] [["b"%string]] ["c"%string] [] "c"%string (ex_bundle "c" 1) H eq_refl eq_refl eq_refl) as (k' & b' & [<-|[]] & Hb & N).
  injection Hb as <-. apply N. apply compatible_spec. reflexivity.
Qed.
Print Assumptions C149_fewest_lists_refuted.
Theorem C149_fewest_lists_partial : forall d keys pre l l' post k b, (forall k, In k keys -> exists b, bundle_of d k b) ->
  find_compatible d keys = pre ++ l :: l' :: post -> nth_error l' 0 = Some k -> bundle_of d k b -> exists k' b', In k' l /\ bundle_of d k' b' /\ ~ no_conflict b' b.
Proof. intros d keys pre l l' post k b H. destruct (find_placed d keys H) as [_ _ _ P4]. apply P4. Qed.
Print Assumptions C149_fewest_lists_partial.
Example C149_case : find_compatible [("a"%string, ex_bundle "a" 1); ("b"%string, ex_bundle "b" 1); ("c"%string, ex_bundle "c" 2)] ["a"; "b"; "c"]%string = [["a"; "b"]; ["c"]]%string.
Proof. reflexivity. Qed.

(** * C150 what is computed is independent of the other bundles and of the other H values *)
(** with conditions on the columns the value at each H is the one the bundle gets alone, from the table as it was read *)
Theorem C150_independent_partial : forall d ks href hvals t j h b i,
  read_base (all_stackers d) -> one_setter (all_stackers d) -> (exists k, In (k, b) d) -> reads_own (all_stackers d) b ->
  nth_error (lookup_all d ks) i = Some b -> nth_error hvals j = Some h -> d_rows t <> 0%nat ->
  exists row, nth_error (run_object (group_stackers d) (lookup_all d ks) href hvals t) j = Some row /\
    nth_error row i = Some (eval_bundle b (run_stackers (mb_stackers b) href h t) h).
Proof.
  intros d ks href hvals t j h b i RB OS (k & Hk) RO Hi Hj Hr.
  assert (forall s, In s (mb_stackers b) -> In s (all_stackers d)) as Ib by (intros s Hs; apply in_flat_map; exists (k, b); split; [exact Hk|exact Hs]).
  assert (agree (fun c => ~ set_by (all_stackers d) c) t t) as At by (split; [reflexivity|intros; reflexivity]).
  destruct (run_object_nth (group_stackers d) (lookup_all d ks) href (all_stackers d) t RB OS (fun s => proj1 (group_stackers_same d OS s)) hvals t j h Hr At Hj) as (u & Eu & Ru & Au & Cu).
  destruct (run_stackers_cols (all_stackers d) (mb_stackers b) href h t RB OS Ib t Hr At) as [B1 B2].
  eexists. split; [exact Eu|]. rewrite nth_error_map, Hi. cbn [option_map]. f_equal. apply (eval_agree (all_stackers d)); [exact RO|].
  split; [rewrite Ru, run_stackers_rows; reflexivity|]. intros c [(s & Hs & Hc)|Hc].
  - rewrite (B2 s c Hs Hc). apply Cu; [apply group_stackers_same; [exact OS|apply Ib, Hs]|exact Hc].
  - rewrite (proj2 Au c Hc), (proj2 B1 c Hc). reflexivity.
Qed.
Print Assumptions C150_independent_partial.
Example C150_independent_case : let d := [("a"%string, ex_bundle "a" 1); ("b"%string, ex_bundle "b" 1)] in
  run_object (group_stackers d) (lookup_all d ["a"; "b"]%string) 20 [20; 21] ex_table = [[(Some 23, []); (Some 23, [])]; [(Some 24, []); (Some 24, [])]] /\
  read_base (all_stackers d) /\ one_setter (all_stackers d) /\ reads_own (all_stackers d) (ex_bundle "a" 1).
Proof.
  cbv zeta. split; [reflexivity|]. split; [|split].
  - intros s t t' href hval c Hs [_ A]. assert (s = ex_mag 1) as -> by (cbn in Hs; destruct Hs as [<-|[<-|[]]]; reflexivity). cbn. rewrite (A "magV"%string); [reflexivity|].
    intros (s & Hs' & Hc). cbn in Hs'. destruct Hs' as [<-|[<-|[]]]; cbn in Hc; destruct Hc as [Hc|[]]; discriminate.
  - intros s s' Hs Hs' _. cbn in Hs, Hs'. destruct Hs as [<-|[<-|[]]], Hs' as [<-|[<-|[]]]; reflexivity.
  - intros t t' hval [_ A]. split; [|intros n c ss v []]. cbn. rewrite (A "appMag"%string); [reflexivity|]. left. exists (ex_mag 1). split; [left; reflexivity|left; reflexivity].
Qed.
(** bundles in the same group that conflict are run in different lists, but each list runs the stackers of all bundles, so
    the last stacker wins in both *)
Theorem C150_independent_refuted : ~ (forall d ks href hvals t j h b i, (exists k, In (k, b) d) -> In ks (find_compatible d (map fst d)) ->
  nth_error (lookup_all d ks) i = Some b -> nth_error hvals j = Some h -> d_rows t <> 0%nat ->
  exists row, nth_error (run_object (group_stackers d) (lookup_all d ks) href hvals t) j = Some row /\ nth_error row i = Some (eval_bundle b (run_stackers (mb_stackers b) href h t) h)).
Proof.
  intros C. pose (d := [("a"%string, ex_bundle "a" 1); ("b"%string, ex_bundle "b" 2)]).
  destruct (C d ["a"%string] 20 [20] ex_table O 20 (ex_bundle "a" 1) O ltac:(exists "a"%string; left; reflexivity) ltac:(left; reflexivity) eq_refl eq_refl ltac:(discriminate)) as (row & E & V).
  vm_compute in E. injection E as <-. vm_compute in V. discriminate V.
Qed.
Print Assumptions C150_independent_refuted.

(** * C151 masked values *)
(** in every list that runs, a value is masked exactly when the object has no observations or the metric returned its bad
    value; a child is masked when its parent is, and otherwise computed from the parent's value *)
Theorem C151_masked : forall sts bs href hvals t j h row i b v cs, nth_error hvals j = Some h -> nth_error (run_object sts bs href hvals t) j = Some row -> nth_error bs i = Some b -> nth_error row i = Some (v, cs) ->
  exists u, d_rows u = d_rows t /\
    (v = None <-> d_rows t = 0%nat \/ mm_run (mb_metric b) u h = mm_bad (mb_metric b)) /\ (forall x, v = Some x -> x = mm_run (mb_metric b) u h) /\
    length cs = length (mb_children b) /\
    forall n c ss m, nth_error (mb_children b) n = Some (c, ss) -> nth_error cs n = Some m ->
      (v = None -> m = None) /\ (forall x, v = Some x -> m = if ch_run (snd c) u h x =? ch_bad (snd c) then None else Some (ch_run (snd c) u h x)).
Proof.
  intros sts bs href hvals. induction hvals as [|h0 hvals IH]; intros t j h row i b v cs Hj E Hi Hv; [destruct j; discriminate|]. destruct j as [|j]; cbn [nth_error run_object] in *.
  - injection Hj as <-. injection E as <-. rewrite nth_error_map, Hi in Hv. cbn [option_map] in Hv. set (u := run_stackers sts href h0 t) in *. exists u. assert (d_rows u = d_rows t) as R by apply run_stackers_rows. split; [exact R|].
    unfold eval_bundle in Hv. rewrite R in Hv. destruct (Nat.eqb_spec (d_rows t) 0) as [Z0|Z0].
    + injection Hv as <- <-. split; [split; [left; exact Z0|reflexivity]|]. split; [discriminate|]. split; [apply map_length|]. intros n c ss m Hc Hm. rewrite nth_error_map, Hc in Hm. cbn in Hm. injection Hm as <-. split; [reflexivity|discriminate].
    + unfold unmask in Hv. destruct (Z.eqb_spec (mm_run (mb_metric b) u h0) (mm_bad (mb_metric b))) as [B|B].
      * injection Hv as <- <-. split; [split; [right; exact B|reflexivity]|]. split; [discriminate|]. split; [apply map_length|]. intros n c ss m Hc Hm. rewrite nth_error_map, Hc in Hm. cbn in Hm. injection Hm as <-. split; [reflexivity|discriminate].
      * injection Hv as <- <-. split; [split; [discriminate|intros [H|H]; contradiction]|]. split; [intros x E; injection E; auto|]. split; [apply map_length|]. intros n c ss m Hc Hm. rewrite nth_error_map, Hc in Hm. cbn [option_map fst snd] in Hm. injection Hm as <-. split; [discriminate|].
        intros x E. injection E as <-. destruct c as [cn cc]. cbn [fst snd]. reflexivity.
  - destruct (IH (run_stackers sts href h0 t) j h row i b v cs Hj E Hi Hv) as (u & R & rest). rewrite run_stackers_rows in *. exists u. split; [exact R|exact rest].
Qed.
Print Assumptions C151_masked.
Definition ex_parent : mo_bundle := make_bundle (fun f => f) (ex_mag 0) {| mm_name := "p"; mm_bad := -1; mm_run := fun t _ => hd (-1) (d_col t "appMag"); mm_children := [{| ch_name := "c"; ch_bad := 0; ch_run := fun _ _ v => v - 23 |}] |} ex_slicer None [] None ["Mean"%string].
Example C151_case : run_object (mb_stackers ex_parent) [ex_parent] 20 [20; 21; 17] ex_table = [[(Some 22, [Some (-1)])]; [(Some 23, [None])]; [(Some 19, [Some (-4)])]] /\
  run_object (mb_stackers ex_parent) [ex_parent] 20 [20] {| d_rows := 0; d_col := fun _ => [] |} = [[(None, [None])]].
Proof. split; reflexivity. Qed.

(** * C152 making a bundle *)
Theorem C152_summaries : forall strip mag m sl constraint stackers info summary, let b := make_bundle strip mag m sl constraint stackers info summary in
  (mm_children m <> [] -> mb_summary b = []) /\ (mm_children m = [] -> mb_summary b = summary) /\
  (forall c, In c (mm_children m) <-> In (ch_name c, c, summary) (mb_children b)) /\ length (mb_children b) = length (mm_children m).
Proof.
  intros strip mag m sl constraint stackers info summary. cbv zeta. cbn. split; [destruct (mm_children m); [congruence|reflexivity]|]. split; [intros ->; reflexivity|]. split; [|apply map_length].
  intros c. rewrite in_map_iff. split; [intros H; exists c; split; [reflexivity|exact H]|intros (x & E & H); injection E as _ <-; exact H].
Qed.
Print Assumptions C152_summaries.
(** the stackers given are kept in order, and exactly one is added when none of them sets the magnitudes *)
Theorem C152_stackers : forall strip mag m sl constraint stackers info summary, ms_name mag = "MoMagStacker"%string -> let b := make_bundle strip mag m sl constraint stackers info summary in
  (exists s, In s (mb_stackers b) /\ ms_name s = "MoMagStacker"%string) /\ (forall i s, nth_error stackers i = Some s -> nth_error (mb_stackers b) i = Some s) /\
  (length stackers <= length (mb_stackers b) <= S (length stackers))%nat /\ ((exists s, In s stackers /\ ms_name s = "MoMagStacker"%string) -> mb_stackers b = stackers).
Proof.
  intros strip mag m sl constraint stackers info summary N. cbv zeta. cbn [mb_stackers make_bundle]. destruct (existsb (fun s => String.eqb (ms_name s) "MoMagStacker") stackers) eqn:E.
  - apply existsb_exists in E. destruct E as (s & H & E). apply String.eqb_eq in E. split; [exists s; split; assumption|]. split; [intros; assumption|]. split; [lia|reflexivity].
  - split; [exists mag; split; [apply in_or_app; right; left; reflexivity|exact N]|]. split; [|split].
    + intros i s H. rewrite nth_error_app1; [exact H|]. apply nth_error_Some. congruence.
    + rewrite app_length. cbn. lia.
    + intros (s & H & En). exfalso. assert (existsb (fun s => String.eqb (ms_name s) "MoMagStacker") stackers = true) as C; [|congruence]. apply existsb_exists. exists s. split; [exact H|apply String.eqb_eq, En].
Qed.
Print Assumptions C152_stackers.
Example C152_stackers_case : mb_stackers (ex_bundle "a" 1) = [ex_mag 1] /\ mb_stackers ex_parent = [ex_mag 0] /\ mb_summary ex_parent = [] /\ map snd (mb_children ex_parent) = [["Mean"%string]].
Proof. repeat split; reflexivity. Qed.
(** the label is meant to name the observation file; it never does *)
Theorem C152_label_refuted : ~ (forall mag m sl stackers summary f, sl_obs_file sl = Some f -> mb_info (make_bundle (fun f => f) mag m sl None stackers None summary) = f).
Proof. intros C. specialize (C (ex_mag 0) (ex_metric "a") ex_slicer [] [] "obs"%string eq_refl). discriminate C. Qed.
Print Assumptions C152_label_refuted.
Theorem C152_label_partial : forall strip mag m sl stackers summary constraint info, (mb_info (make_bundle strip mag m sl constraint stackers (Some info) summary) = info) /\
  mb_info (make_bundle strip mag m sl None stackers None summary) = "noObs"%string /\
  (forall c, c <> ""%string -> mb_info (make_bundle strip mag m sl (Some c) stackers None summary) = ("noObs " ++ c)%string) /\
  make_bundle strip mag m sl (Some ""%string) stackers None summary = make_bundle strip mag m sl None stackers None summary.
Proof.
  intros. split; [reflexivity|]. split; [reflexivity|]. split; [|reflexivity]. intros c H. apply String.eqb_neq in H. unfold make_bundle. rewrite H. reflexivity.
Qed.
Print Assumptions C152_label_partial.

(** * C153 the slicer *)
(** after choosing observations each object gets exactly its own ones, in the order of the file; objects with different ids
    share none, and an observation of a known object is in the slice of that object *)
Theorem C153_slices : forall s s' p l, sl_all_obs s = Some l -> subset_obs (Some p) s = Ok s' \/ (subset_obs None s = Ok s' /\ forall o, p o = true) ->
  forall idx id, nth_error (sl_ids s) idx = Some id -> exists obs hs, slice_obs s' idx = Ok (obs, hs) /\
    (forall o, In o obs <-> In o l /\ p o = true /\ o_id o = id) /\ obs = filter (fun o => (o_id o =? id) && p o) l /\
    length hs = snd (sl_shape s) /\ (forall h, sl_hrange s = Some h -> hs = h) /\ (sl_hrange s = None -> hs = [nth idx (sl_h s) 0]).
Proof.
  intros s s' p l Hl H idx id Hi.
  assert (exists o', sl_ids s' = sl_ids s /\ sl_hrange s' = sl_hrange s /\ sl_h s' = sl_h s /\ sl_obs s' = Some (Some o') /\ o' = filter p l) as (o' & E1 & E2 & E3 & E4 & E5).
  { destruct H as [H|[H Hp]]; unfold subset_obs in H; rewrite Hl in H; injection H as <-; eexists; cbn; repeat split. symmetry. clear - Hp. induction l as [|x l IH]; [reflexivity|]. cbn. rewrite Hp, IH. reflexivity. }
  unfold slice_obs. rewrite E1, Hi, E4, E2, E3. do 2 eexists. split; [reflexivity|]. subst o'. split; [|split; [|split; [|split]]].
  - intros o. rewrite !filter_In, Z.eqb_eq. tauto.
  - clear. induction l as [|x l IH]; [reflexivity|]. cbn. destruct (p x) eqn:E, (o_id x =? id) eqn:F; cbn; rewrite ?F; try rewrite IH; reflexivity.
  - unfold sl_shape. destruct (sl_hrange s); reflexivity.
  - intros h ->. reflexivity.
  - intros ->. reflexivity.
Qed.
Print Assumptions C153_slices.
Example C153_slices_case : exists s', subset_obs (Some (fun o => o_attr o <? 7)) ex_slicer = Ok s' /\ slice_obs s' 0 = Ok ([{| o_id := 1; o_attr := 5 |}], [20]) /\ slice_obs s' 1 = Ok ([{| o_id := 2; o_attr := 6 |}], [21]).
Proof. eexists. split; [reflexivity|]. split; reflexivity. Qed.
(** setup_slicer is documented to set the observations; iterating before subset_obs raises *)
Theorem C153_setup_refuted : ~ (forall hrange f ids hs file idx, (idx < length ids)%nat -> exists r, slice_obs (setup_slicer hrange f ids hs (Some file)) idx = Ok r).
Proof. intros C. destruct (C None "orbits"%string [1] [20] ("obs"%string, []) O ltac:(cbn; lia)) as (r & E). discriminate E. Qed.
Print Assumptions C153_setup_refuted.
Theorem C153_setup_partial : forall hrange f ids hs file idx id, nth_error ids idx = Some id ->
  slice_obs (setup_slicer hrange f ids hs (Some file)) idx = Err AttributeError /\ slice_obs (setup_slicer hrange f ids hs None) idx = Err TypeError.
Proof. intros hrange f ids hs file idx id H. unfold slice_obs, setup_slicer. cbn [sl_ids]. rewrite H. split; reflexivity. Qed.
Print Assumptions C153_setup_partial.
(** equality of slicers is an equivalence, so all slicers of a group are equal to one another *)
Theorem C153_equality : (forall a, slicer_eq a a = true) /\ (forall a b, slicer_eq a b = slicer_eq b a) /\ (forall a b c, slicer_eq a b = true -> slicer_eq b c = true -> slicer_eq a c = true) /\
  (forall l s, group_init l = Ok s -> forall a b, In a l -> In b l -> slicer_eq a b = true).
Proof.
  split; [intros a; apply slicer_eq_spec; repeat split|]. split.
  - intros a b. destruct (slicer_eq a b) eqn:E, (slicer_eq b a) eqn:F; try reflexivity; [apply slicer_eq_spec in E; rewrite <- F; symmetry; apply slicer_eq_spec; intuition congruence|apply slicer_eq_spec in F; rewrite <- E; apply slicer_eq_spec; intuition congruence].
  - assert (forall a b c, slicer_eq a b = true -> slicer_eq b c = true -> slicer_eq a c = true) as T by (intros a b c; rewrite !slicer_eq_spec; intuition congruence). split; [exact T|].
    intros l s E a b Ha Hb. unfold group_init in E. destruct l as [|x l]; [discriminate|]. destruct (forallb (fun b => slicer_eq b x) (x :: l)) eqn:F; [|discriminate]. injection E as <-.
    rewrite forallb_forall in F. pose proof (F a Ha) as F1. pose proof (F b Hb) as F2. apply slicer_eq_spec in F1, F2. apply slicer_eq_spec. intuition congruence.
Qed.
Print Assumptions C153_equality.
(** equal slicers may have different shapes: cloning over exactly the H values of the orbits is equal to not cloning *)
Theorem C153_equal_shape_refuted : ~ (forall hr hr' f ids hs file, slicer_eq (setup_slicer hr f ids hs file) (setup_slicer hr' f ids hs file) = true -> sl_shape (setup_slicer hr f ids hs file) = sl_shape (setup_slicer hr' f ids hs file)).
Proof. intros C. specialize (C None (Some [20; 21]) "orbits"%string [1; 2] [20; 21] None eq_refl). discriminate C. Qed.
Print Assumptions C153_equal_shape_refuted.

(** * C154 every bundle is run exactly once *)
Lemma flat_map_insert {A B} (eqb : B -> B -> bool) (ck : B) (x : A) (m : B -> list A) : (forall a b, eqb a b = true <-> a = b) -> forall cs, NoDup cs -> In ck cs ->
  Permutation (flat_map (fun c => if eqb ck c then x :: m c else m c) cs) (x :: flat_map m cs).
Proof.
  intros E cs. induction cs as [|c cs IH]; intros N I; [destruct I|]. inversion N as [|? ? N1 N2]; subst. cbn [flat_map]. destruct I as [->|I].
  - rewrite (proj2 (E ck ck) eq_refl). cbn [app]. constructor. apply Permutation_app_head. replace (flat_map (fun c => if eqb ck c then x :: m c else m c) cs) with (flat_map m cs); [apply Permutation_refl|].
    clear - E N1. induction cs as [|c cs IH]; [reflexivity|]. cbn [flat_map]. rewrite IH by (intros H; apply N1; right; exact H). destruct (eqb ck c) eqn:F; [|reflexivity]. apply E in F. subst. exfalso. apply N1. left. reflexivity.
  - destruct (eqb ck c) eqn:F; [apply E in F; subst; contradiction|]. eapply Permutation_trans; [apply Permutation_app_head, (IH N2 I)|]. apply Permutation_sym, Permutation_middle.
Qed.
Lemma matching_perm cs : NoDup cs -> forall d, (forall kb, In kb d -> In (mb_constraint (snd kb)) cs) -> Permutation (flat_map (matching d) cs) (map fst d).
Proof.
  intros N d. induction d as [|[k b] d IH]; intros H.
  - cbn [map]. replace (flat_map (matching []) cs) with (@nil key); [constructor|]. clear. induction cs as [|c cs IH]; [reflexivity|exact IH].
  - cbn [map fst]. eapply Permutation_trans; [|apply perm_skip, IH; intros kb Hkb; apply H; right; exact Hkb].
    eapply Permutation_trans; [|apply (flat_map_insert ostr_eqb (mb_constraint b) k (matching d) ostr_eqb_eq cs N (H (k, b) (or_introl eq_refl)))].
    replace (flat_map (matching ((k, b) :: d)) cs) with (flat_map (fun c => if ostr_eqb (mb_constraint b) c then k :: matching d c else matching d c) cs); [apply Permutation_refl|].
    apply flat_map_ext. intros c. unfold matching at 3. cbn [filter snd]. destruct (ostr_eqb (mb_constraint b) c); reflexivity.
Qed.
(** in whatever order the constraints come *)
Theorem C154_once : forall d constraints, NoDup constraints -> (forall c, In c constraints <-> exists kb, In kb d /\ mb_constraint (snd kb) = c) ->
  (forall k b, In (k, b) d -> bundle_of d k b) ->
  Permutation (concat (flat_map snd (run_all d constraints))) (map fst d) /\
  forall c lists l k, In (c, lists) (run_all d constraints) -> In l lists -> In k l -> exists b, bundle_of d k b /\ mb_constraint b = c.
Proof.
  intros d cs N Hc Hd.
  assert (forall c k, In k (matching d c) -> exists b, bundle_of d k b /\ mb_constraint b = c) as M.
  { intros c k H. unfold matching in H. apply in_map_iff in H. destruct H as ([k' b] & E & H). cbn in E. subst k'. apply filter_In in H. destruct H as [H1 H2]. cbn [snd] in H2. apply ostr_eqb_eq in H2. exists b. split; [apply Hd, H1|exact H2]. }
  assert (forall c, concat (find_compatible d (matching d c)) = matching d c) as P by (intros c; apply C149_partition; intros k Hk; destruct (M c k Hk) as (b & Hb & _); exists b; exact Hb).
  split.
  - eapply Permutation_trans; [|apply (matching_perm cs N d); intros kb Hkb; apply Hc; exists kb; split; [exact Hkb|reflexivity]].
    replace (concat (flat_map snd (run_all d cs))) with (flat_map (matching d) cs); [apply Permutation_refl|]. unfold run_all. clear - P. induction cs as [|c cs IH]; [reflexivity|]. cbn [flat_map]. rewrite flat_map_app, concat_app, <- IH. f_equal.
    rewrite <- (P c) at 1. destruct (matching d c) as [|k ks] eqn:E; [reflexivity|]. cbn [flat_map snd app]. rewrite app_nil_r. reflexivity.
  - intros c lists l k H Hl Hk. unfold run_all in H. apply in_flat_map in H. destruct H as (c' & _ & H). destruct (matching d c') as [|k0 ks] eqn:E; [destruct H|]. destruct H as [H|[]]. injection H as <- <-.
    apply M. rewrite <- (P c'), E. apply in_concat. exists l. split; assumption.
Qed.
Print Assumptions C154_once.
Example C154_case : let d := [("a"%string, ex_bundle "a" 1); ("b"%string, ex_parent); ("c"%string, ex_bundle "c" 1)] in run_all d [None] = [(None, [["a"]; ["b"]; ["c"]]%string)] /\ (forall k b, In (k, b) d -> bundle_of d k b).
Proof. cbv zeta. split; [reflexivity|]. intros k b [E|[E|[E|[]]]]; injection E as <- <-; reflexivity. Qed.
