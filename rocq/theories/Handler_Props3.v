(** C378: the description of the data of several bundles.  C379: the joint name of several metrics. *)
From Coq Require Import Ascii String Permutation Lia.
From Verif Require Import Base Maps_Model Handler_Model Handler_Spec Handler_Proofs Handler_Proofs3 Handler_Props.
Import List. Import ListNotations.
Open Scope string_scope.

(* ---------------------------------------------------------------- C378 *)
Lemma inter_singles : forall l, NoDup l -> (exists a b t, l = a :: b :: t) -> intersection (map (fun f => [f]) l) = [].
Proof.
  intros l D (a & b & t & ->). cbn [map intersection filter forallb]. inversion D; subst. replace (mem a [b]) with false; [reflexivity|].
  symmetry. apply mem_out. intros [->|[]]. apply H1. now left.
Qed.
Lemma difference_nil : forall l, difference l [] = l.
Proof. unfold difference. induction l as [|x l IH]; [reflexivity|]. cbn [filter mem existsb negb]. f_equal. exact IH. Qed.
Lemma singles_of : forall f l, NoDup l -> filter (fun d => match d with [x] => String.eqb x f | _ => false end) (map (fun x => [x]) l) = if mem f l then [[f]] else [].
Proof.
  intros f l D. induction D as [|a l N D IH]; [reflexivity|]. cbn [map filter]. rewrite IH. unfold mem. cbn [existsb]. rewrite (String.eqb_sym f a). destruct (String.eqb_spec a f) as [->|E]; [|reflexivity].
  change (existsb (String.eqb f) l) with (mem f l). now rewrite (proj2 (mem_out f l) N).
Qed.
Lemma flat_singles : forall (P : string -> bool) l, flat_map (fun f => if P f then [[f]] else []) l = map (fun f => [f]) (filter P l).
Proof. induction l as [|x l IH]; [reflexivity|]. cbn. rewrite IH. now destruct (P x). Qed.

Lemma meta_many : forall iter bs, (exists a b t, info_labels iter bs = a :: b :: t) -> joint_metadata iter bs = several_labels iter (info_labels iter bs).
Proof. intros iter bs (a & b & t & E). unfold joint_metadata. rewrite E. reflexivity. Qed.
(** When all bundles have the same description, it is that of the plot.  When they differ and each is the name of a band, it is the bands in the
    order of their wavelengths. *)
Theorem C378_bands : forall iter, (forall l, Permutation (iter l) l) -> forall bs,
  (forall m, Shared b_info bs m -> joint_metadata iter bs = Ok m) /\
  ((forall b, In b bs -> In (b_info b) Bands) -> Varies b_info bs -> forall sel, Selected (map b_info bs) Bands sel ->
     joint_metadata iter bs = Ok (String.concat ", " sel ++ "  ")).
Proof.
  intros iter perm bs. split.
  - intros m H. unfold joint_metadata, info_labels. now rewrite (set_one iter perm _ _ _ H).
  - intros B V sel Hs. rewrite meta_many by exact (set_many iter perm _ _ V). unfold info_labels. pose proof (set_many iter perm _ _ V) as M. pose proof (set_nodup iter perm (map b_info bs)) as D.
    pose proof (fun x => set_in iter perm x (map b_info bs)) as I. set (labels := iter (as_set (map b_info bs))) in *.
    assert (LB : forall x, In x labels -> In x Bands). { intros x J. apply I in J. apply in_map_iff in J. destruct J as (b & <- & Ib). now apply B. }
    assert (E1 : map phrases labels = map (fun f => [f]) labels) by (apply map_ext_in; intros x J; now apply band_phrases, LB).
    assert (E2 : map (fun x => difference x []) (map (fun f => [f]) labels) = map (fun f => [f]) labels) by (rewrite map_map; apply map_ext; intro; apply difference_nil).
    assert (E3 : map (fun d => match iter d with [] => [] | x :: _ => as_set (words x) end) (map (fun f => [f]) labels) = map (fun f => [f]) labels).
    { rewrite map_map. apply map_ext_in. intros x J. rewrite (iter_one iter perm). now apply band_phrases, LB. }
    unfold several_labels. cbv zeta. rewrite E1, (inter_singles _ D M), E2, E3, (inter_singles _ D M), E2.
    assert (X : existsb (fun d : list string => match d with [] => true | _ => false end) (map (fun f => [f]) labels) = false).
    { apply not_true_iff_false. rewrite existsb_exists. intros (x & J & T). apply in_map_iff in J. now destruct J as (y & <- & _). }
    rewrite X. rewrite (iter_nil iter perm).
    assert (F : flat_map (fun f => filter (fun d => match d with [x] => String.eqb x f | _ => false end) (map (fun f => [f]) labels)) bands = map (fun f => [f]) sel).
    { rewrite (flat_map_ext _ (fun f => if mem f labels then [[f]] else [])) by (intro; now apply singles_of). rewrite flat_singles. f_equal.
      apply selected_filter in Hs. rewrite Hs. apply filter_same. exact I. }
    rewrite F.
    assert (S : filter (fun d => negb (existsb (same_set d) (map (fun f => [f]) sel))) (map (fun f => [f]) labels) = []).
    { apply selected_filter in Hs. assert (T : forall l, incl l labels -> filter (fun d => negb (existsb (same_set d) (map (fun f => [f]) sel))) (map (fun f => [f]) l) = []).
      { induction l as [|x l IH]; intro Inc; [reflexivity|]. cbn [map filter]. assert (Jx : In x labels) by (apply Inc; now left).
        replace (existsb (same_set [x]) (map (fun f => [f]) sel)) with true; [cbn; apply IH; intros y Jy; apply Inc; now right|].
        symmetry. apply existsb_exists. exists [x]. split; [apply (in_map (fun f => [f]) sel x); rewrite Hs; apply filter_In; split; [now apply LB | apply mem_in; now apply I]|].
        unfold same_set, subset, mem. cbn. now rewrite String.eqb_refl. }
      apply T. apply incl_refl. }
    rewrite S, app_nil_r, map_map. f_equal. f_equal. f_equal. rewrite <- (map_id sel) at 2. apply map_ext. intro x. rewrite (iter_one iter perm). reflexivity.
Qed.
Print Assumptions C378_bands.
Example C378_case : joint_metadata (fun l => l) [demo "" "" "r" ""; demo "" "" "g" ""; demo "" "" "r" ""] = Ok "g, r  " /\
  Varies b_info [demo "" "" "r" ""; demo "" "" "g" ""] /\ Selected ["r"; "g"; "r"] Bands ["g"; "r"].
Proof. split; [reflexivity|]. split; [exists (demo "" "" "r" ""), (demo "" "" "g" ""); cbn; intuition discriminate | now apply selected_filter]. Qed.
(** A bundle whose description adds a restriction to that of another cannot be plotted with it. *)
Theorem C378_restricted_refuted : forall iter random, (forall l, Permutation (iter l) l) -> forall b0 b1 m extra,
  b_info b0 = m -> b_info b1 = m ++ " and " ++ extra -> ~ Inside ", " m -> ~ Inside " and " (m ++ " and") -> (forall r, m <> String " " r) -> (forall r, m <> r ++ " ") ->
  joint_metadata iter [b0; b1] = Err IndexError /\ joint_metadata iter [b1; b0] = Err IndexError /\
  forall before g pf reset ds, set_plot_dicts iter random [b0; b1] before g pf reset <> Ok ds.
Proof.
  intros iter random perm b0 b1 m extra E0 E1 NC NA NL NT.
  assert (P0 : phrases m = [m]).
  { unfold phrases. replace (contains " and " m) with false.
    - replace (contains ", " m) with false; [cbn; now rewrite (strip_same m NL NT)|]. symmetry. apply not_true_iff_false. now rewrite contains_inside.
    - symmetry. apply not_true_iff_false. rewrite contains_inside. intros (a & b & Q). apply NA. exists a, (b ++ " and"). now rewrite Q, !append_assoc'. }
  set (m1 := m ++ " and " ++ extra) in *.
  assert (P1 : In m (phrases m1)).
  { unfold phrases. replace (contains " and " m1) with true.
    - apply nodup_In. unfold m1. change " and " with (" and" ++ String " " "") at 1 2. rewrite (split_on_first " "%char " and" m extra NA). cbn [map]. left. now apply strip_same.
    - symmetry. apply contains_inside. now exists m, extra. }
  assert (N : m <> m1). { intro Q. apply (f_equal String.length) in Q. unfold m1 in Q. rewrite !length_append in Q. cbn in Q. lia. }
  assert (Z : forall labels, Permutation labels [m; m1] -> 
     exists bad, heads iter (map (fun x => difference x (intersection (map phrases labels))) (map phrases labels)) = Err IndexError /\ In (@nil string) bad /\
       map (fun d => match iter d with [] => [] | x :: _ => as_set (words x) end) (map (fun x => difference x (intersection (map phrases labels))) (map phrases labels)) = bad).
  { intros labels HP. assert (C : In m (intersection (map phrases labels)) ).
    { apply Permutation_sym, Permutation_length_2_inv in HP. destruct HP as [-> | ->]; cbn [map intersection]; apply filter_In; rewrite P0; cbn [forallb].
      - split; [now left | rewrite andb_true_r; now apply mem_in].
      - split; [exact P1 | unfold mem; cbn; now rewrite String.eqb_refl]. }
    assert (D : difference [m] (intersection (map phrases labels)) = []) by (unfold difference; cbn; now rewrite (proj2 (mem_in _ _) C)).
    eexists. split; [|split; [|reflexivity]].
    - apply Permutation_sym, Permutation_length_2_inv in HP. destruct HP as [-> | ->]; cbn [map heads]; rewrite P0 in *; cbn [map] in D; rewrite P0 in D.
      + now rewrite D, (iter_nil iter perm).
      + rewrite D, (iter_nil iter perm). destruct (iter _); reflexivity.
    - rewrite map_map. apply in_map_iff. exists (phrases m). split; [now rewrite P0, D, (iter_nil iter perm)|].
      apply in_map. apply (Permutation_in (l := [m; m1])); [now symmetry | now left]. }
  assert (K : forall bs, map b_info bs = [m; m1] \/ map b_info bs = [m1; m] -> joint_metadata iter bs = Err IndexError).
  { intros bs Hb. assert (HP : Permutation (iter (as_set (map b_info bs))) [m; m1]).
    { eapply Permutation_trans; [apply perm|]. unfold as_set. destruct Hb as [-> | ->]; cbn [nodup]; destruct (in_dec _ _ _) as [[Q|[]]|_]; try congruence; destruct (in_dec _ _ _) as [[]|_]; [reflexivity | apply perm_swap]. }
    rewrite meta_many by (unfold info_labels; apply Permutation_sym, Permutation_length_2_inv in HP; destruct HP as [-> | ->]; eauto).
    unfold info_labels. set (labels := iter _) in *. destruct (Z labels HP) as (bad & Hh & Hin & Hbad).
    unfold several_labels. cbv zeta. rewrite Hbad, Hh.
    replace (existsb _ _) with true; [reflexivity|]. symmetry. apply existsb_exists. exists []. split; [|reflexivity]. apply in_map_iff. exists []. now split. }
  split; [|split].
  - apply K. left. cbn. now rewrite E0, E1.
  - apply K. right. cbn. now rewrite E0, E1.
  - intros before g pf reset ds. unfold set_plot_dicts. destruct (colours _ _); [|discriminate]. cbn [bind]. unfold title. rewrite K by (left; cbn; now rewrite E0, E1). discriminate.
Qed.
Print Assumptions C378_restricted_refuted.
Example C378_restricted_case : joint_metadata (fun l => l) [demo "" "" "r band" ""; demo "" "" "r band and night < 365" ""] = Err IndexError /\ ~ Inside " and " ("r band" ++ " and") /\ ~ Inside ", " "r band".
Proof. split; [reflexivity|]. split; rewrite <- contains_inside; discriminate. Qed.

(* ---------------------------------------------------------------- C379 *)
Lemma joint_word_spec : forall iter, (forall l, Permutation (iter l) l) -> forall l ws w, (forall x, In x l <-> In x ws) -> Joint ws w -> joint_word iter l = w.
Proof.
  intros iter perm l ws w H J. unfold joint_word. destruct J as [[N S] | (A & sel & Hs & ->)].
  - assert (E : as_set l = [w]).
    { assert (P : iter (as_set (map (fun x => x) l)) = [w]).
      { apply (set_one iter perm). split; [destruct ws as [|x ws]; [easy|]; intros ->; apply (H x); now left | intros a Ia; apply S, H, Ia]. }
      rewrite map_id in P. apply Permutation_length_1_inv. rewrite <- P. apply perm. }
    rewrite E. unfold subset. cbn [forallb]. rewrite andb_true_r. destruct (mem w bands) eqn:M.
    + apply mem_in in M. cbn in M. decompose [or] M; subst; try easy; reflexivity.
    + rewrite (iter_one iter perm). reflexivity.
  - replace (subset (as_set l) bands) with true.
    + apply selected_filter in Hs. rewrite Hs. f_equal. apply filter_same. intro x. unfold as_set. rewrite nodup_In. apply H.
    + symmetry. unfold subset. apply forallb_forall. intros x I. apply mem_in. apply nodup_In in I. now apply A, H.
Qed.
(** Metrics with the same number of words, each of which is the same for all or names a band in all, have a joint name that keeps the common words
    and lists the bands in the order of their wavelengths. *)
Theorem C379_bands_partial : forall iter, (forall l, Permutation (iter l) l) -> forall bs (W : bundle -> list string) n ws,
  (forall b, In b bs -> Parts " " (b_metric b) (W b) /\ ~ In "" (W b) /\ length (W b) = n) -> Varies b_metric bs -> length ws = n ->
  (forall i, i < n -> Joint (map (fun b => nth i (W b) "") bs) (nth i ws "")) -> joint_metric_names iter bs = String.concat " " ws.
Proof.
  intros iter perm bs W n ws HW V L J. unfold joint_metric_names, metric_names. pose proof (set_many iter perm _ _ V) as M.
  pose proof (fun x => set_in iter perm x (map b_metric bs)) as I. set (names := iter (as_set (map b_metric bs))) in *.
  assert (Wd : forall x, In x names -> exists b, In b bs /\ b_metric b = x /\ words x = W b).
  { intros x Ix. apply I in Ix. apply in_map_iff in Ix. destruct Ix as (b & <- & Ib). exists b. destruct (HW b Ib) as (P & N & _). repeat split; auto. now apply words_parts. }
  assert (Ln : forall x, In x names -> length (words x) = n). { intros x Ix. destruct (Wd x Ix) as (b & Ib & _ & ->). now apply HW. }
  destruct M as (a & b & t & EM). rewrite EM in *. cbn [map].
  replace (forallb _ _) with true.
  - rewrite (Ln a) by now left. assert (H : forall i, i < n -> joint_word iter (map (fun w => nth i w "") (words a :: words b :: map words t)) = nth i ws "").
    { intros i Li. apply (joint_word_spec iter perm _ _ _) with (2 := J i Li). intro x. change (words a :: words b :: map words t) with (map words (a :: b :: t)). rewrite map_map, !in_map_iff. split.
      - intros (y & <- & Iy). destruct (Wd y Iy) as (c & Ic & _ & ->). now exists c.
      - intros (c & <- & Ic). exists (b_metric c). split; [|now apply I, in_map]. destruct (HW c Ic) as (P & N & _). now rewrite (words_parts _ _ P N). }
    f_equal. transitivity (map (fun i => nth i ws "") (seq 0 n)).
    + apply map_ext_in. intros i Ii. apply in_seq in Ii. apply H. lia.
    + subst n. clear. revert ws. induction ws as [|w ws IH]; [reflexivity|]. cbn [length seq map nth]. f_equal. rewrite <- seq_shift, map_map. exact IH.
  - symmetry. apply forallb_forall. intros k Ik. change (length (words b) :: map (@length string) (map words t)) with (map (@length string) (map words (b :: t))) in Ik.
    rewrite map_map in Ik. apply in_map_iff in Ik. destruct Ik as (y & <- & Iy). rewrite (Ln a) by (now left). rewrite (Ln y) by (now right). apply Nat.eqb_refl.
Qed.
Print Assumptions C379_bands_partial.
Example C379_case : joint_metric_names (fun l => l) [demo "" "" "" "Median r depth"; demo "" "" "" "Median g depth"] = "Median gr depth" /\
  Joint ["r"; "g"] "gr" /\ Joint ["Median"; "Median"] "Median".
Proof.
  split; [reflexivity|]. split.
  - right. split; [intros x [<-|[<-|[]]]; cbn; tauto|]. exists ["g"; "r"]. split; [now apply selected_filter | reflexivity].
  - left. split; [easy|]. now intros a [<-|[<-|[]]].
Qed.
(** Otherwise the name depends on the order in which a set is gone through, which changes from one run of Python to the next. *)
Theorem C379_order_refuted : exists bs iter iter', (forall l, Permutation (iter l) l) /\ (forall l, Permutation (iter' l) l) /\
  joint_metric_names iter bs = "CountMean visits" /\ joint_metric_names iter' bs = "MeanCount visits" /\
  forall random, (exists ds, set_plot_dicts iter random bs [[]; []] Nothing None true = Ok ds) /\
  file_root iter (fun _ => "HEAL") bs None = Ok "a_CountMean visits_i_HEAL" /\ file_root iter' (fun _ => "HEAL") bs None = Ok "a_MeanCount visits_i_HEAL".
Proof.
  exists [demo "" "a" "i" "Count visits"; demo "" "a" "i" "Mean visits"], (fun l => l), (fun l => if list_eq_dec string_dec l ["Count"; "Mean"] then ["Mean"; "Count"] else l).
  split; [intro; reflexivity|]. split; [intro l; destruct (list_eq_dec _ _ _) as [->|_]; [apply perm_swap | reflexivity]|]. split; [reflexivity|]. split; [reflexivity|].
  intro random. split; [eexists; vm_compute; reflexivity|]. split; vm_compute; reflexivity.
Qed.
Print Assumptions C379_order_refuted.
