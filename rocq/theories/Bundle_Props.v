(** C01-C08: MetricBundleGroup grouping, caching and masking; make_bundles_dict_from_list. *)
From Verif Require Import Base Bundle_Model Bundle_Spec Bundle_Proofs.
From Coq Require Import Permutation.

(** C01.  [run_all] over the constraints [cs] (each distinct constraint once, any order): the
    bundles calculated are exactly the bundles passed in, and each is calculated with the data of
    its own constraint. *)
Theorem C01_every_bundle_scheduled :
  forall (d : list (string * bundle)) (cs : list string),
    NoDup cs -> (forall c, In c cs <-> exists kb, In kb d /\ b_constraint (snd kb) = c) ->
    (forall kb, In kb d <-> exists g, In g (run_all_groups d cs) /\ In kb g) /\
    (forall c g kb, In g (find_compatible_lists check_compatible (set_current c d)) -> In kb g ->
                    b_constraint (snd kb) = c).
Proof.
  intros d cs Hnd Hcs. split.
  - apply run_all_groups_In. split; [exact Hnd|]. intros c. rewrite Hcs, in_map_iff. firstorder.
  - intros c g kb. apply run_all_groups_constraint.
Qed.
Print Assumptions C01_every_bundle_scheduled.
Example C01_case : map (map fst) (run_all_groups w_twice ["night < 10"%string]) =
  [["one"; "plain"]; ["two"; "plain"]]%string.
Proof. reflexivity. Qed.

(** C02, full statement (false of the code): any two members of a group are compatible.  A group can
    contain two bundles whose stackers have the same class and different settings. *)
Theorem C02_groups_mutually_compatible_refuted :
  exists (d : list (string * bundle)) g x y,
    NoDup (map fst d) /\ In g (find_compatible_lists check_compatible d) /\
    In x g /\ In y g /\ stackers_conflict (snd x) (snd y).
Proof. exact groups_mutually_compatible_refuted. Qed.
Print Assumptions C02_groups_mutually_compatible_refuted.

(** C02, what does hold: all members share constraint and slicer; every member is compatible with the
    first one.  Missing: stackers of two members neither of which is the first. *)
Theorem C02_group_members_partial :
  forall (d : list (string * bundle)) g,
    In g (find_compatible_lists check_compatible d) ->
    g <> [] /\
    (forall x y, In x g -> In y g ->
       b_constraint (snd x) = b_constraint (snd y) /\ b_slicer (snd x) = b_slicer (snd y)) /\
    (forall h t x, g = h :: t -> In x t -> compatible_bundles (snd h) (snd x)).
Proof.
  intros d g Hg. split; [|split].
  - intros ->. exact (find_compatible_head check_compatible d [] Hg).
  - intros x y. apply groups_pairwise with d. exact Hg.
  - intros h t x ->. apply groups_first with (d := d). exact Hg.
Qed.
Print Assumptions C02_group_members_partial.
Example C02_case : In w_mixed (find_compatible_lists check_compatible w_mixed).
Proof. vm_compute. auto. Qed.

(** C03, full statement (false of the code): each bundle is calculated once. *)
Theorem C03_calculated_once_refuted :
  exists (d : list (string * bundle)) k,
    NoDup (map fst d) /\ In k (map fst d) /\
    times_calculated k (find_compatible_lists check_compatible d) = 2.
Proof. exact calculated_once_refuted. Qed.
Print Assumptions C03_calculated_once_refuted.

(** C03 when no two bundles have conflicting stackers: each one exactly once. *)
Theorem C03_calculated_once_partial :
  forall (d : list (string * bundle)) k,
    NoDup (map fst d) ->
    (forall x y, In x d -> In y d -> ~ stackers_conflict (snd x) (snd y)) ->
    In k (map fst d) -> times_calculated k (find_compatible_lists check_compatible d) = 1.
Proof. exact calculated_once_no_conflict. Qed.
Print Assumptions C03_calculated_once_partial.
Example C03_case :
  let d := [("a", bdl [cfg 1] []); ("b", bdl [] []); ("c", bdl [cfg 1] [])]%string in
  NoDup (map fst d) /\ (forall x y, In x d -> In y d -> ~ stackers_conflict (snd x) (snd y)).
Proof.
  split.
  - repeat constructor; simpl; intuition discriminate.
  - intros x y Hx Hy (s1 & s2 & H1 & H2 & _ & H3).
    simpl in Hx, Hy. repeat destruct Hx as [Hx|Hx]; repeat destruct Hy as [Hy|Hy]; subst; simpl in *;
      intuition congruence.
Qed.

(** C04 (false of the code): bundles calculated together use the same maps. *)
Theorem C04_maps_compared_refuted :
  exists (d : list (string * bundle)) g x y,
    NoDup (map fst d) /\ In g (find_compatible_lists check_compatible d) /\
    In x g /\ In y g /\ ~ same_maps (snd x) (snd y).
Proof. exact maps_compared_refuted. Qed.
Print Assumptions C04_maps_compared_refuted.

(** C04: what the test really compares - maps have no influence at all. *)
Theorem C04_compatibility_ignores_maps :
  forall b1 b2, check_compatible b1 b2 = true <->
    b_constraint b1 = b_constraint b2 /\ b_slicer b1 = b_slicer b2 /\ ~ stackers_conflict b1 b2.
Proof. exact check_compatible_spec. Qed.
Print Assumptions C04_compatibility_ignores_maps.

(** C05.  With a metric that only looks at the set of visits, any cache size gives the same masked
    array (or the same exception) as no cache. *)
Theorem C05_cache_transparent :
  forall (V : Type) (metric : list nat -> nat -> result V) (is_bad : V -> bool) n sl a0,
    depends_on_visits_only metric -> NoDup (map sid sl) ->
    run_slices metric is_bad n sl a0 = run_slices metric is_bad 0 sl a0.
Proof. intros V metric is_bad n sl a0 Hm. exact (cache_transparent metric is_bad Hm n sl a0). Qed.
Print Assumptions C05_cache_transparent.
Example C05_case : depends_on_visits_only (fun l _ => Ok (list_max l)).
Proof.
  assert (forall l1 l2, same_visits l1 l2 -> list_max l1 <= list_max l2) as H.
  { intros l1 l2 Hs. apply list_max_le. apply Forall_forall. intros x Hx.
    assert (Forall (fun k => k <= list_max l2) l2) as Hf by (apply list_max_le; auto).
    rewrite Forall_forall in Hf. apply Hf. apply Hs. exact Hx. }
  intros l1 l2 i1 i2 _ Hs. f_equal. apply Nat.le_antisymm; apply H; auto. apply same_visits_sym; auto.
Qed.

(** C05 without the hypothesis (false of the code): with the cache on, a metric that uses the slice
    point, or one that depends on the order of the visits, gives other values. *)
Theorem C05_cache_any_metric_refuted :
  (exists (metric : list nat -> nat -> result nat) is_bad n sl a0 a1 a2,
    NoDup (map sid sl) /\
    run_slices metric is_bad n sl a0 = Ok a1 /\ run_slices metric is_bad 0 sl a0 = Ok a2 /\
    m_data a1 <> m_data a2) /\
  (exists (metric : list nat -> nat -> result nat) is_bad n sl a0 a1 a2,
    (forall l i j, metric l i = metric l j) /\ NoDup (map sid sl) /\
    run_slices metric is_bad n sl a0 = Ok a1 /\ run_slices metric is_bad 0 sl a0 = Ok a2 /\
    m_data a1 <> m_data a2).
Proof. exact (conj cache_slice_point_refuted cache_order_refuted). Qed.
Print Assumptions C05_cache_any_metric_refuted.

(** C06.  After any sequence of slices the cache holds at most [n] entries, with pairwise different
    visit sets, each for a non-empty slice already seen that has that set; if the metric only looks at
    the set of visits, the value stored for that slice is the metric's. *)
Theorem C06_cache_invariant :
  forall (V : Type) (metric : list nat -> nat -> result V) n sl a0 a c,
    loop_cache metric n sl (a0, []) = Ok (a, c) ->
    length c <= n /\
    (forall i j ki kj si sj, nth_error c i = Some (ki, si) -> nth_error c j = Some (kj, sj) ->
       same_visits ki kj -> i = j) /\
    (forall k s, In (k, s) c -> k <> [] /\ exists sl0, In sl0 sl /\ sid sl0 = s /\ same_visits (idxs sl0) k) /\
    (depends_on_visits_only metric -> NoDup (map sid sl) ->
       forall k s, In (k, s) c -> exists v, nth_error (m_data a) s = Some v /\ metric k s = Ok v).
Proof.
  intros V metric n sl a0 a c H. destruct (cache_invariant metric n sl a0 a c H) as (H1 & H2 & H3).
  exact (conj H1 (conj H2 (conj H3 (fun Hm Hnd => cache_values metric n sl a0 a c Hm Hnd H)))).
Qed.
Print Assumptions C06_cache_invariant.
Example C06_case : exists a c,
  loop_cache (fun l _ => Ok (list_max l)) 1
    [{| sid := 0; idxs := [1; 2] |}; {| sid := 1; idxs := [2; 1] |}; {| sid := 2; idxs := [4] |}]
    ({| m_data := [0; 0; 0]; m_mask := [false; false; false] |}, []) = Ok (a, c) /\
  m_data a = [2; 2; 4] /\ c = [([4], 2)].
Proof. eexists. eexists. split; [reflexivity|]. split; reflexivity. Qed.

(** C07.  Every slice is masked exactly when it has no visits, or its value is the bad value, or the slicer
    masked it; the value of a slice with visits is the metric of its visits.  Holds with no cache for
    any metric, and with any cache for metrics of the set of visits. *)
Theorem C07_masking :
  forall (V : Type) (metric : list nat -> nat -> result V) (is_bad : V -> bool) n sl d0 mk0 a,
    (n = 0 \/ depends_on_visits_only metric) ->
    length d0 = length mk0 -> NoDup (map sid sl) ->
    run_slices metric is_bad n sl {| m_data := d0; m_mask := mk0 |} = Ok a ->
    length (m_data a) = length d0 /\
    forall s, In s sl -> sid s < length d0 ->
      exists v m, nth_error (m_data a) (sid s) = Some v /\ nth_error (m_mask a) (sid s) = Some m /\
        (idxs s <> [] -> metric (idxs s) (sid s) = Ok v) /\
        (m = true <-> idxs s = [] \/ is_bad v = true \/ nth_error mk0 (sid s) = Some true).
Proof. exact @masking_any_cache. Qed.
Print Assumptions C07_masking.

(** C07: the calculation completes whenever the metric returns a value for every non-empty slice. *)
Theorem C07_calculation_completes :
  forall (V : Type) (metric : list nat -> nat -> result V) (is_bad : V -> bool) n sl d0 mk0,
    (n = 0 \/ depends_on_visits_only metric) ->
    length d0 = length mk0 -> NoDup (map sid sl) -> (forall s, In s sl -> sid s < length d0) ->
    (forall s, In s sl -> idxs s <> [] -> exists v, metric (idxs s) (sid s) = Ok v) ->
    exists a, run_slices metric is_bad n sl {| m_data := d0; m_mask := mk0 |} = Ok a.
Proof. exact @run_slices_total. Qed.
Print Assumptions C07_calculation_completes.
Example C07_case : exists a,
  run_slices (fun l _ => Ok (list_max l)) (Nat.eqb 7) 0
    [{| sid := 0; idxs := [1; 2] |}; {| sid := 1; idxs := [] |}; {| sid := 2; idxs := [7] |}]
    {| m_data := [0; 0; 0]; m_mask := [false; false; false] |} = Ok a /\ m_mask a = [false; true; true].
Proof. eexists. split; reflexivity. Qed.

(** C08.  The dictionary holds every bundle of the list under its file root, in order; if two share a
    file root NameError is raised instead (nothing is silently overwritten). *)
Theorem C08_make_bundles_dict :
  forall (B : Type) (froot : B -> string) (l : list B),
    (NoDup (map froot l) -> make_bundles_dict_from_list froot l = Ok (map (fun b => (froot b, b)) l)) /\
    (~ NoDup (map froot l) -> make_bundles_dict_from_list froot l = Err NameError).
Proof. exact @make_dict_spec. Qed.
Print Assumptions C08_make_bundles_dict.
Example C08_case :
  make_bundles_dict_from_list (fun x => x) ["a"; "b"]%string = Ok [("a", "a"); ("b", "b")]%string /\
  make_bundles_dict_from_list (fun x => x) ["a"; "b"; "a"]%string = Err NameError.
Proof. split; reflexivity. Qed.
