(** Property theorems: C35-C39, C42, C43, C47, C48, C84-C87. *)
From Verif Require Import Base ResultsDb_Model ResultsDb_Proofs Archive_Model Archive_Spec Archive_Proofs.
From Coq Require Import Lia Sorting Permutation Ascii.

(** C35 *)
Theorem C35_tags_are_a_set : forall h u g,
  (is_tagged (tag_run h) u g = true <-> tags_after h u g) /\ times_stored (tag_run h) u g <= 1.
Proof.
  intros. destruct (tag_run_spec h) as [Hn Hi]. split; [rewrite is_tagged_spec; apply Hi|apply count_nodup; auto].
Qed.
Print Assumptions C35_tags_are_a_set.
(** tagging again changes nothing *)
Theorem C35_tag_idempotent : forall t u gs, tag (tag t u gs) u gs = tag t u gs.
Proof.
  intros. assert (forall l t, (forall g, In g l -> In (u, g) t) -> tag t u l = t) as H.
  { unfold tag. induction l as [|g l IH]; intros t' Ht; simpl; auto.
    assert (tag1 u t' g = t') as ->. { unfold tag1. rewrite (proj2 (is_tagged_spec t' u g)); auto. apply Ht; left; auto. }
    apply IH. intros; apply Ht; right; auto. }
  apply H. intros g Hg. apply tag_in. auto.
Qed.
Print Assumptions C35_tag_idempotent.
(** untag of an absent tag raises and changes nothing; of a present one removes it and nothing else *)
Theorem C35_untag : forall h u g,
  match untag (tag_run h) u g with
  | (t, Err e) => e = ValueError /\ t = tag_run h /\ ~ tags_after h u g
  | (t, Ok _) => tags_after h u g /\ forall u' g', is_tagged t u' g' = true <-> tags_after h u' g' /\ (u', g') <> (u, g)
  end.
Proof.
  intros. destruct (tag_run_spec h) as [Hn Hi]. pose proof (untag_in (tag_run h) u g) as Hu. unfold untag in *.
  destruct (is_tagged (tag_run h) u g) eqn:E; simpl in *.
  - apply is_tagged_spec in E. split; [apply Hi; auto|]. intros. rewrite is_tagged_spec, Hu, Hi. tauto.
  - split; auto. split; auto. intros H. apply Hi in H. apply is_tagged_false in E. auto.
Qed.
Print Assumptions C35_untag.
(** other visit sequences keep their rows, in order *)
Theorem C35_others_unaffected : forall t o u, (match o with Tag u' _ => u' | Untag u' _ => u' end) <> u ->
  filter (fun r => Nat.eqb (fst r) u) (tag_step t o) = filter (fun r => Nat.eqb (fst r) u) t.
Proof.
  intros t [u' gs|u' g] u H; simpl.
  - unfold tag. revert t. induction gs as [|g gs IH]; intros t; simpl; auto. rewrite IH. unfold tag1.
    destruct (is_tagged t u' g); auto. rewrite filter_app. simpl. destruct (Nat.eqb_spec u' u); [contradiction|]. apply app_nil_r.
  - unfold untag. destruct (is_tagged t u' g); simpl; auto. induction t as [|[v k] t IH]; simpl; auto.
    unfold tag_eqb at 1; simpl. destruct (Nat.eqb_spec u' v) as [->|Hv]; simpl.
    + destruct (String.eqb g k); simpl; [|destruct (Nat.eqb_spec v u); [contradiction|]; auto].
      destruct (Nat.eqb_spec v u); [contradiction|auto].
    + destruct (Nat.eqb v u); simpl; congruence.
Qed.
Print Assumptions C35_others_unaffected.
Example C35_case :
  tag_run [Tag 1 ["a"; "b"; "a"]; Tag 2 ["a"]; Untag 1 "a"; Untag 1 "c"; Tag 1 ["b"; "c"]]%string = [(1, "b"); (2, "a"); (1, "c")]%string.
Proof. reflexivity. Qed.

(** C36 (false of the code): both clients see that the tag is absent and both insert it *)
Theorem C36_stored_once_refuted : exists sched, forall u g,
  times_stored (fst (clients_run u g 2 [] sched)) u g = 2 /\ snd (clients_run u g 2 [] sched) = [TDone; TDone].
Proof.
  exists [0; 1; 0; 1]. intros. unfold clients_run, client_step, is_tagged. simpl. split; auto.
  unfold times_stored. rewrite count_occ_cons_eq, count_occ_cons_eq by auto. reflexivity.
Qed.
Print Assumptions C36_stored_once_refuted.
(** what holds for any number of clients and any schedule: nothing but copies of the tag are added, at most one per
    client; a client that has finished leaves the tag in place; the view shows the tag once; one untag removes all copies *)
Theorem C36_concurrent_tagging_partial : forall u g n t sched,
  let s := clients_run u g n t sched in
  (exists l, fst s = t ++ l /\ (forall x, In x l -> x = (u, g)) /\ length l <= n) /\
  (In TDone (snd s) -> is_tagged (fst s) u g = true /\ count_occ string_dec (view_tags (fst s) u) g = 1) /\
  is_tagged (fst (untag (fst s) u g)) u g = false.
Proof.
  intros u g n t sched s. pose proof (clients_inv u g n t sched) as H. fold s in H. destruct s as [t' cs]; simpl.
  destruct H as (Hl & (l & Ht & Hx) & Hc & Hd). split; [|split].
  - exists l. split; auto. split; auto. rewrite Ht, times_app in Hc.
    assert (times_stored l u g = length l) as E.
    { clear -Hx. unfold times_stored. induction l as [|x l IH]; auto. rewrite count_occ_cons_eq by (apply Hx; left; auto).
      simpl. f_equal. apply IH. intros; apply Hx; right; auto. }
    lia.
  - intros H. assert (In (u, g) t') as Hi by (apply Hd; auto). split; [apply is_tagged_spec; auto|].
    unfold view_tags. apply NoDup_count_occ'; [apply NoDup_nodup|]. apply nodup_In, in_map_iff. exists (u, g).
    split; auto. apply filter_In. split; auto. apply Nat.eqb_refl.
  - apply is_tagged_false. rewrite untag_in. tauto.
Qed.
Print Assumptions C36_concurrent_tagging_partial.
(** clients whose test and insert are not interleaved with another one's store the tag once *)
Theorem C36_sequential : forall u g n order t, (forall i, In i order -> i < n) -> order <> [] -> NoDup order ->
  times_stored t u g <= 1 ->
  times_stored (fst (clients_run u g n t (flat_map (fun i => [i; i]) order))) u g = 1.
Proof.
  intros u g n order t Hlt Hne Hnd Ht.
  assert (forall order t cs, length cs = n -> (forall i, In i order -> nth_error cs i = Some TStart) -> NoDup order ->
            (forall i, In i order -> i < n) -> times_stored t u g <= 1 -> (order = [] -> times_stored t u g = 1) ->
            times_stored (fst (fold_left (client_step u g) (flat_map (fun i => [i; i]) order) (t, cs))) u g = 1) as H.
  { clear. induction order as [|i order IH]; intros t cs Hl Hs Hn Hi Ht Ho.
    - simpl. auto.
    - cbn [flat_map app fold_left]. assert (nth_error cs i = Some TStart) as E by (apply Hs; left; auto).
      assert (forall x, nth_error (set_nth cs i x) i = Some x) as Hset.
      { clear -E. revert i E. induction cs as [|c cs IH]; intros [|i] E x; simpl in *; try discriminate; auto. }
      assert (forall x j, j <> i -> nth_error (set_nth cs i x) j = nth_error cs j) as Hoth.
      { clear. revert i. induction cs as [|c cs IH]; intros [|i] x [|j] Hj; simpl; auto; try congruence. }
      assert (forall (x y : tagger), set_nth (set_nth cs i x) i y = set_nth cs i y) as Htw.
      { clear. revert i. induction cs as [|c cs IH]; intros [|i] x y; simpl; auto. f_equal; auto. }
      unfold client_step at 3. rewrite E. unfold client_step at 2. rewrite Hset, Htw.
      inversion Hn as [|? ? Hni Hn']; subst.
      destruct (is_tagged t u g) eqn:F.
      + assert (times_stored t u g = 1) as T1.
        { apply is_tagged_spec, times_in in F. lia. }
        apply IH; auto; try (rewrite set_nth_length; auto).
        * intros j Hj. rewrite Hoth by (intros ->; auto). apply Hs; right; auto.
        * intros j Hj. rewrite <- (set_nth_length cs i TDone). rewrite set_nth_length. apply Hi; right; auto.
      + assert (times_stored (t ++ [(u, g)]) u g = 1) as T1.
        { apply is_tagged_false in F. rewrite times_app, times_one. destruct (times_stored t u g) eqn:G; auto.
          elim F. apply times_in. lia. }
        apply IH; auto; try (rewrite set_nth_length; auto); try lia.
        * intros j Hj. rewrite Hoth by (intros ->; auto). apply Hs; right; auto.
        * intros j Hj. apply Hi; right; auto. }
  apply H; auto.
  - apply repeat_length.
  - intros i Hi. apply Hlt in Hi. clear -Hi. revert i Hi. induction n as [|n IH]; intros [|i] Hi; simpl; auto; try lia.
    apply IH; lia.
  - intros ->; contradiction.
Qed.
Print Assumptions C36_sequential.
Example C36_case : fst (clients_run 7 "x" 3 [] [0; 1; 0; 2; 1; 2]) = [(7, "x"); (7, "x")]%string
  /\ view_tags [(7, "x"); (7, "x")]%string 7 = ["x"%string].
Proof. split; reflexivity. Qed.

(** C37 (false of the code): a rejected call has already replaced the stored content *)
Theorem C37_hash_matches_refuted : forall sha256 to_hdf5 c1 c2, sha256 c1 <> sha256 c2 ->
  exists h u ft, ~ hash_ok sha256 (files_run sha256 to_hdf5 h) u ft /\
    forall o, In o h -> a_update o = false /\ a_name o = "rewards.h5"%string.
Proof.
  intros sha256 to_hdf5 c1 c2 H.
  set (o c := mkAdd 1 "rewards.h5" c false "rewards" "s3://a" false (Some ("simonyi", "2025-01-01"))%string).
  exists [o c1; o c2], 1, "rewards"%string. split.
  - intros Hk. destruct (Hk (sha256 c1) (mkPath "s3://a" "simonyi" "2025-01-01" 1 "rewards.h5") eq_refl eq_refl) as (c & Hr & Hc).
    vm_compute in Hr. injection Hr as <-. auto.
  - intros x [<-|[<-|[]]]; auto.
Qed.
Print Assumptions C37_hash_matches_refuted.
(** also without any rejected call: two file types with the same file name share one location *)
Theorem C37_same_name_refuted : forall sha256 to_hdf5 c1 c2, sha256 c1 <> sha256 c2 ->
  exists o1 o2 s1 s2 p1 p2, a_type o1 <> a_type o2 /\
    add_file sha256 to_hdf5 fstate_init o1 = (s1, Ok p1) /\ add_file sha256 to_hdf5 s1 o2 = (s2, Ok p2) /\
    ~ hash_ok sha256 s2 (a_uuid o1) (a_type o1).
Proof.
  intros sha256 to_hdf5 c1 c2 H.
  exists (mkAdd 1 "x.h5" c1 false "rewards" "s3://a" false (Some ("simonyi", "2025-01-01"))%string),
         (mkAdd 1 "x.h5" c2 false "scheduler" "s3://a" false (Some ("simonyi", "2025-01-01"))%string).
  do 4 eexists. split; [discriminate|]. split; [reflexivity|]. split; [reflexivity|].
  intros Hk. destruct (Hk (sha256 c1) (mkPath "s3://a" "simonyi" "2025-01-01" 1 "x.h5") eq_refl eq_refl) as (c & Hr & Hc).
  vm_compute in Hr. injection Hr as <-. auto.
Qed.
Print Assumptions C37_same_name_refuted.
(** what holds: when every call succeeds and no file name is used for two file types of one visit sequence, every
    recorded hash is the hash of the stored content *)
Theorem C37_hash_matches_partial : forall sha256 to_hdf5 h,
  (forall h1 o h2, h = h1 ++ o :: h2 -> exists p, snd (add_file sha256 to_hdf5 (files_run sha256 to_hdf5 h1) o) = Ok p) ->
  (forall o o', In o h -> In o' h -> a_uuid o = a_uuid o' -> add_name o = add_name o' -> a_type o = a_type o') ->
  forall u ft, hash_ok sha256 (files_run sha256 to_hdf5 h) u ft.
Proof.
  intros sha256 to_hdf5 h Hok Hn u ft sha p. unfold get_file_sha256, get_file_url.
  destruct (dget fkey_eqb (f_files (files_run sha256 to_hdf5 h)) (u, ft)) as [[sha' p']|] eqn:E; [|discriminate].
  intros E1 E2. injection E1 as ->. injection E2 as ->. apply (files_inv sha256 to_hdf5 h Hok Hn u ft sha p E).
Qed.
Print Assumptions C37_hash_matches_partial.
(** one call at a time: a successful call stores its content, records its hash and location for its own entry, and
    leaves other entries, and the content at other locations, as they are; this also for calls that raise *)
Theorem C37_one_call : forall sha256 to_hdf5 s o,
  (forall p, snd (add_file sha256 to_hdf5 s o) = Ok p -> a_type o <> "visits"%string ->
     get_file_url (fst (add_file sha256 to_hdf5 s o)) (a_uuid o) (a_type o) = Ok p /\
     get_file_sha256 (fst (add_file sha256 to_hdf5 s o)) (a_uuid o) (a_type o) = Ok (sha256 (a_content o)) /\
     read_url (fst (add_file sha256 to_hdf5 s o)) p = Some (a_content o)) /\
  (forall u ft, (u, ft) <> (a_uuid o, a_type o) ->
     get_file_url (fst (add_file sha256 to_hdf5 s o)) u ft = get_file_url s u ft /\
     get_file_sha256 (fst (add_file sha256 to_hdf5 s o)) u ft = get_file_sha256 s u ft) /\
  (forall p, p_uuid p <> a_uuid o \/ p_base p <> a_base o -> read_url (fst (add_file sha256 to_hdf5 s o)) p = read_url s p).
Proof.
  intros sha256 to_hdf5 s o. split; [|split].
  - intros p Hp Ht. destruct (add_file_ok sha256 to_hdf5 s o p Hp) as (m & _ & _ & Hst & _ & Hr). destruct (Hr Ht) as [Hf _].
    assert (add_content to_hdf5 o = a_content o) as Ec.
    { unfold add_content. destruct (String.eqb_spec (a_type o) "visits"); [contradiction|reflexivity]. }
    unfold get_file_url, get_file_sha256, read_url. rewrite Hf, Hst, Ec, !dget_dset by (apply fkey_eqb_spec || apply path_eqb_spec).
    rewrite (proj2 (fkey_eqb_spec _ _) eq_refl), (proj2 (path_eqb_spec _ _) eq_refl). auto.
  - intros u ft H. unfold get_file_url, get_file_sha256. rewrite add_file_entry_frame by auto. auto.
  - intros p H. apply add_file_frame. intros m _ ->. destruct H as [H|H]; apply H; reflexivity.
Qed.
Print Assumptions C37_one_call.
(** stopping between the two steps of an update leaves the old hash with the new content *)
Theorem C37_interrupted_refuted : forall sha256 to_hdf5 c1 c2, sha256 c1 <> sha256 c2 ->
  exists s o st, (forall u ft, hash_ok sha256 s u ft) /\ In st (add_file_states sha256 to_hdf5 s o) /\
    (exists p, snd (add_file sha256 to_hdf5 s o) = Ok p) /\ ~ hash_ok sha256 st (a_uuid o) (a_type o).
Proof.
  intros sha256 to_hdf5 c1 c2 H.
  set (o c u := mkAdd 1 "rewards.h5" c false "rewards" "s3://a" u (Some ("simonyi", "2025-01-01"))%string).
  exists (files_run sha256 to_hdf5 [o c1 false]), (o c2 true).
  eexists. split; [|split; [simpl; right; left; reflexivity|split; [eexists; reflexivity|]]].
  - apply C37_hash_matches_partial.
    + intros h1 x h2 E. destruct h1 as [|y [|z h1]].
      * injection E as <- _. eexists; reflexivity.
      * injection E as _ E. discriminate.
      * discriminate.
    + intros x y [<-|[]] [<-|[]] _ _; auto.
  - intros Hk. destruct (Hk (sha256 c1) (mkPath "s3://a" "simonyi" "2025-01-01" 1 "rewards.h5") eq_refl eq_refl) as (c & Hr & Hc).
    vm_compute in Hr. injection Hr as <-. auto.
Qed.
Print Assumptions C37_interrupted_refuted.
Example C37_case : let o t n c u := mkAdd 1 n c false t "b" u (Some ("simonyi", "d"))%string in
  let s := files_run (fun c => ("#" ++ c)%string) (fun c => c) [o "rewards" "r.h5" "A" false; o "stats" "s.h5" "B" false; o "rewards" "r.h5" "C" true]%string in
  get_file_sha256 s 1 "rewards" = Ok "#C"%string /\ get_file_sha256 s 1 "stats" = Ok "#B"%string.
Proof. split; reflexivity. Qed.

(** C38 (false of the code): a process that stops after the first commit, or a rejected update, leaves a
    simulation without its provenance *)
Theorem C38_atomic_refuted : exists db u basic prov st, prov <> [] /\
  In st (fst (record_sim db u basic prov true)) /\ st <> db /\ ~ In (mkSim u basic prov) st.
Proof.
  exists [], 1, [("label", "x")]%string, [("scheduler_version", "3")]%string, [mkSim 1 [("label", "x")] []]%string.
  split; [discriminate|]. split; [simpl; auto|]. split; [discriminate|]. intros [H|[]]. discriminate.
Qed.
Print Assumptions C38_atomic_refuted.
Theorem C38_failed_call_refuted : exists db u basic prov, 
  snd (record_sim db u basic prov false) = Err OperationalError /\ last (fst (record_sim db u basic prov false)) [] <> db.
Proof.
  exists [], 1, [("label", "x")]%string, [("parent_last_day_obs", "20250101")]%string. split; [reflexivity|discriminate].
Qed.
Print Assumptions C38_failed_call_refuted.
(** what holds at every point: earlier simulations are as before, at most one row is added, it has the basic
    columns, and its provenance is either entirely absent or complete; without provenance the call is atomic *)
Theorem C38_atomic_partial : forall db u basic prov ok st, In st (fst (record_sim db u basic prov ok)) ->
  (st = db \/ st = db ++ [mkSim u basic []] \/ st = db ++ [mkSim u basic prov]) /\
  (prov = [] -> st = db \/ st = last (fst (record_sim db u basic prov ok)) []) /\
  (forall u', snd (record_sim db u basic prov ok) = Ok u' ->
     u' = u /\ last (fst (record_sim db u basic prov ok)) [] = db ++ [mkSim u basic prov]).
Proof.
  intros db u basic prov ok st H. unfold record_sim in *. destruct prov as [|p prov]; [|destruct ok]; simpl in *.
  - split; [|split]; [intuition auto|intuition auto|]. intros u' E. injection E; auto.
  - split; [|split]; [intuition auto|discriminate|]. intros u' E. injection E; auto.
  - split; [|split]; [intuition auto|discriminate|discriminate].
Qed.
Print Assumptions C38_atomic_partial.
Example C38_case : fst (record_sim [mkSim 1 [] []] 2 [("label", "b")] [("config_url", "c")] true)%string =
  [[mkSim 1 [] []]; [mkSim 1 [] []; mkSim 2 [("label", "b")] []]; [mkSim 1 [] []; mkSim 2 [("label", "b")] [("config_url", "c")]]]%string.
Proof. reflexivity. Qed.

(** C39 (false of the code): the guard is never true *)
Theorem C39_half_specified_refuted : forall env saved h j, (h = None <-> j <> None) ->
  snd (record_conda_env env saved h j) <> Err ValueError.
Proof.
  intros env saved h j H. unfold record_conda_env, conda_guard.
  destruct h as [h|], j as [j|]; simpl; try discriminate; destruct (dmem String.eqb saved _); discriminate.
Qed.
Print Assumptions C39_half_specified_refuted.
(** what happens instead: a hash alone is refused (AssertionError, nothing saved); a json alone is ignored and the
    running environment is recorded *)
Theorem C39_half_specified_partial : forall env saved k j,
  record_conda_env env saved (Some k) None = (saved, Err AssertionError) /\
  record_conda_env env saved None (Some j) = record_conda_env env saved None None.
Proof. intros. split; reflexivity. Qed.
Print Assumptions C39_half_specified_partial.
Example C39_case : (record_conda_env ("h0", "j0") [] None (Some "mine") = ([("h0", "j0")], Ok "h0"))%string.
Proof. reflexivity. Qed.

(** C84: saved environments: one entry per hash, never changed, and a returned hash is saved *)
Theorem C84_conda_env_saved : forall h,
  NoDup (map fst (conda_run h)) /\
  (forall env hj k v, dget String.eqb (conda_run h) k = Some v ->
     dget String.eqb (fst (record_conda_env env (conda_run h) (fst hj) (snd hj))) k = Some v) /\
  (forall env hj k, snd (record_conda_env env (conda_run h) (fst hj) (snd hj)) = Ok k ->
     exists v, dget String.eqb (fst (record_conda_env env (conda_run h) (fst hj) (snd hj))) k = Some v /\
       (dget String.eqb (conda_run h) k = Some v \/ (fst hj = None /\ (k, v) = env) \/ hj = (Some k, Some v))).
Proof.
  intros h. assert (forall saved env hj k v, dget String.eqb saved k = Some v ->
     dget String.eqb (fst (record_conda_env env saved (fst hj) (snd hj))) k = Some v) as Hkeep.
  { intros saved env hj k v H. destruct (conda_step env saved (fst hj) (snd hj) _ eq_refl) as [(e & ->)|[(a & b & -> & _)|(a & b & -> & _)]]; auto.
    simpl. apply dget_app_some; auto. }
  split; [|split; [intros; apply Hkeep; auto|]].
  - induction h as [|c h IH] using rev_ind; [constructor|]. unfold conda_run. rewrite fold_left_app. fold (conda_run h). cbn [fold_left].
    destruct (conda_step (fst c) (conda_run h) (fst (snd c)) (snd (snd c)) _ eq_refl) as [(e & ->)|[(a & b & -> & _)|(a & b & -> & Hn & _)]]; auto.
    cbn [fst]. rewrite map_app. apply NoDup_snoc; auto. apply (dmem_false (conda_run h) a). unfold dmem. rewrite Hn. reflexivity.
  - intros env hj k H.
    destruct (conda_step env (conda_run h) (fst hj) (snd hj) _ eq_refl) as [(e & E)|[(a & b & E & Hd)|(a & b & E & Hn & Hc)]]; rewrite E in H |- *; simpl in *.
    + discriminate.
    + injection H as <-. exists b. auto.
    + injection H as <-. exists b. rewrite dget_app_none by auto. simpl. rewrite String.eqb_refl. split; auto. right.
      destruct Hc as [Hc|[H1 H2]]; auto. right. destruct hj; simpl in *; congruence.
Qed.
Print Assumptions C84_conda_env_saved.
Example C84_case : conda_run [(("a", "1"), (None, None)); (("b", "2"), (Some "c", Some "3")); (("a", "9"), (None, None))]%string
  = [("a", "1"); ("c", "3")]%string.
Proof. reflexivity. Qed.

(** C42 (false of the code): the dates are never imported *)
Theorem C42_dates_lost_refuted : forall label_time readable fresh now basename m m',
  import_yaml label_time readable fresh now (export_yaml basename m) = Ok m' -> m_first m' = None /\ m_last m' = None.
Proof.
  intros label_time readable fresh now basename m m' H.
  assert (forall side, side_date (export_yaml basename m) side = None) as Hs.
  { intros side. unfold side_date, export_yaml, yget, opt_entry. destruct (m_sched m), (m_first m), (m_last m); reflexivity. }
  unfold import_yaml in H. rewrite !Hs in H.
  destruct (yget _ "label") as [[]|]; try discriminate. destruct (yget _ "files") as [[]|]; try discriminate.
  destruct (yget d "observations") as [[]|]; try discriminate. destruct (ystr (yget d0 "url")); try discriminate.
  destruct (negb (readable s0)); try discriminate. destruct (import_files readable [] d); try discriminate.
  simpl in H. injection H as <-. auto.
Qed.
Print Assumptions C42_dates_lost_refuted.
(** and a simulation without a file of type "observations" (the visits are registered separately) cannot be imported *)
Theorem C42_no_observations_refuted : forall label_time readable fresh now basename m,
  (forall f, In f (m_files m) -> fst f <> "observations"%string) ->
  import_yaml label_time readable fresh now (export_yaml basename m) = Err ValueError.
Proof.
  intros label_time readable fresh now basename m H. unfold import_yaml.
  assert (yget (export_yaml basename m) "label" = Some (YStr (m_label m))) as -> by reflexivity.
  assert (yget (export_yaml basename m) "files" = Some (YDict (map (fun f => (fst f, YDict [("url", YStr (snd f)); ("name", YStr (basename (snd f)))]%string)) (m_files m)))) as ->.
  { unfold export_yaml, yget, opt_entry. destruct (m_sched m), (m_first m), (m_last m); reflexivity. }
  rewrite dget_map_files. destruct (dget String.eqb (m_files m) "observations"%string) eqn:E; auto.
  apply dget_in_spec in E; [|exact String.eqb_eq]. elim (H _ E). reflexivity.
Qed.
Print Assumptions C42_no_observations_refuted.
(** what holds: with an observations file and readable files, the label, telescope, tags, scheduler version and files
    are recreated; the creation time only if the label carries it *)
Theorem C42_round_trip_partial : forall label_time readable fresh now basename m,
  In "observations"%string (map fst (m_files m)) -> NoDup (map fst (m_files m)) ->
  (forall f, In f (m_files m) -> fst f <> "visits"%string /\ readable (snd f) = true) -> NoDup (m_tags m) ->
  exists m', import_yaml label_time readable fresh now (export_yaml basename m) = Ok m' /\
    m_label m' = m_label m /\ m_tel m' = m_tel m /\ m_tags m' = m_tags m /\ m_sched m' = m_sched m /\ m_files m' = m_files m /\
    m_created m' = match label_time (m_label m) with Some t => t | None => now end.
Proof.
  intros label_time readable fresh now basename m Ho Hn Hf Ht.
  apply in_map_iff in Ho as ([o url] & Eo & Ho). simpl in Eo; subst o.
  unfold import_yaml.
  assert (yget (export_yaml basename m) "label" = Some (YStr (m_label m))) as -> by reflexivity.
  assert (yget (export_yaml basename m) "telescope" = Some (YStr (m_tel m))) as -> by reflexivity.
  assert (yget (export_yaml basename m) "tags" = Some (YList (map YStr (m_tags m)))) as -> by reflexivity.
  assert (ystr (yget (export_yaml basename m) "scheduler_version") = m_sched m) as ->.
  { unfold export_yaml, yget, opt_entry. destruct (m_sched m), (m_first m), (m_last m); reflexivity. }
  assert (yget (export_yaml basename m) "files" = Some (YDict (map (fun f => (fst f, YDict [("url", YStr (snd f)); ("name", YStr (basename (snd f)))]%string)) (m_files m)))) as ->.
  { unfold export_yaml, yget, opt_entry. destruct (m_sched m), (m_first m), (m_last m); reflexivity. }
  rewrite dget_map_files. rewrite (dget_some_in String.eqb String.eqb_eq _ _ _ Hn Ho). simpl.
  destruct (Hf _ Ho) as [_ Hr]. simpl in Hr. rewrite Hr. simpl.
  rewrite import_files_ok by auto. simpl. rewrite flat_map_ystr, tag_names_nodup by auto.
  eexists. split; [reflexivity|]. simpl. auto 10.
Qed.
Print Assumptions C42_round_trip_partial.
Example C42_case : (let m := mkMd "u" "my sim" "simonyi" ["prenight"; "ideal"] (Some "3.1") 100%Z (Some 7%Z) (Some 9%Z) [("observations", "s3://x/o.db"); ("rewards", "s3://x/r.h5")] in
  import_yaml (fun _ => None) (fun _ => true) "new" 500%Z (export_yaml (fun x => x) m)
  = Ok (mkMd "new" "my sim" "simonyi" ["prenight"; "ideal"] (Some "3.1") 500%Z None None [("observations", "s3://x/o.db"); ("rewards", "s3://x/r.h5")]))%string.
Proof. reflexivity. Qed.

(** C43 (false of the code): each insert_nightly_stats keeps a connection; after five every call raises *)
Theorem C43_returned_refuted : forall h c, 5 <= inserts h -> snd (pcall_step (pool_of h) c) = Err PoolError.
Proof.
  intros h c H. apply full_raises. unfold pool_of. pose proof (pool_inserts h pool_init) as Hi. simpl in Hi.
  unfold pool_max in *. specialize (Hi (Nat.le_0_l _)). destruct (inserts h) as [|[|[|[|[|n]]]]]; simpl in Hi; lia.
Qed.
Print Assumptions C43_returned_refuted.
(** and each reconnection of the reader (a server that closed the idle connection) keeps one more *)
Theorem C43_reconnect_refuted : exists h, inserts h = 0 /\ snd (pcall_step (pool_of h) (CQuery false)) = Err PoolError.
Proof. exists (repeat (CRead true false) 5). split; reflexivity. Qed.
Print Assumptions C43_reconnect_refuted.
(** what holds: without those two, any number of calls, failing or not, get a connection, and at most one
    connection (the reader's) is held between calls *)
Theorem C43_returned_partial : forall h,
  (forall c, In c h -> match c with CQuery _ => True | CRead stale _ => stale = false | CInsertStats _ => False end) ->
  p_used (pool_of h) <= 1 /\ no_pool_error h.
Proof.
  intros h H. assert (forallb quiet h = true) as Hq.
  { apply forallb_forall. intros c Hc. specialize (H c Hc). destruct c; simpl in *; subst; auto; contradiction. }
  destruct (quiet_run h pool_init Hq eq_refl) as [H1 H2]. unfold pool_of, no_pool_error. split; auto.
  destruct (p_sa (fst (pool_run pool_init h))); lia.
Qed.
Print Assumptions C43_returned_partial.
(** and a query returns its connection whatever the history, also when the database raises *)
Theorem C43_query_returns : forall h f,
  (p_used (pool_of h) < 5 -> pcall_step (pool_of h) (CQuery f) = (pool_of h, if f then Err OperationalError else Ok tt)) /\
  p_used (pool_of h) <= 5.
Proof.
  intros h f. split.
  - intros H. apply not_full_ok. exact H.
  - apply (pool_bound h pool_init). simpl. unfold pool_max. lia.
Qed.
Print Assumptions C43_query_returns.
Example C43_case : p_used (pool_of [CQuery false; CRead false false; CQuery true; CRead false true]) = 1
  /\ p_used (pool_of [CRead false false; CInsertStats false; CInsertStats true]) = 3.
Proof. split; reflexivity. Qed.

(** C47: the daily ids of a day are 1..n, each names one simulation, each simulation has one *)
Lemma daily_ids_day : forall t d, (sim_day t = d <-> 86400 * d + 43200 <= t < 86400 * (d + 1) + 43200)%Z.
Proof.
  intros t d. unfold sim_day. pose proof (Z.div_mod (t - 43200) 86400 ltac:(lia)). pose proof (Z.mod_pos_bound (t - 43200) 86400 ltac:(lia)). split; intros; lia.
Qed.
Theorem C47_daily_ids : forall order sims d, sorts_by_time order -> NoDup (map fst sims) ->
  let n := length (filter (fun s => (86400 * d + 43200 <=? snd s) && (snd s <? 86400 * (d + 1) + 43200))%Z sims) in
  (forall k, 1 <= k <= n -> exists u t, get_sim_uuid order sims d k = Ok u /\ In (u, t) sims /\ (86400 * d + 43200 <= t < 86400 * (d + 1) + 43200)%Z) /\
  (forall k, k = 0 \/ k > n -> get_sim_uuid order sims d k = Err ValueError) /\
  (forall u t, In (u, t) sims -> (86400 * d + 43200 <= t < 86400 * (d + 1) + 43200)%Z -> exists k, 1 <= k <= n /\ get_sim_uuid order sims d k = Ok u) /\
  (forall j k u, get_sim_uuid order sims d j = Ok u -> get_sim_uuid order sims d k = Ok u -> j = k).
Proof.
  intros order sims d Ho Hn. assert (on_day d sims = filter (fun s => (86400 * d + 43200 <=? snd s) && (snd s <? 86400 * (d + 1) + 43200))%Z sims) as Eday.
  { apply filter_ext. intros s. pose proof (daily_ids_day (snd s) d) as H. apply eq_true_iff_eq. rewrite Z.eqb_eq, andb_true_iff, Z.leb_le, Z.ltb_lt. exact H. }
  rewrite <- Eday. intros n. setoid_rewrite <- daily_ids_day. destruct (Ho (on_day d sims)) as [Hp Hs].
  assert (length (map fst (order (on_day d sims))) = n) as Hl by (rewrite map_length; apply Permutation_length, Permutation_sym; auto).
  assert (NoDup (map fst (order (on_day d sims)))) as Hnd.
  { apply (Permutation_NoDup (Permutation_map fst Hp)). unfold on_day. apply NoDup_map_filter; auto. }
  split; [|split; [|split]].
  - intros k Hk. rewrite get_sim_nth. destruct (Nat.leb_spec 1 k); [|lia].
    destruct (nth_error (map fst (order (on_day d sims))) (k - 1)) as [u|] eqn:E.
    + apply nth_error_In in E. apply in_map_iff in E as ([u' t] & <- & Hi). apply (Permutation_in _ (Permutation_sym Hp)) in Hi.
      apply in_on_day in Hi as [Hi Hd]. exists u', t. auto.
    + apply nth_error_None in E. lia.
  - intros k Hk. rewrite get_sim_nth. destruct (Nat.leb_spec 1 k); auto.
    destruct (nth_error (map fst (order (on_day d sims))) (k - 1)) as [u|] eqn:E; auto.
    assert (k - 1 < n). { rewrite <- Hl. apply nth_error_Some. congruence. } lia.
  - intros u t Hi Hd. assert (In u (map fst (order (on_day d sims)))) as Hin.
    { change u with (fst (u, t)). apply in_map. apply (Permutation_in _ Hp). apply in_on_day; auto. }
    apply In_nth_error in Hin as [i Hi']. exists (S i). assert (i < n). { rewrite <- Hl. apply nth_error_Some. congruence. }
    split; [lia|]. rewrite get_sim_nth. simpl. rewrite Nat.sub_0_r, Hi'. reflexivity.
  - intros j k u Hj Hk. rewrite get_sim_nth in Hj, Hk.
    destruct (Nat.leb_spec 1 j); [|discriminate]. destruct (Nat.leb_spec 1 k); [|discriminate].
    destruct (nth_error _ (j - 1)) eqn:Ej; [|discriminate]. destruct (nth_error _ (k - 1)) eqn:Ek; [|discriminate].
    assert (j - 1 = k - 1); [|lia]. rewrite NoDup_nth_error in Hnd. apply Hnd; [|congruence].
    apply nth_error_Some. congruence.
Qed.
Print Assumptions C47_daily_ids.
(** with distinct creation times the ids do not depend on the database's order, and a newer simulation leaves them *)
Theorem C47_stable_partial : forall order1 order2 sims new d k u, sorts_by_time order1 -> sorts_by_time order2 ->
  NoDup (map snd sims) -> (forall s, In s sims -> (snd s < snd new)%Z) ->
  get_sim_uuid order1 sims d k = Ok u -> get_sim_uuid order2 (sims ++ [new]) d k = Ok u.
Proof.
  intros order1 order2 sims new d k u H1 H2 Hn Hnew H. rewrite get_sim_nth in H |- *.
  destruct (1 <=? k); [|discriminate].
  destruct (H1 (on_day d sims)) as [Hp1 Hs1]. destruct (H2 (on_day d (sims ++ [new]))) as [Hp2 Hs2].
  assert (exists l, order2 (on_day d (sims ++ [new])) = order1 (on_day d sims) ++ l) as [l El].
  { assert (on_day d (sims ++ [new]) = on_day d sims ++ (if Z.eqb (sim_day (snd new)) d then [new] else [])) as E.
    { unfold on_day. rewrite filter_app. simpl. reflexivity. }
    exists (if Z.eqb (sim_day (snd new)) d then [new] else []). symmetry. apply sorted_perm_unique.
    - rewrite E in Hp2 at 1. eapply Permutation_trans; [|exact Hp2]. apply Permutation_app_tail. apply Permutation_sym; auto.
    - destruct (Z.eqb (sim_day (snd new)) d); [|rewrite app_nil_r; auto]. apply sorted_app_last; auto.
      intros y Hy. apply (Permutation_in _ (Permutation_sym Hp1)) in Hy. apply in_on_day in Hy as [Hy _]. specialize (Hnew y Hy). lia.
    - exact Hs2.
    - rewrite map_app. assert (NoDup (map snd (order1 (on_day d sims)))) as Hnd.
      { apply (Permutation_NoDup (Permutation_map snd Hp1)). apply NoDup_map_filter; auto. }
      destruct (Z.eqb (sim_day (snd new)) d); simpl; [|rewrite app_nil_r; auto]. apply NoDup_snoc; auto.
      intros Hi. apply in_map_iff in Hi as (y & Ey & Hy). apply (Permutation_in _ (Permutation_sym Hp1)) in Hy.
      apply in_on_day in Hy as [Hy _]. specialize (Hnew y Hy). lia. }
  rewrite El, map_app. destruct (nth_error (map fst (order1 (on_day d sims))) (k - 1)) as [v|] eqn:E; [|discriminate].
  rewrite nth_error_app1 by (apply nth_error_Some; congruence). rewrite E. auto.
Qed.
Print Assumptions C47_stable_partial.
(** false in general: a simulation recorded with an earlier creation time (import of an older one) renumbers, and
    with equal creation times two queries may number differently *)
Definition insert_by_time (before : Z -> Z -> bool) : list (uuid * Z) -> list (uuid * Z) :=
  fold_right (fix ins x l := match l with [] => [x] | y :: t => if before (snd x) (snd y) then x :: l else y :: ins x t end) [].
Lemma insert_sorts : forall before, (forall a b, before a b = true -> (a <= b)%Z) -> (forall a b, before a b = false -> (b <= a)%Z) ->
  sorts_by_time (insert_by_time before).
Proof.
  intros before Ht Hf l.
  set (ins := fix ins x (l : list (uuid * Z)) := match l with [] => [x] | y :: t => if before (snd x) (snd y) then x :: l else y :: ins x t end).
  assert (forall x l, Permutation (x :: l) (ins x l)) as Hp.
  { intros x m. induction m as [|y m IH]; simpl; auto. destruct (before (snd x) (snd y)); auto.
    eapply Permutation_trans; [apply perm_swap|]. constructor. auto. }
  assert (forall x l, StronglySorted (fun a b => (snd a <= snd b)%Z) l -> StronglySorted (fun a b => (snd a <= snd b)%Z) (ins x l)) as Hs.
  { intros x m H. induction m as [|y m IH]; simpl; [repeat constructor|]. inversion H as [|? ? H1 H2]; subst.
    destruct (before (snd x) (snd y)) eqn:E.
    - apply Ht in E. constructor; auto. constructor; auto. rewrite Forall_forall in *. intros z Hz. specialize (H2 z Hz). cbv beta in H2. lia.
    - apply Hf in E. constructor; auto. rewrite Forall_forall in *. intros z Hz. apply (Permutation_in _ (Permutation_sym (Hp x m))) in Hz.
      destruct Hz as [<-|Hz]; auto. }
  unfold insert_by_time. fold ins. split.
  - induction l as [|x l IH]; simpl; auto. eapply Permutation_trans; [|apply Hp]. constructor. exact IH.
  - induction l as [|x l IH]; simpl; [constructor|]. apply Hs. exact IH.
Qed.
Theorem C47_renumbered_refuted : exists order sims new d k u u', sorts_by_time order /\ NoDup (map snd (sims ++ [new])) /\
  get_sim_uuid order sims d k = Ok u /\ get_sim_uuid order (sims ++ [new]) d k = Ok u' /\ u <> u'.
Proof.
  exists (insert_by_time Z.leb), [(1, 50000%Z); (2, 60000%Z)], (3, 55000%Z), 0%Z, 2, 2, 3.
  split; [apply insert_sorts; [intros; apply Z.leb_le; auto|intros a b H; apply Z.leb_gt in H; lia]|].
  split; [repeat constructor; simpl; intuition discriminate|]. repeat split; try reflexivity. discriminate.
Qed.
Print Assumptions C47_renumbered_refuted.
Theorem C47_ties_refuted : exists order1 order2 sims d k u u', sorts_by_time order1 /\ sorts_by_time order2 /\
  NoDup (map fst sims) /\ get_sim_uuid order1 sims d k = Ok u /\ get_sim_uuid order2 sims d k = Ok u' /\ u <> u'.
Proof.
  exists (insert_by_time Z.leb), (insert_by_time Z.ltb), [(1, 50000%Z); (2, 50000%Z)], 0%Z, 1, 1, 2.
  split; [apply insert_sorts; [intros; apply Z.leb_le; auto|intros a b H; apply Z.leb_gt in H; lia]|].
  split; [apply insert_sorts; [intros a b H; apply Z.ltb_lt in H; lia|intros a b H; apply Z.ltb_ge in H; lia]|].
  split; [repeat constructor; simpl; intuition discriminate|]. repeat split; try reflexivity. discriminate.
Qed.
Print Assumptions C47_ties_refuted.
Example C47_case : let sims := [(10, 43200); (11, 200000); (12, 43100); (13, 129599); (14, 129600)]%Z in
  let sims := map (fun s => (Z.to_nat (fst s), snd s)) sims in
  map (get_sim_uuid (insert_by_time Z.leb) sims 0) [0; 1; 2; 3] = [Err ValueError; Ok 10; Ok 13; Err ValueError]
  /\ get_sim_uuid (insert_by_time Z.leb) sims (-1) 1 = Ok 12.
Proof. split; reflexivity. Qed.

(** C48: with tags, the result is exactly what is documented *)
Theorem C48_sims_on_nights_partial : forall show_z show_tags db now first last tags tel age, tags <> [] ->
  exists l, sims_on_nights show_z show_tags db now first last tags tel age = Ok l /\
  forall r, In r l <-> In r db /\ n_tel r = tel /\ (forall g, In g tags -> In g (n_tags r)) /\
    (now - age * 86400 <= n_created r)%Z /\
    exists a b, n_first r = Some a /\ n_last r = Some b /\ (a <= first <= b)%Z /\ (a <= last <= b)%Z.
Proof.
  intros show_z show_tags db now first last tags tel age H. destruct tags as [|g0 tags]; [contradiction|].
  unfold sims_on_nights. eexists. split; [reflexivity|]. intros r. rewrite filter_In, !andb_true_iff, String.eqb_eq, Z.leb_le.
  assert (forallb (fun g => existsb (String.eqb g) (n_tags r)) (g0 :: tags) = true <-> forall g, In g (g0 :: tags) -> In g (n_tags r)) as ->.
  { rewrite forallb_forall. split; intros Hg g Hi; specialize (Hg g Hi).
    - apply existsb_exists in Hg as (x & Hx & E). apply String.eqb_eq in E. congruence.
    - apply existsb_exists. exists g. split; auto. apply String.eqb_refl. }
  unfold between. split.
  - intros (Hi & ((((Hf & Hl) & Ht) & Hg) & Hc)). destruct (n_first r) as [a|]; [|discriminate]. destruct (n_last r) as [b|]; [|discriminate].
    apply andb_true_iff in Hf as [F1 F2]. apply andb_true_iff in Hl as [L1 L2]. rewrite Z.leb_le in *.
    repeat split; auto. exists a, b. auto.
  - intros (Hi & Ht & Hg & Hc & a & b & -> & -> & [F1 F2] & [L1 L2]). repeat split; auto; apply andb_true_iff; rewrite !Z.leb_le; auto.
Qed.
Print Assumptions C48_sims_on_nights_partial.
(** without tags (false of the code): the query text is malformed and every call raises *)
Theorem C48_no_tags_refuted : forall show_z show_tags db now first last tel age,
  sims_on_nights show_z show_tags db now first last [] tel age = Err ValueError.
Proof. intros. reflexivity. Qed.
Print Assumptions C48_no_tags_refuted.
Example C48_case : let ab := ["a"; "b"]%string in
  sims_on_nights (fun _ => ""%string) (fun _ => ""%string)
    [mkN 1 "simonyi" (Some 10%Z) (Some 20%Z) 1000000 ab; mkN 2 "simonyi" (Some 10%Z) (Some 20%Z) 1000000 ["a"%string];
     mkN 3 "auxtel" (Some 10%Z) (Some 20%Z) 1000000 ab; mkN 4 "simonyi" (Some 10%Z) None 1000000 ab;
     mkN 5 "simonyi" (Some 10%Z) (Some 20%Z) 100 ab]
    1000500 11 20 ["b"; "a"]%string "simonyi" 2
  = Ok [mkN 1 "simonyi" (Some 10%Z) (Some 20%Z) 1000000 ab].
Proof. reflexivity. Qed.

(** C85: nightly statistics of a night *)
Theorem C85_night_stats_partial : forall rows u d,
  NoDup (map (fun r => (st_uuid r, st_day r, st_name r, st_acc r)) rows) ->
  (forall r, In r rows -> st_acc r = false) ->
  forall k v, dget String.eqb (night_stats rows u d) k = Some v <->
    exists r, In r rows /\ st_uuid r = u /\ st_day r = d /\ st_name r = k /\ v = (st_acc r, st_vals r).
Proof.
  intros rows u d Hn Ha k v. unfold night_stats.
  set (p := fun r => Nat.eqb (st_uuid r) u && Z.eqb (st_day r) d).
  assert (NoDup (map st_name (filter p rows))) as Hnn.
  { assert (NoDup (map (fun r => (st_uuid r, st_day r, st_name r, st_acc r)) (filter p rows))) as Hn' by (apply NoDup_map_filter; auto).
    assert (forall r, In r (filter p rows) -> st_uuid r = u /\ st_day r = d /\ st_acc r = false) as Hr.
    { intros r Hr. apply filter_In in Hr as [Hr Hp]. unfold p in Hp. apply andb_true_iff in Hp as [E1 E2].
      apply Nat.eqb_eq in E1. apply Z.eqb_eq in E2. auto. }
    clear -Hn' Hr. induction (filter p rows) as [|r l IH]; simpl in *; [constructor|].
    inversion Hn' as [|? ? Hx Hl]; subst. constructor; [|apply IH; auto].
    intros Hi. apply Hx. apply in_map_iff in Hi as (r' & E & Hr'). apply in_map_iff. exists r'. split; auto.
    destruct (Hr r (or_introl eq_refl)) as (A & B & C). destruct (Hr r' (or_intror Hr')) as (A' & B' & C'). congruence. }
  split.
  - intros H. apply (agg_in String.eqb st_name (fun r => (st_acc r, st_vals r)) String.eqb_eq) in H as [H|(r & Hr & E1 & E2)]; [discriminate|].
    apply filter_In in Hr as [Hr Hp]. unfold p in Hp. apply andb_true_iff in Hp as [A B]. apply Nat.eqb_eq in A. apply Z.eqb_eq in B.
    exists r. auto.
  - intros (r & Hr & A & B & <- & ->).
    apply (agg_nodup_keys String.eqb st_name (fun r => (st_acc r, st_vals r)) String.eqb_eq); auto.
    apply filter_In. split; auto. unfold p. rewrite A, B, Nat.eqb_refl, Z.eqb_refl. reflexivity.
Qed.
Print Assumptions C85_night_stats_partial.
(** false of the code when both a nightly and an accumulated row are stored, as the table allows *)
Theorem C85_night_stats_refuted : exists rows u d r,
  NoDup (map (fun r => (st_uuid r, st_day r, st_name r, st_acc r)) rows) /\
  In r rows /\ st_uuid r = u /\ st_day r = d /\ forall k v, In (k, v) (night_stats rows u d) -> v <> (st_acc r, st_vals r).
Proof.
  exists [mkSt 1 5 "altitude" false "x"; mkSt 1 5 "altitude" true "y"], 1, 5%Z, (mkSt 1 5 "altitude" false "x").
  split; [repeat constructor; simpl; intuition discriminate|]. repeat split; simpl; auto.
  intros k v [H|[]]. injection H as _ <-. discriminate.
Qed.
Print Assumptions C85_night_stats_refuted.
Example C85_case : night_stats [mkSt 1 5 "altitude" false "x"; mkSt 2 5 "altitude" false "z"; mkSt 1 6 "altitude" false "w"; mkSt 1 5 "azimuth" false "y"] 1 5
  = [("altitude", (false, "x")); ("azimuth", (false, "y"))]%string.
Proof. reflexivity. Qed.

(** C86: the URL of the visits *)
Theorem C86_visits_url : forall db u url, NoDup (map vs_uuid db) ->
  match set_visitseq_url db u url with
  | (db', Ok _) => get_visitseq_url db' u = Ok (Some url) /\ length db' = length db /\
      (forall u', u' <> u -> get_visitseq_url db' u' = get_visitseq_url db u') /\
      (forall i r, nth_error db i = Some r -> exists r', nth_error db' i = Some r' /\
          vs_table r' = vs_table r /\ vs_uuid r' = vs_uuid r /\ vs_rest r' = vs_rest r /\ (vs_uuid r <> u -> r' = r))
  | (db', Err e) => e = ValueError /\ db' = db /\ forall r, In r db -> vs_uuid r <> u
  end.
Proof.
  intros db u url Hn. unfold set_visitseq_url, find_visitseq_table.
  destruct (find_table db u [TMixed; TCompleted; TSims; TVisitseq]) as [tb|e] eqn:E.
  - destruct (find_table_ok _ _ _ _ E) as (r & Hr & Ht & Hu).
    set (f := fun r => if in_table tb r && (vs_uuid r =? u) then mkVs (vs_table r) (vs_uuid r) (Some url) (vs_rest r) else r).
    assert (forall x, vs_uuid (f x) = vs_uuid x) as Hfu by (intros x; unfold f; destruct (in_table tb x && _); reflexivity).
    assert (forall u', filter (fun r => vs_uuid r =? u') (map f db) = map f (filter (fun r => vs_uuid r =? u') db)) as Hf.
    { intros u'. apply filter_map_comm. intros x. rewrite Hfu. reflexivity. }
    unfold get_visitseq_url. simpl. split; [|split; [apply map_length|split]].
    + rewrite Hf, <- Hu, unique_filter by auto. simpl. unfold f. rewrite Ht, Hu, Nat.eqb_refl. reflexivity.
    + intros u' Hu'. rewrite Hf.
      assert (map f (filter (fun r => vs_uuid r =? u') db) = filter (fun r => vs_uuid r =? u') db) as ->; auto.
      rewrite <- (map_id (filter _ db)) at 2. apply map_ext_in. intros x Hx. apply filter_In in Hx as [_ Hx]. apply Nat.eqb_eq in Hx.
      unfold f. destruct (Nat.eqb_spec (vs_uuid x) u); [congruence|]. rewrite andb_false_r. reflexivity.
    + intros i x Hx. exists (f x). split; [rewrite nth_error_map, Hx; reflexivity|]. unfold f.
      destruct (Nat.eqb_spec (vs_uuid x) u); [|rewrite andb_false_r; auto].
      rewrite andb_true_r. destruct (in_table tb x); simpl; repeat split; auto; contradiction.
  - apply find_table_err in E as [-> H]; [|simpl; auto 10]. auto.
Qed.
Print Assumptions C86_visits_url.
Example C86_case : get_visitseq_url (fst (set_visitseq_url [mkVs TSims 1 None []; mkVs TVisitseq 2 (Some "o"%string) []] 1 "n")) 1 = Ok (Some "n"%string)
  /\ snd (set_visitseq_url [mkVs TSims 1 None []] 5 "n") = Err ValueError.
Proof. split; reflexivity. Qed.

(** C87: comments *)
Theorem C87_get_comments : forall (cs : list ((nat * Z) * (option string * string))) (u : nat),
  get_comments (fold_left (fun t c => comment t (fst (fst c)) (snd (fst c)) (fst (snd c)) (snd (snd c))) cs []) u
  = map (fun c => mkC u (snd (fst c)) (fst (snd c)) (snd (snd c))) (filter (fun c => Nat.eqb (fst (fst c)) u) cs).
Proof.
  intros cs u. induction cs as [|c cs IH] using rev_ind; [reflexivity|].
  rewrite fold_left_app, filter_app, map_app. unfold uuid in *. rewrite <- IH. simpl. unfold get_comments, comment. rewrite filter_app. simpl.
  destruct (Nat.eqb_spec (fst (fst c)) u) as [->|]; simpl; auto.
Qed.
Print Assumptions C87_get_comments.
(** the view shows them all when their times differ *)
Theorem C87_view_comments_partial : forall t u, NoDup (map c_time (get_comments t u)) ->
  forall r, In r (get_comments t u) -> dget Z.eqb (view_comments t u) (c_time r) = Some (c_text r).
Proof.
  intros t u Hn r Hr. unfold view_comments. apply (agg_nodup_keys Z.eqb c_time c_text Z.eqb_eq); auto.
Qed.
Print Assumptions C87_view_comments_partial.
(** false of the code for comments with the same time: only one is shown *)
Theorem C87_view_comments_refuted : exists t u r, In r (get_comments t u) /\ ~ In (c_text r) (map snd (view_comments t u)).
Proof.
  exists [mkC 1 5 None "first"; mkC 1 5 None "second"], 1, (mkC 1 5 None "first"). split; [simpl; auto|].
  simpl. intros [H|[]]. discriminate.
Qed.
Print Assumptions C87_view_comments_refuted.
Example C87_case : view_comments [mkC 1 5 None "first"; mkC 2 5 None "other"; mkC 1 6 (Some "me"%string) "second"] 1 = [(5, "first"); (6, "second")]%string%Z.
Proof. reflexivity. Qed.
