(** Supporting lemmas for the archive. *)
From Verif Require Import Base ResultsDb_Model ResultsDb_Proofs Archive_Model Archive_Spec.
From Coq Require Import Lia Sorting Permutation.

(** tags *)
Lemma tag_eqb_spec : forall a b, tag_eqb a b = true <-> a = b.
Proof.
  intros [u g] [u' g']. unfold tag_eqb; simpl. rewrite andb_true_iff, Nat.eqb_eq, String.eqb_eq. split.
  - intros [-> ->]; auto.
  - intros H; injection H; auto.
Qed.
Lemma is_tagged_spec : forall t u g, is_tagged t u g = true <-> In (u, g) t.
Proof.
  intros. unfold is_tagged. rewrite Nat.leb_le. split.
  - intros H. destruct (filter (tag_eqb (u, g)) t) as [|r l] eqn:E; [simpl in H; lia|].
    assert (In r (filter (tag_eqb (u, g)) t)) as Hr by (rewrite E; left; auto).
    apply filter_In in Hr as [Hr Hq]. apply tag_eqb_spec in Hq. rewrite Hq; exact Hr.
  - intros H. assert (In (u, g) (filter (tag_eqb (u, g)) t)) as Hr by (apply filter_In; split; auto; apply tag_eqb_spec; auto).
    destruct (filter (tag_eqb (u, g)) t); [destruct Hr|simpl; lia].
Qed.
Lemma is_tagged_false : forall t u g, is_tagged t u g = false <-> ~ In (u, g) t.
Proof. intros. rewrite <- is_tagged_spec. destruct (is_tagged t u g); intuition congruence. Qed.
Lemma tag1_in : forall u t g x, In x (tag1 u t g) <-> In x t \/ x = (u, g).
Proof.
  intros. unfold tag1. destruct (is_tagged t u g) eqn:E.
  - apply is_tagged_spec in E. split; auto. intros [H | ->]; auto.
  - rewrite in_app_iff. simpl. intuition congruence.
Qed.
Lemma tag_in : forall gs u t x, In x (tag t u gs) <-> In x t \/ (fst x = u /\ In (snd x) gs).
Proof.
  unfold tag. induction gs as [|g gs IH]; intros u t x; simpl.
  - tauto.
  - rewrite IH, tag1_in. split.
    + intros [[H | ->]|H]; simpl; tauto.
    + intros [H|(H & [Hg|Hg])]; auto. destruct x; simpl in *; subst; auto.
Qed.
Lemma tag1_nodup : forall u t g, NoDup t -> NoDup (tag1 u t g).
Proof.
  intros u t g H. unfold tag1. destruct (is_tagged t u g) eqn:E; auto.
  apply NoDup_snoc; auto. apply is_tagged_false; auto.
Qed.
Lemma tag_nodup : forall gs u t, NoDup t -> NoDup (tag t u gs).
Proof. unfold tag. induction gs as [|g gs IH]; intros u t H; simpl; auto. apply IH, tag1_nodup; auto. Qed.
Lemma tag1_prefix : forall u t g, exists l, tag1 u t g = t ++ l.
Proof. intros. unfold tag1. destruct (is_tagged t u g); [exists []; rewrite app_nil_r; auto|eauto]. Qed.
Lemma untag_in : forall t u g x, In x (fst (untag t u g)) <-> In x t /\ x <> (u, g).
Proof.
  intros. unfold untag. destruct (is_tagged t u g) eqn:E; simpl.
  - rewrite filter_In, negb_true_iff. split; intros [H1 H2]; split; auto.
    + intros ->. assert (tag_eqb (u, g) (u, g) = true) by (apply tag_eqb_spec; auto). congruence.
    + destruct (tag_eqb (u, g) x) eqn:F; auto. apply tag_eqb_spec in F. congruence.
  - apply is_tagged_false in E. split; [|tauto]. intros H; split; auto. intros ->; auto.
Qed.
Lemma untag_nodup : forall t u g, NoDup t -> NoDup (fst (untag t u g)).
Proof. intros. unfold untag. destruct (is_tagged t u g); simpl; auto. apply NoDup_filter; auto. Qed.
Lemma tag_run_snoc : forall h o, tag_run (h ++ [o]) = tag_step (tag_run h) o.
Proof. intros. unfold tag_run. rewrite fold_left_app. reflexivity. Qed.
Lemma tags_after_snoc : forall h o u g, tags_after (h ++ [o]) u g =
  match o with Tag u' gs => (u' = u /\ In g gs) \/ tags_after h u g
             | Untag u' g' => tags_after h u g /\ ~ (u' = u /\ g' = g) end.
Proof. intros. unfold tags_after. rewrite fold_left_app. reflexivity. Qed.
Lemma tag_run_spec : forall h, NoDup (tag_run h) /\ forall u g, In (u, g) (tag_run h) <-> tags_after h u g.
Proof.
  induction h as [|o h [IHn IHi]] using rev_ind.
  - split; [constructor|]. intros; simpl. unfold tags_after; simpl. tauto.
  - rewrite tag_run_snoc. split.
    + destruct o; simpl; [apply tag_nodup|apply untag_nodup]; auto.
    + intros u g. rewrite tags_after_snoc. destruct o as [u' gs|u' g']; unfold tag_step.
      * rewrite tag_in, IHi. simpl. intuition congruence.
      * rewrite untag_in, IHi. split; intros [H1 H2]; split; auto.
        -- intros [-> ->]; auto.
        -- intros E. apply H2. injection E; auto.
Qed.
Lemma count_nodup : forall t u g, NoDup t -> times_stored t u g <= 1.
Proof. intros. apply NoDup_count_occ; auto. Qed.

(** concurrent taggers *)
Definition pending (cs : list tagger) : nat :=
  length (filter (fun c => match c with TSeen true | TDone => false | _ => true end) cs).
Lemma set_nth_length : forall {A} (l : list A) i x, length (set_nth l i x) = length l.
Proof. induction l; intros [|i] x; simpl; auto. Qed.
Lemma set_nth_split : forall {A} (l : list A) i x y, nth_error l i = Some y ->
  exists a b, l = a ++ y :: b /\ set_nth l i x = a ++ x :: b.
Proof.
  induction l as [|z l IH]; intros [|i] x y H; simpl in *; try discriminate.
  - injection H as ->. exists [], l. auto.
  - destruct (IH i x y H) as (a & b & -> & ->). exists (z :: a), b. auto.
Qed.
Lemma times_app : forall t u g l, times_stored (t ++ l) u g = times_stored t u g + times_stored l u g.
Proof. intros. apply count_occ_app. Qed.
Lemma times_one : forall u g, times_stored [(u, g)] u g = 1.
Proof. intros. unfold times_stored. apply count_occ_cons_eq; reflexivity. Qed.
Lemma times_in : forall t u g, In (u, g) t <-> times_stored t u g > 0.
Proof. intros. apply count_occ_In. Qed.
Definition cinv (u : uuid) (g : string) (t0 : list tag_row) (n : nat) (s : list tag_row * list tagger) : Prop :=
  let (t, cs) := s in
  length cs = n /\ (exists l, t = t0 ++ l /\ forall x, In x l -> x = (u, g)) /\
  times_stored t u g + pending cs <= times_stored t0 u g + n /\
  (In (TSeen true) cs \/ In TDone cs -> In (u, g) t).
Lemma pending_app : forall a b, pending (a ++ b) = pending a + pending b.
Proof. intros. unfold pending. rewrite filter_app, app_length. reflexivity. Qed.
Lemma client_step_inv : forall u g t0 n s i, cinv u g t0 n s -> cinv u g t0 n (client_step u g s i).
Proof.
  intros u g t0 n [t cs] i (Hl & (l & Ht & Hx) & Hc & Hd). unfold client_step.
  destruct (nth_error cs i) as [c|] eqn:E; [|split; eauto].
  destruct c as [|b|].
  - destruct (set_nth_split cs i (TSeen (is_tagged t u g)) TStart E) as (a & d & Ea & Es). rewrite Es.
    unfold cinv. rewrite <- Es, set_nth_length. split; auto. split; eauto. rewrite Es. subst cs.
    rewrite !pending_app in *. split.
    + destruct (is_tagged t u g); unfold pending in *; simpl in *; lia.
    + intros [H|H].
      * apply in_app_or in H as [H|[H|H]].
        -- apply Hd; left; apply in_or_app; auto.
        -- injection H as H. apply is_tagged_spec; auto.
        -- apply Hd; left; apply in_or_app; right; right; auto.
      * apply in_app_or in H as [H|[H|H]]; [|discriminate|]; apply Hd; right; apply in_or_app; [auto|right; right; auto].
  - destruct b.
    + destruct (set_nth_split cs i TDone (TSeen true) E) as (a & d & Ea & Es). 
      unfold cinv. rewrite set_nth_length. split; auto. split; eauto. rewrite Es. subst cs.
      rewrite !pending_app in *. split; [unfold pending in *; simpl in *; lia|].
      intros _. apply Hd. left. apply in_or_app; right; left; auto.
    + destruct (set_nth_split cs i TDone (TSeen false) E) as (a & d & Ea & Es).
      unfold cinv. rewrite set_nth_length. split; auto. split.
      * exists (l ++ [(u, g)]). rewrite app_assoc. split; [congruence|]. intros x H. apply in_app_or in H as [H|[H|[]]]; auto.
      * rewrite Es. subst cs. rewrite times_app, times_one. rewrite !pending_app in *. split.
        -- unfold pending in *; simpl in *; lia.
        -- intros _. apply in_or_app; right; left; auto.
  - unfold cinv. eauto 8.
Qed.
Lemma pending_start : forall n, pending (repeat TStart n) = n.
Proof. induction n; unfold pending in *; simpl; auto. Qed.
Lemma clients_inv : forall u g n t0 sched, cinv u g t0 n (clients_run u g n t0 sched).
Proof.
  intros. unfold clients_run. assert (cinv u g t0 n (t0, repeat TStart n)) as H.
  { split; [apply repeat_length|]. split; [exists []; rewrite app_nil_r; split; auto; intros x []|].
    split; [rewrite pending_start; lia|]. intros [H|H]; apply repeat_spec in H; discriminate. }
  revert H. generalize (t0, repeat TStart n) as s. induction sched as [|i l IH]; intros s H; simpl; auto.
  apply IH, client_step_inv; auto.
Qed.

(** pool *)
Lemma pool_run_app : forall h1 h2 p, pool_run p (h1 ++ h2) =
  (fst (pool_run (fst (pool_run p h1)) h2), snd (pool_run p h1) ++ snd (pool_run (fst (pool_run p h1)) h2)).
Proof.
  induction h1 as [|c h1 IH]; intros h2 p; simpl.
  - destruct (pool_run p h2); auto.
  - destruct (pcall_step p c) as [p' r] eqn:E. rewrite IH. destruct (pool_run p' h1) as [q rs]; simpl. reflexivity.
Qed.
Lemma pcall_mono : forall p c, p_used p <= pool_max -> p_used p <= p_used (fst (pcall_step p c)) <= pool_max.
Proof.
  intros [n b] c H. unfold pcall_step, getconn, putconn, pool_max in *; simpl in *.
  destruct c as [f|s f|f]; simpl; destruct (n <? 5) eqn:E; simpl; try lia;
    try (apply Nat.ltb_lt in E); try lia.
  destruct (b && negb s); simpl; try lia. rewrite (proj2 (Nat.ltb_lt n 5) E). simpl. lia.
Qed.
Lemma pool_bound : forall h p, p_used p <= pool_max -> p_used p <= p_used (fst (pool_run p h)) <= pool_max.
Proof.
  induction h as [|c h IH]; intros p H; simpl; [lia|].
  pose proof (pcall_mono p c H). destruct (pcall_step p c) as [p' r]; simpl in *.
  specialize (IH p'). destruct (pool_run p' h); simpl in *. lia.
Qed.
Lemma pool_inserts : forall h p, p_used p <= pool_max ->
  Nat.min pool_max (p_used p + inserts h) <= p_used (fst (pool_run p h)).
Proof.
  induction h as [|c h IH]; intros p H; [change (inserts []) with 0; cbn [pool_run fst]; lia|].
  pose proof (pcall_mono p c H) as Hm. cbn [pool_run]. destruct (pcall_step p c) as [p' r] eqn:E; cbn [fst] in Hm.
  assert (p_used p' <= pool_max) as Hm' by lia. specialize (IH p' Hm'). destruct (pool_run p' h) as [q rs]; cbn [fst] in IH |- *.
  assert (Nat.min pool_max (p_used p + inserts (c :: h)) <= Nat.min pool_max (p_used p' + inserts h)); [|lia].
  destruct c.
  - change (inserts (CQuery fails :: h)) with (inserts h). lia.
  - change (inserts (CRead stale fails :: h)) with (inserts h). lia.
  - change (inserts (CInsertStats fails :: h)) with (S (inserts h)).
    unfold pcall_step, getconn in E. destruct (Nat.ltb_spec (p_used p) pool_max); injection E as <- _; cbn [p_used] in *; lia.
Qed.
Definition quiet (c : pcall) : bool := match c with CQuery _ => true | CRead s _ => negb s | CInsertStats _ => false end.
Lemma quiet_step : forall p c, quiet c = true -> p_used p = (if p_sa p then 1 else 0) ->
  p_used (fst (pcall_step p c)) = (if p_sa (fst (pcall_step p c)) then 1 else 0) /\ snd (pcall_step p c) <> Err PoolError.
Proof.
  intros [n b] c Hq H; simpl in H; subst n. destruct b, c as [[]|[] []|]; try discriminate; simpl; split; congruence.
Qed.
Lemma quiet_run : forall h p, forallb quiet h = true -> p_used p = (if p_sa p then 1 else 0) ->
  p_used (fst (pool_run p h)) = (if p_sa (fst (pool_run p h)) then 1 else 0) /\ ~ In (Err PoolError) (snd (pool_run p h)).
Proof.
  induction h as [|c h IH]; intros p Hq H; simpl; [split; auto|].
  simpl in Hq. apply andb_true_iff in Hq as [Hc Hq]. destruct (quiet_step p c Hc H) as [H1 H2].
  destruct (pcall_step p c) as [p' r]; simpl in *. destruct (IH p' Hq H1) as [H3 H4].
  destruct (pool_run p' h); simpl in *. split; auto. intros [E|E]; auto.
Qed.
Lemma full_raises : forall p c, p_used p >= pool_max -> snd (pcall_step p c) = Err PoolError.
Proof.
  intros p c H. assert (getconn p = Err PoolError) as E.
  { unfold getconn. destruct (Nat.ltb_spec (p_used p) pool_max); [lia|auto]. }
  destruct c; unfold pcall_step; rewrite E; reflexivity.
Qed.
Lemma not_full_ok : forall p f, p_used p < pool_max -> pcall_step p (CQuery f) = (p, db_outcome f).
Proof.
  intros [n b] f H. unfold pcall_step, getconn. destruct (Nat.ltb_spec (p_used (mkPool n b)) pool_max); [|lia]. reflexivity.
Qed.

(** dict lemmas for files *)
Lemma path_eqb_spec : forall a b, path_eqb a b = true <-> a = b.
Proof.
  intros [] []. unfold path_eqb; simpl. rewrite !andb_true_iff, !String.eqb_eq, Nat.eqb_eq. split.
  - intros ((((-> & ->) & ->) & ->) & ->); auto.
  - intros H; injection H; tauto.
Qed.
Lemma fkey_eqb_spec : forall a b, fkey_eqb a b = true <-> a = b.
Proof. exact tag_eqb_spec. Qed.
Lemma dget_dset : forall {K V} (eqb : K -> K -> bool), (forall a b, eqb a b = true <-> a = b) ->
  forall (d : list (K * V)) k v k', dget eqb (dset eqb d k v) k' = if eqb k' k then Some v else dget eqb d k'.
Proof.
  intros K V eqb He. induction d as [|[k0 v0] d IH]; intros k v k'; simpl; auto.
  destruct (eqb k k0) eqn:E; simpl.
  - apply He in E; subst k0. destruct (eqb k' k); auto.
  - rewrite IH. destruct (eqb k' k0) eqn:F; auto. apply He in F; subst k0.
    destruct (eqb k' k) eqn:G; auto. apply He in G; subst. assert (eqb k k = true) by (apply He; auto). congruence.
Qed.
Lemma dget_in_spec : forall {K V} (eqb : K -> K -> bool), (forall a b, eqb a b = true <-> a = b) ->
  forall (d : list (K * V)) k v, dget eqb d k = Some v -> In (k, v) d.
Proof.
  intros K V eqb He. induction d as [|[k0 v0] d IH]; intros k v H; simpl in *; [discriminate|].
  destruct (eqb k k0) eqn:E; auto. apply He in E. left. congruence.
Qed.
Lemma dget_some_in : forall {K V} (eqb : K -> K -> bool), (forall a b, eqb a b = true <-> a = b) ->
  forall (d : list (K * V)) k v, NoDup (map fst d) -> In (k, v) d -> dget eqb d k = Some v.
Proof.
  intros K V eqb He. induction d as [|[k0 v0] d IH]; intros k v Hn H; simpl in *; [destruct H|].
  inversion Hn as [|? ? Hx Hd]; subst. destruct (eqb k k0) eqn:E.
  - apply He in E; subst k0. destruct H as [H|H]; [congruence|].
    elim Hx. change k with (fst (k, v)). apply in_map; auto.
  - destruct H as [H|H]; auto. injection H as -> ->. assert (eqb k k = true) by (apply He; auto). congruence.
Qed.

(** files *)
Section F.
Variable sha256 : string -> string.
Variable to_hdf5 : string -> string.
Notation af := (add_file sha256 to_hdf5).
Lemma add_file_ok : forall s o p, snd (af s o) = Ok p ->
  exists m, a_meta o = Some m /\ p = add_path o m /\
  f_store (fst (af s o)) = dset path_eqb (f_store s) p (add_content to_hdf5 o) /\
  (a_type o = "visits"%string -> f_files (fst (af s o)) = f_files s) /\
  (a_type o <> "visits"%string ->
     f_files (fst (af s o)) = dset fkey_eqb (f_files s) (a_uuid o, a_type o) (sha256 (add_content to_hdf5 o), p) /\
     (a_update o = true \/ dget fkey_eqb (f_files s) (a_uuid o, a_type o) = None)).
Proof.
  intros s o p. unfold add_file. destruct (a_meta o) as [m|]; [|discriminate]. intros H. exists m. split; auto.
  destruct (String.eqb_spec (a_type o) "visits") as [E|E].
  - simpl in *. injection H as <-. repeat split; auto; contradiction.
  - revert H. unfold register_file. destruct (String.eqb_spec (a_type o) "visits"); [contradiction|].
    unfold dmem. simpl.
    destruct (dget fkey_eqb (f_files s) (a_uuid o, a_type o)) eqn:D; destruct (a_update o); simpl; intros H; try discriminate;
      injection H as <-; repeat split; auto; contradiction.
Qed.
Lemma add_file_frame : forall s o p, (forall m, a_meta o = Some m -> p <> add_path o m) ->
  read_url (fst (af s o)) p = read_url s p.
Proof.
  intros s o p H. unfold add_file, read_url. destruct (a_meta o) as [m|]; auto. specialize (H m eq_refl).
  assert (dget path_eqb (dset path_eqb (f_store s) (add_path o m) (add_content to_hdf5 o)) p = dget path_eqb (f_store s) p) as E.
  { rewrite dget_dset by apply path_eqb_spec. destruct (path_eqb p (add_path o m)) eqn:F; auto. apply path_eqb_spec in F. contradiction. }
  destruct (String.eqb (a_type o) "visits"); [exact E|]. unfold register_file.
  destruct (String.eqb (a_type o) "visits"); [exact E|]. destruct (dmem fkey_eqb _ _ && _); exact E.
Qed.
Lemma add_file_entry_frame : forall s o u ft, (u, ft) <> (a_uuid o, a_type o) ->
  dget fkey_eqb (f_files (fst (af s o))) (u, ft) = dget fkey_eqb (f_files s) (u, ft).
Proof.
  intros s o u ft H. unfold add_file. destruct (a_meta o) as [m|]; auto.
  destruct (String.eqb (a_type o) "visits"); auto. unfold register_file.
  destruct (String.eqb (a_type o) "visits"); auto. destruct (dmem fkey_eqb _ _ && _); auto.
  simpl. rewrite dget_dset by apply fkey_eqb_spec. destruct (fkey_eqb (u, ft) (a_uuid o, a_type o)) eqn:F; auto.
  apply fkey_eqb_spec in F. contradiction.
Qed.
(** invariant: every registered entry points to a stored file of that content whose name was used with that type *)
Definition finv (h : list add_op) (s : fstate) : Prop :=
  forall u ft sha p, dget fkey_eqb (f_files s) (u, ft) = Some (sha, p) ->
  (exists c, read_url s p = Some c /\ sha256 c = sha) /\
  exists o, In o h /\ a_uuid o = u /\ a_type o = ft /\ add_name o = p_name p /\ p_uuid p = u.
Definition name_types (h : list add_op) : Prop := forall o o', In o h -> In o' h ->
  a_uuid o = a_uuid o' -> add_name o = add_name o' -> a_type o = a_type o'.
Lemma files_inv : forall h,
  (forall h1 o h2, h = h1 ++ o :: h2 -> exists p, snd (af (files_run sha256 to_hdf5 h1) o) = Ok p) ->
  name_types h -> finv h (files_run sha256 to_hdf5 h).
Proof.
  induction h as [|o h IH] using rev_ind; intros Hok Hn.
  - intros u ft sha p H; discriminate.
  - assert (finv h (files_run sha256 to_hdf5 h)) as IH'.
    { apply IH.
      - intros h1 o' h2 E. apply (Hok h1 o' (h2 ++ [o])). rewrite E, <- app_assoc. reflexivity.
      - intros a b Ha Hb. apply Hn; apply in_or_app; auto. }
    unfold files_run. rewrite fold_left_app. fold (files_run sha256 to_hdf5 h). simpl.
    destruct (Hok h o [] eq_refl) as [p Hp]. destruct (add_file_ok _ _ _ Hp) as (m & Hm & Epp & Hst & Hv & Hr).
    set (s := files_run sha256 to_hdf5 h) in *.
    intros u ft sha q Hg.
    assert (forall q, read_url (fst (af s o)) q = if path_eqb q p then Some (add_content to_hdf5 o) else read_url s q) as Hrd.
    { intros q'. unfold read_url. rewrite Hst, dget_dset by apply path_eqb_spec. reflexivity. }
    destruct (string_dec (a_type o) "visits") as [Et|Et].
    + rewrite (Hv Et) in Hg. destruct (IH' _ _ _ _ Hg) as [[c [Hc1 Hc2]] (o' & Ho' & Hu & Ht & Hnm & Hpu)].
      split.
      * exists c. split; auto. rewrite Hrd. destruct (path_eqb q p) eqn:E; auto. apply path_eqb_spec in E. subst q.
        exfalso. assert (a_type o' = a_type o) as T.
        { apply Hn; try (apply in_or_app; simpl; auto). rewrite Hu, <- Hpu, Epp; auto. rewrite Hnm, Epp; auto. }
        (* the entry (u, visits) cannot be registered *)
        assert (forall h0 s0, s0 = files_run sha256 to_hdf5 h0 -> dget fkey_eqb (f_files s0) (u, "visits"%string) = None) as Hno.
        { clear. intros h0. induction h0 as [|o h0 IH] using rev_ind; intros s0 ->; [reflexivity|].
          unfold files_run. rewrite fold_left_app. fold (files_run sha256 to_hdf5 h0). simpl.
          destruct (string_dec (a_type o) "visits") as [E|E].
          - specialize (IH _ eq_refl). unfold add_file. destruct (a_meta o); auto.
            rewrite E. simpl. auto.
          - rewrite add_file_entry_frame; [apply IH; auto|]. congruence. }
        specialize (Hno h s eq_refl). rewrite <- Ht, T, Et in Hg. congruence.
      * exists o'. split; [apply in_or_app; auto|auto].
    + destruct (Hr Et) as [Hf _]. rewrite Hf, dget_dset in Hg by apply fkey_eqb_spec.
      destruct (fkey_eqb (u, ft) (a_uuid o, a_type o)) eqn:Ek.
      * apply fkey_eqb_spec in Ek. injection Ek as -> ->. injection Hg as <- <-. split.
        -- exists (add_content to_hdf5 o). split; auto. rewrite Hrd.
           destruct (path_eqb p p) eqn:E; auto. assert (path_eqb p p = true) by (apply path_eqb_spec; auto). congruence.
        -- exists o. split; [apply in_or_app; simpl; auto|]. rewrite Epp; auto.
      * destruct (IH' _ _ _ _ Hg) as [[c [Hc1 Hc2]] (o' & Ho' & Hu & Ht & Hnm & Hpu)]. split.
        -- exists c. split; auto. rewrite Hrd. destruct (path_eqb q p) eqn:E; auto. apply path_eqb_spec in E. subst q.
           exfalso. assert (a_type o' = a_type o) as T.
           { apply Hn; try (apply in_or_app; simpl; auto). rewrite Hu, <- Hpu, Epp; auto. rewrite Hnm, Epp; auto. }
           assert (fkey_eqb (u, ft) (a_uuid o, a_type o) = true); [|congruence]. apply fkey_eqb_spec.
           rewrite <- T, Ht. rewrite <- Hpu, Epp. reflexivity.
        -- exists o'. split; [apply in_or_app; auto|auto].
Qed.
End F.

(** daily ids *)
Lemma in_on_day : forall d sims s, In s (on_day d sims) <-> In s sims /\ sim_day (snd s) = d.
Proof. intros. unfold on_day. rewrite filter_In, Z.eqb_eq. tauto. Qed.
Lemma combine_seq_filter : forall (l : list uuid) a k,
  filter (fun x => Nat.eqb (fst x) k) (combine (seq a (length l)) l) =
  match (if a <=? k then nth_error l (k - a) else None) with Some u => [(k, u)] | None => [] end.
Proof.
  induction l as [|u l IH]; intros a k; simpl.
  - destruct (a <=? k); auto. destruct (k - a); reflexivity.
  - rewrite IH. destruct (Nat.eqb_spec a k) as [->|Hne].
    + destruct (Nat.leb_spec (S k) k); [lia|]. rewrite Nat.leb_refl, Nat.sub_diag. reflexivity.
    + destruct (Nat.leb_spec a k).
      * destruct (Nat.leb_spec (S a) k); [|lia]. replace (k - a) with (S (k - S a)) by lia. reflexivity.
      * destruct (Nat.leb_spec (S a) k); [lia|]. reflexivity.
Qed.
Lemma get_sim_nth : forall order sims d k, get_sim_uuid order sims d k =
  match (if 1 <=? k then nth_error (map fst (order (on_day d sims))) (k - 1) else None) with
  | Some u => Ok u | None => Err ValueError end.
Proof.
  intros. unfold get_sim_uuid, daily_ids. rewrite <- (map_length fst (order (on_day d sims))), combine_seq_filter.
  destruct (if 1 <=? k then _ else None); reflexivity.
Qed.
Lemma sorted_perm_unique : forall (l1 l2 : list (uuid * Z)),
  Permutation l1 l2 -> StronglySorted (fun a b => (snd a <= snd b)%Z) l1 -> StronglySorted (fun a b => (snd a <= snd b)%Z) l2 ->
  NoDup (map snd l1) -> l1 = l2.
Proof.
  induction l1 as [|a l1 IH]; intros l2 Hp H1 H2 Hn.
  - apply Permutation_nil in Hp. auto.
  - destruct l2 as [|b l2]; [apply Permutation_sym, Permutation_nil in Hp; discriminate|].
    inversion H1 as [|? ? Hs1 Hf1]; subst. inversion H2 as [|? ? Hs2 Hf2]; subst.
    inversion Hn as [|? ? Hx Hn']; subst.
    assert (a = b) as ->.
    { assert (In a (b :: l2)) as Ha by (apply (Permutation_in _ Hp); left; auto).
      assert (In b (a :: l1)) as Hb by (apply (Permutation_in _ (Permutation_sym Hp)); left; auto).
      destruct Ha as [Ha|Ha]; auto. destruct Hb as [Hb|Hb]; auto.
      rewrite Forall_forall in Hf1, Hf2. pose proof (Hf1 b Hb). pose proof (Hf2 a Ha). cbv beta in *.
      elim Hx. replace (snd a) with (snd b) by lia. apply in_map; auto. }
    f_equal. apply IH; auto. apply (Permutation_cons_inv Hp).
Qed.
Lemma sorted_app_last : forall (l : list (uuid * Z)) x, StronglySorted (fun a b => (snd a <= snd b)%Z) l ->
  (forall y, In y l -> (snd y <= snd x)%Z) -> StronglySorted (fun a b => (snd a <= snd b)%Z) (l ++ [x]).
Proof.
  induction l as [|a l IH]; intros x H Hx; simpl; [repeat constructor|].
  inversion H as [|? ? Hs Hf]; subst. constructor; [apply IH; auto; intros; apply Hx; right; auto|].
  rewrite Forall_forall in *. intros y Hy. apply in_app_or in Hy as [Hy|[<-|[]]]; auto. apply Hx; left; auto.
Qed.

(** aggregated objects *)
Lemma agg_nodup_keys : forall {A K V} (eqb : K -> K -> bool) (f : A -> K) (g : A -> V),
  (forall a b, eqb a b = true <-> a = b) -> forall l d,
  NoDup (map f l) -> (forall a, In a l -> dget eqb d (f a) = None) ->
  forall a, In a l -> dget eqb (fold_left (fun acc r => dset eqb acc (f r) (g r)) l d) (f a) = Some (g a).
Proof.
  intros A K V eqb f g He. induction l as [|x l IH]; intros d Hn Hd a Ha; [destruct Ha|].
  simpl in *. inversion Hn as [|? ? Hx Hn']; subst.
  assert (forall l d k, ~ In k (map f l) ->
     dget eqb (fold_left (fun acc r => dset eqb acc (f r) (g r)) l d) k = dget eqb d k) as Hfr.
  { clear -He. induction l as [|y l IH]; intros d k Hk; simpl in *; auto. rewrite IH by tauto.
    rewrite dget_dset by auto. destruct (eqb k (f y)) eqn:E; auto. apply He in E. subst. tauto. }
  destruct Ha as [->|Ha].
  - rewrite Hfr by auto. rewrite dget_dset by auto. destruct (eqb (f a) (f a)) eqn:E; auto.
    assert (eqb (f a) (f a) = true) by (apply He; auto). congruence.
  - apply IH; auto. intros b Hb. rewrite dget_dset by auto. destruct (eqb (f b) (f x)) eqn:E; auto.
    apply He in E. elim Hx. rewrite <- E. apply in_map; auto.
Qed.
Lemma agg_in : forall {A K V} (eqb : K -> K -> bool) (f : A -> K) (g : A -> V), (forall a b, eqb a b = true <-> a = b) ->
  forall l d k v, dget eqb (fold_left (fun acc r => dset eqb acc (f r) (g r)) l d) k = Some v ->
  dget eqb d k = Some v \/ exists a, In a l /\ f a = k /\ g a = v.
Proof.
  intros A K V eqb f g He. induction l as [|x l IH]; intros d k v H; simpl in *; auto.
  apply IH in H as [H|(a & Ha & E)]; [|right; exists a; auto].
  rewrite dget_dset in H by auto. destruct (eqb k (f x)) eqn:E; auto. apply He in E. injection H as <-.
  right. exists x. auto.
Qed.

(** visit sequence tables *)
Lemma find_table_ok : forall db u tbs tb, find_table db u tbs = Ok tb ->
  exists r, In r db /\ in_table tb r = true /\ vs_uuid r = u.
Proof.
  intros db u. induction tbs as [|t tbs IH]; intros tb H; simpl in H; [discriminate|].
  destruct (0 <? _) eqn:E; [|auto]. injection H as <-. apply Nat.ltb_lt in E.
  destruct (filter (fun r => in_table t r && (vs_uuid r =? u)) db) as [|r l] eqn:F; [simpl in E; lia|].
  assert (In r (filter (fun r => in_table t r && (vs_uuid r =? u)) db)) as Hr by (rewrite F; left; auto).
  apply filter_In in Hr as [Hr Hq]. apply andb_true_iff in Hq as [H1 H2]. apply Nat.eqb_eq in H2. eauto.
Qed.
Lemma find_table_err : forall db u tbs e, In TVisitseq tbs -> find_table db u tbs = Err e ->
  e = ValueError /\ forall r, In r db -> vs_uuid r <> u.
Proof.
  intros db u. induction tbs as [|t tbs IH]; intros e Hin H; simpl in H; [destruct Hin|].
  destruct (0 <? _) eqn:E; [discriminate|]. apply Nat.ltb_ge in E.
  destruct Hin as [->|Hin]; [|auto]. split.
  - clear -H. induction tbs as [|t' tbs IH]; simpl in H; [congruence|]. destruct (0 <? _); [discriminate|auto].
  - intros r Hr Hu. assert (In r (filter (fun r => in_table TVisitseq r && (vs_uuid r =? u)) db)) as Hf.
    { apply filter_In. split; auto. simpl. apply Nat.eqb_eq; auto. }
    destruct (filter (fun r => in_table TVisitseq r && (vs_uuid r =? u)) db); [destruct Hf|simpl in E; lia].
Qed.
Lemma filter_map_comm : forall {A} (f : A -> A) (p : A -> bool) l, (forall x, p (f x) = p x) ->
  filter p (map f l) = map f (filter p l).
Proof. intros A f p l H. induction l as [|x l IH]; simpl; auto. rewrite H. destruct (p x); simpl; congruence. Qed.
Lemma unique_filter : forall (db : list vs_row) r, In r db -> NoDup (map vs_uuid db) ->
  filter (fun x => vs_uuid x =? vs_uuid r) db = [r].
Proof.
  induction db as [|x db IH]; intros r Hr Hn; [destruct Hr|]. simpl in *. inversion Hn as [|? ? Hx Hn']; subst.
  destruct Hr as [->|Hr].
  - rewrite Nat.eqb_refl. f_equal. assert (forall l, ~ In (vs_uuid r) (map vs_uuid l) -> filter (fun x => vs_uuid x =? vs_uuid r) l = []) as Hf.
    { induction l as [|y l IH']; intros Hy; simpl in *; auto. destruct (Nat.eqb_spec (vs_uuid y) (vs_uuid r)); [elim Hy; auto|]. apply IH'; tauto. }
    apply Hf; auto.
  - destruct (Nat.eqb_spec (vs_uuid x) (vs_uuid r)) as [E|E]; [|auto]. elim Hx. rewrite E. apply in_map; auto.
Qed.

(** conda environments *)
Lemma dmem_true : forall (d : list (string * string)) k, dmem String.eqb d k = true -> In k (map fst d).
Proof.
  intros d k H. unfold dmem in H. destruct (dget String.eqb d k) eqn:E; [|discriminate].
  apply dget_in_spec in E; [|exact String.eqb_eq]. change k with (fst (k, s)). apply in_map; auto.
Qed.
Lemma dget_app_some : forall {V} (a b : list (string * V)) k v, dget String.eqb a k = Some v -> dget String.eqb (a ++ b) k = Some v.
Proof.
  induction a as [|[k0 v0] a IH]; intros b k v H; simpl in *; [discriminate|]. destruct (String.eqb k k0); auto.
Qed.
Lemma dget_app_none : forall {V} (a b : list (string * V)) k, dget String.eqb a k = None -> dget String.eqb (a ++ b) k = dget String.eqb b k.
Proof.
  induction a as [|[k0 v0] a IH]; intros b k H; simpl in *; auto. destruct (String.eqb k k0); [discriminate|auto].
Qed.
Lemma dmem_false : forall (d : list (string * string)) k, dmem String.eqb d k = false -> ~ In k (map fst d).
Proof.
  induction d as [|[k0 v0] d IH]; intros k H; simpl in *; [tauto|]. unfold dmem in H; simpl in H.
  destruct (String.eqb_spec k k0); [discriminate|]. intros [E|E]; [congruence|]. apply (IH k); auto.
Qed.
Lemma conda_step : forall env saved h j r, record_conda_env env saved h j = r ->
  (exists e, r = (saved, Err e)) \/
  (exists k v, r = (saved, Ok k) /\ dget String.eqb saved k = Some v) \/
  (exists k v, r = (saved ++ [(k, v)], Ok k) /\ dget String.eqb saved k = None /\
     ((h = None /\ (k, v) = env) \/ (h = Some k /\ j = Some v))).
Proof.
  intros env saved h j r H. unfold record_conda_env in H. destruct (conda_guard h j); [eauto|].
  destruct h as [h|]; simpl in H.
  - destruct j as [j|]; [|eauto]. unfold dmem in H. destruct (dget String.eqb saved h) eqn:E; [right; left; eauto|].
    right; right. exists h, j. auto.
  - unfold dmem in H. destruct (dget String.eqb saved (fst env)) eqn:E; [right; left; eauto|].
    right; right. exists (fst env), (snd env). split; auto. split; auto. left. destruct env; auto.
Qed.

(** yaml *)
Lemma import_files_ok : forall readable (basename : string -> string) fs acc,
  NoDup (map fst (acc ++ fs)) -> (forall f, In f fs -> fst f <> "visits"%string /\ readable (snd f) = true) ->
  import_files readable acc (map (fun f => (fst f, YDict [("url", YStr (snd f)); ("name", YStr (basename (snd f)))]%string)) fs)
  = Ok (acc ++ fs).
Proof.
  induction fs as [|[ft url] fs IH]; intros acc Hn Hf; simpl; [rewrite app_nil_r; auto|].
  destruct (Hf (ft, url) (or_introl eq_refl)) as [Hv Hr]; simpl in *. rewrite Hr. simpl.
  destruct (String.eqb_spec ft "visits"); [contradiction|]. simpl.
  destruct (dmem String.eqb acc ft) eqn:E.
  - apply dmem_true in E. rewrite map_app in Hn. simpl in Hn. apply NoDup_remove_2 in Hn. elim Hn. apply in_or_app; auto.
  - rewrite IH; [rewrite <- app_assoc; reflexivity| |intros; apply Hf; right; auto]. rewrite <- app_assoc. exact Hn.
Qed.
Lemma tag_names_nodup : forall l acc, NoDup (acc ++ l) -> fold_left tag_name1 l acc = acc ++ l.
Proof.
  induction l as [|g l IH]; intros acc H; simpl; [rewrite app_nil_r; auto|].
  assert (tag_name1 acc g = acc ++ [g]) as ->.
  { unfold tag_name1. destruct (existsb (String.eqb g) acc) eqn:E; auto. apply existsb_exists in E as (x & Hx & Ex).
    apply String.eqb_eq in Ex; subst x. apply NoDup_remove_2 in H. elim H. apply in_or_app; auto. }
  rewrite IH; rewrite <- app_assoc; auto.
Qed.
Lemma flat_map_ystr : forall l, flat_map (fun v => match v with YStr s => [s] | _ => [] end) (map YStr l) = l.
Proof. induction l; simpl; congruence. Qed.
Lemma dget_map_files : forall (basename : string -> string) fs k,
  yget (map (fun f => (fst f, YDict [("url", YStr (snd f)); ("name", YStr (basename (snd f)))]%string)) fs) k
  = match dget String.eqb fs k with Some u => Some (YDict [("url", YStr u); ("name", YStr (basename u))]%string) | None => None end.
Proof. induction fs as [|[a b] fs IH]; intros k; unfold yget in *; simpl; auto. destruct (String.eqb k a); auto. Qed.
