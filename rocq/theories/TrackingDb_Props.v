(** Property theorems: C33, C34, C81-C83. *)
From Verif Require Import Base ResultsDb_Model TrackingDb_Model TrackingDb_Spec TrackingDb_Proofs.
From Coq Require Import Lia Ascii.

(** C33 *)
Theorem C33_one_entry : forall relpath h,
  NoDup (map r_id (trun relpath h)) /\ NoDup (map r_dir (trun relpath h)).
Proof. exact trun_inv. Qed.
Print Assumptions C33_one_entry.
(** re-adding a directory: the id stays, the other fields are replaced, other rows stay as they are *)
Theorem C33_readd : forall relpath h info d oi r, In r (trun relpath h) -> r_dir r = relpath (null_str d) ->
  exists t', add_run relpath (trun relpath h) info d oi = (t', Ok (r_id r)) /\
    In (mkR (r_id r) (r_dir r) (map null_str info)) t' /\
    forall x, r_dir x <> r_dir r -> (In x t' <-> In x (trun relpath h)).
Proof.
  intros relpath h info d oi r Hr Hd. pose proof (trun_inv relpath h) as [_ Hn].
  destruct (add_cases relpath (trun relpath h) info d oi) as [(r' & Hr' & Hd' & ->)|(Hx & _)]; [|elim (Hx r Hr Hd)].
  assert (r' = r) as -> by (apply (inj_of r_dir (trun relpath h)); auto; congruence).
  eexists. split; [reflexivity|]. rewrite <- Hd. split; [apply in_or_app; right; left; reflexivity|].
  intros x Hx. rewrite in_app_iff, filter_In, negb_true_iff, String.eqb_neq. simpl. split; [|auto].
  intros [[H _]|[H|[]]]; auto. subst x. simpl in Hx. congruence.
Qed.
Print Assumptions C33_readd.
(** a new directory gets a new id (the given one, or ValueError if that is taken), and the others stay *)
Theorem C33_add_new : forall relpath h info d oi, (forall r, In r (trun relpath h) -> r_dir r <> relpath (null_str d)) ->
  match add_run relpath (trun relpath h) info d oi with
  | (t', Ok i) => ~ In i (map r_id (trun relpath h)) /\ (oi = None \/ oi = Some i) /\
                  t' = trun relpath h ++ [mkR i (relpath (null_str d)) (map null_str info)]
  | (t', Err e) => t' = trun relpath h /\ exists i, oi = Some i /\ In i (map r_id (trun relpath h))
  end.
Proof.
  intros relpath h info d oi H. destruct (add_cases relpath (trun relpath h) info d oi) as [(r & Hr & Hd & _)|(_ & [(i & r & -> & Hr & Hi & ->)|(i & Hi & Ho & ->)])].
  - elim (H r Hr Hd).
  - split; auto. exists i. split; auto. rewrite <- Hi. apply in_map; auto.
  - split; auto. split; auto. destruct Ho as [->|[-> _]]; auto.
Qed.
Print Assumptions C33_add_new.
Theorem C33_delete : forall relpath h i,
  match del_run (trun relpath h) i with
  | (t', Ok _) => In i (map r_id (trun relpath h)) /\ forall x, In x t' <-> In x (trun relpath h) /\ r_id x <> i
  | (t', Err _) => ~ In i (map r_id (trun relpath h)) /\ t' = trun relpath h
  end.
Proof.
  intros relpath h i. destruct (del_cases (trun relpath h) i (trun_inv relpath h)) as [(r & Hr & Hi & ->)|(Hn & ->)].
  - split; [rewrite <- Hi; apply in_map; auto|]. intros x. rewrite filter_In, negb_true_iff, Nat.eqb_neq. tauto.
  - split; auto. intros H. apply in_map_iff in H as (r & E & Hr). apply (Hn r Hr E).
Qed.
Print Assumptions C33_delete.
Example C33_case : map (fun r => (r_id r, r_dir r)) (trun (fun x => x)
   [AddRun [] (Some "a") None; AddRun [] (Some "b") (Some 7); AddRun [Some "x"] (Some "a") (Some 9); DelRun 7]%string) = [(1, "a"%string)].
Proof. reflexivity. Qed.

(** C81 (false of the code): between the two commits the run is not in the database *)
Theorem C81_readd_atomic_refuted : exists h info d, exists s r,
  In r (trun (fun x => x) h) /\ r_dir r = d /\ In s (add_run_states (fun x => x) (trun (fun x => x) h) info (Some d) None) /\
  ~ In d (map r_dir s).
Proof.
  exists [AddRun [] (Some "a"%string) None], [], "a"%string, [], (mkR 1 "a" []). repeat split; simpl; auto.
Qed.
Print Assumptions C81_readd_atomic_refuted.
Theorem C81_other_runs_partial : forall relpath h info d oi s, In s (add_run_states relpath (trun relpath h) info d oi) ->
  forall x, In x (trun relpath h) -> r_dir x <> relpath (null_str d) -> In x s.
Proof.
  intros relpath h info d oi s Hs x Hx Hd. unfold add_run_states in Hs. revert Hs.
  assert (In x (fst (add_run relpath (trun relpath h) info d oi))) as Hf.
  { destruct (add_cases relpath (trun relpath h) info d oi) as [(r & _ & _ & ->)|(_ & [(i & r & _ & _ & _ & ->)|(i & _ & _ & ->)])]; cbn [fst]; auto.
    - apply in_or_app. left. apply filter_In. rewrite negb_true_iff, String.eqb_neq. auto.
    - apply in_or_app. auto. }
  destruct (filter (fun r => String.eqb (r_dir r) (relpath (null_str d))) (trun relpath h)).
  - intros [<-|[<-|[]]]; auto.
  - intros [<-|[<-|[<-|[]]]]; auto. apply filter_In. rewrite negb_true_iff, String.eqb_neq. auto.
Qed.
Print Assumptions C81_other_runs_partial.

(** C82 (false of the code): the id of the last run is given again after the run is deleted *)
Theorem C82_ids_reused_refuted : exists h d d' i t1 t2 t3, d <> d' /\
  add_run (fun x => x) (trun (fun x => x) h) [] (Some d) None = (t1, Ok i) /\
  del_run t1 i = (t2, Ok tt) /\ add_run (fun x => x) t2 [] (Some d') None = (t3, Ok i).
Proof.
  exists [], "a"%string, "b"%string, 1. do 3 eexists. split; [discriminate|]. repeat split; reflexivity.
Qed.
Print Assumptions C82_ids_reused_refuted.
(** but it is never one of a run that is present *)
Theorem C82_new_id_fresh_partial : forall relpath h info d t' i,
  (forall r, In r (trun relpath h) -> r_dir r <> relpath (null_str d)) ->
  add_run relpath (trun relpath h) info d None = (t', Ok i) ->
  forall r, In r (trun relpath h) -> r_id r < i.
Proof.
  intros relpath h info d t' i H E r Hr.
  destruct (add_cases relpath (trun relpath h) info d None) as [(r' & Hr' & Hd & _)|(_ & [(j & r' & Hj & _)|(j & _ & Hj & E')])].
  - elim (H r' Hr' Hd).
  - discriminate.
  - rewrite E in E'. injection E' as _ ->. destruct Hj as [Hj|[_ ->]]; [discriminate|].
    apply ResultsDb_Proofs.next_id_fresh, in_map; auto.
Qed.
Print Assumptions C82_new_id_fresh_partial.

(** C34: the function returns, the result is safe; a safe name is left as it is (so sanitising twice changes nothing) *)
Theorem C34_sanitized_safe : forall s, exists r, name_sanitize s = Some r /\ safe_name r /\ name_sanitize r = Some r.
Proof. intros s. destruct (sanitize_spec s) as (r & E & H). exists r. split; auto. split; auto. apply safe_fix; auto. Qed.
Print Assumptions C34_sanitized_safe.
Theorem C34_safe_unchanged : forall s, safe_name s -> name_sanitize s = Some s.
Proof. exact safe_fix. Qed.
Print Assumptions C34_safe_unchanged.
(** without comparison signs all other characters are kept in order *)
Theorem C34_others_kept : forall s r, (forall c, In c (map N_of_ascii [">"; "<"; "="]%char) -> ~ In c s) ->
  name_sanitize s = Some r ->
  let ok c := negb (existsb (N.eqb c) (N_of_ascii "_" :: unsafe)) in filter ok r = filter ok s.
Proof. exact sanitize_keeps. Qed.
Print Assumptions C34_others_kept.
Definition str (s : string) : list N := map N_of_ascii (list_ascii_of_string s).
Example C34_case : name_sanitize (str "N visits (r > 24.5)") = Some (str "N_visits_r_gt_24_5").
Proof. reflexivity. Qed.

(** C83 (false of the code): different names can become equal *)
Theorem C83_sanitized_distinct_refuted : exists a b r, a <> b /\ name_sanitize a = Some r /\ name_sanitize b = Some r.
Proof. exists (str "a.b"), (str "a/b"), (str "a_b"). split; [discriminate|]. split; reflexivity. Qed.
Print Assumptions C83_sanitized_distinct_refuted.
Theorem C83_safe_distinct_partial : forall a b, safe_name a -> safe_name b -> name_sanitize a = name_sanitize b -> a = b.
Proof. intros a b Ha Hb. rewrite (safe_fix a Ha), (safe_fix b Hb). congruence. Qed.
Print Assumptions C83_safe_distinct_partial.
