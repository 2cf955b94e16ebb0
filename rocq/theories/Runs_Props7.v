(** C338: gathering the summary statistics of many runs (combine_result_dbs). *)
From Coq Require Import String Ascii Reals ZArith List Bool Lia.
From Verif Require Import Base Template_Model Runs_Spec Runs_Model Runs_Props.
Import ListNotations.

(** ** the names *)
Definition Blank (a : ascii) : Prop := In a [" "; "009"; "010"; "011"; "012"; "013"]%char.
Fixpoint AllBlank (s : string) : Prop := match s with EmptyString => True | String a t => Blank a /\ AllBlank t end.
(** [t] is [s] without the blanks at its ends *)
Definition Stripped (s t : string) : Prop :=
  (exists p q, AllBlank p /\ AllBlank q /\ s = (p ++ t ++ q)%string)
  /\ (forall a r, t = String a r -> ~ Blank a) /\ (forall a r, t = (r ++ String a EmptyString)%string -> ~ Blank a).
Lemma is_space_blank : forall a, is_space a = true <-> Blank a.
Proof.
  intros a. unfold is_space, Blank. rewrite existsb_exists. split.
  - intros [x [I E]]. apply Ascii.eqb_eq in E. subst. exact I.
  - intros I. exists a. split; [exact I|apply Ascii.eqb_refl].
Qed.
Lemma app_assoc_s : forall a b c, ((a ++ b) ++ c = a ++ (b ++ c))%string.
Proof. induction a as [|x a IH]; intros b c; cbn; [reflexivity|]. f_equal. apply IH. Qed.
Lemma app_nil_s : forall a, (a ++ EmptyString)%string = a.
Proof. induction a as [|x a IH]; cbn; [reflexivity|]. f_equal. exact IH. Qed.
Lemma lstrip_spec : forall s, (exists p, AllBlank p /\ s = (p ++ lstrip s)%string) /\ (forall a r, lstrip s = String a r -> ~ Blank a).
Proof.
  induction s as [|a t [[p [A B]] C]]; cbn [lstrip]; [split; [exists EmptyString; cbn; auto|discriminate]|].
  destruct (is_space a) eqn:E.
  - split; [|exact C]. exists (String a p). cbn. split; [split; [apply is_space_blank; exact E|exact A]|f_equal; exact B].
  - split; [exists EmptyString; cbn; auto|]. intros b r H. injection H as <- _. rewrite <- is_space_blank. congruence.
Qed.
Lemma rstrip_spec : forall s, (exists q, AllBlank q /\ s = (rstrip s ++ q)%string) /\ (forall a r, rstrip s = (r ++ String a EmptyString)%string -> ~ Blank a).
Proof.
  induction s as [|a t [[q [A B]] C]]; cbn [rstrip].
  - split; [exists EmptyString; cbn; auto|]. intros a [|b r] H; discriminate.
  - destruct (rstrip t) as [|b r'] eqn:E.
    + destruct (is_space a) eqn:S1.
      * split; [|intros x [|y r] H; discriminate]. exists (String a t). cbn. split; [|reflexivity]. split; [apply is_space_blank; exact S1|]. cbn in B. rewrite B. exact A.
      * split; [exists q; cbn; split; [exact A|f_equal; exact B]|]. intros x [|y r] H; cbn in H; [injection H as <-; rewrite <- is_space_blank; congruence|].
        injection H as _ H. destruct r; discriminate.
    + split; [exists q; split; [exact A|cbn in *; f_equal; exact B]|]. intros x [|y r] H; cbn in H; [discriminate|]. injection H as _ H. apply (C x r). exact H.
Qed.
Lemma strip_spec : forall s, Stripped s (strip s).
Proof.
  intros s. unfold strip. destruct (lstrip_spec s) as [[p [A B]] C]. destruct (rstrip_spec (lstrip s)) as [[q [D E]] F].
  split; [exists p, q; split; [exact A|]; split; [exact D|]; rewrite B at 1; rewrite E at 1; reflexivity|]. split; [|exact F].
  intros a r H. apply (C a (r ++ q)%string). rewrite E, H. reflexivity.
Qed.
Lemma blank_app : forall p q, AllBlank (p ++ q)%string <-> AllBlank p /\ AllBlank q.
Proof. induction p as [|a p IH]; intros q; cbn; [tauto|]. rewrite IH. tauto. Qed.

(** no two spaces in a row *)
Definition Single (s : string) : Prop := forall p q, s <> (p ++ "  " ++ q)%string.
Lemma single_tail : forall a s, Single (String a s) -> Single s.
Proof. intros a s H p q E. apply (H (String a p) q). cbn. f_equal. exact E. Qed.
Lemma single_id : forall s, Single s -> single_spaces s = s.
Proof.
  induction s as [|a t IH]; intros H; [reflexivity|]. cbn [single_spaces]. destruct t as [|b t']; [reflexivity|].
  destruct (Ascii.eqb_spec a " ") as [->|N]; cbn [andb]; [|f_equal; apply IH; apply (single_tail _ _ H)].
  destruct (Ascii.eqb_spec b " ") as [->|N]; [|f_equal; apply IH; apply (single_tail _ _ H)].
  elim (H EmptyString t'). reflexivity.
Qed.
Lemma single_gap : forall A B, Single (A ++ " ")%string -> (forall r, A <> (r ++ " ")%string) -> Single B -> single_spaces (A ++ "  " ++ B)%string = (A ++ " " ++ B)%string.
Proof.
  induction A as [|a A IH]; intros B HA HE HB.
  - cbn. f_equal. apply single_id. exact HB.
  - assert (IH' : single_spaces (A ++ "  " ++ B)%string = (A ++ " " ++ B)%string).
    { destruct A as [|b A'].
      - cbn. f_equal. apply single_id. exact HB.
      - apply IH; [apply (single_tail a); exact HA| |exact HB]. intros r E. apply (HE (String a r)). cbn. f_equal. exact E. }
    change (String a A ++ "  " ++ B)%string with (String a (A ++ "  " ++ B))%string. change (String a A ++ " " ++ B)%string with (String a (A ++ " " ++ B))%string.
    cbn [single_spaces]. destruct (A ++ "  " ++ B)%string as [|b t] eqn:E.
    + destruct A; discriminate.
    + try rewrite E in IH'. destruct (Ascii.eqb_spec a " ") as [->|N]; cbn [andb]; [|f_equal; exact IH'].
      destruct (Ascii.eqb_spec b " ") as [->|N]; [|f_equal; exact IH'].
      exfalso. destruct A as [|c A']; [apply (HE EmptyString); reflexivity|]. cbn in E. injection E as -> _. apply (HA EmptyString (A' ++ " ")%string). reflexivity.
Qed.
(** C338: a statistic is called by its name, its metric, its label and its slicer, without the blanks at their ends, separated by
    single spaces; a label that is blank leaves no gap.  (Provided that none has two spaces in a row inside.) *)
Theorem C338_name : forall s a b c d, Stripped (s_summary s) a -> Stripped (s_metric s) b -> Stripped (s_info s) c -> Stripped (s_slicer s) d ->
  (c <> EmptyString -> Single (a ++ " " ++ b ++ " " ++ c ++ " " ++ d)%string -> stat_name s = (a ++ " " ++ b ++ " " ++ c ++ " " ++ d)%string)
  /\ (c = EmptyString -> b <> EmptyString -> Single (a ++ " " ++ b ++ " ")%string -> Single d -> stat_name s = (a ++ " " ++ b ++ " " ++ d)%string).
Proof.
  assert (U : forall s t, Stripped s t -> t = strip s).
  { intros s t H. pose proof (strip_spec s) as K. revert H K. generalize (strip s) as u. intros u [[p [q [P [Q E]]]] [A B]] [[p' [q' [P' [Q' E']]]] [A' B']].
    (* compare the two decompositions *)
    assert (G : forall p p' x x' : string, AllBlank p -> AllBlank p' -> (p ++ x = p' ++ x')%string ->
       (forall a r, x = String a r -> ~ Blank a) -> (forall a r, x' = String a r -> ~ Blank a) -> x = x').
    { clear. induction p as [|a p IH]; intros p' x x' P P' E X X'.
      - destruct p' as [|b p']; [exact E|]. cbn in E. destruct P' as [P' _]. elim (X b (p' ++ x')%string E). exact P'.
      - destruct p' as [|b p']; cbn in E; [destruct P as [P _]; elim (X' a (p ++ x)%string (eq_sym E)); exact P|]. injection E as -> E.
        apply (IH p'); auto; [apply P|apply P']. }
    assert (G' : forall x x' q q' : string, AllBlank q -> AllBlank q' -> (x ++ q = x' ++ q')%string ->
       (forall a r, x = (r ++ String a EmptyString)%string -> ~ Blank a) -> (forall a r, x' = (r ++ String a EmptyString)%string -> ~ Blank a) -> x = x').
    { clear. assert (L : forall s, s = EmptyString \/ exists r a, s = (r ++ String a EmptyString)%string).
      { induction s as [|a t [->|[r [b ->]]]]; [left; reflexivity|right; exists EmptyString, a; reflexivity|right; exists (String a r), b; reflexivity]. }
      induction x as [|a x IH]; intros x' q q' Q Q' E X X'.
      - destruct x' as [|b x']; [reflexivity|]. exfalso. cbn in E. subst q. change (String b (x' ++ q'))%string with ((String b x') ++ q')%string in Q. rewrite blank_app in Q. destruct Q as [Q _].
        destruct (L (String b x')) as [D|[r [c D]]]; [discriminate|]. apply (X' c r D). rewrite D in Q. apply blank_app in Q. apply Q.
      - destruct x' as [|b x'].
        + exfalso. cbn in E. subst q'. change (String a (x ++ q))%string with ((String a x) ++ q)%string in Q'. rewrite blank_app in Q'. destruct Q' as [Q' _].
          destruct (L (String a x)) as [D|[r [c D]]]; [discriminate|]. apply (X c r D). rewrite D in Q'. apply blank_app in Q'. apply Q'.
        + cbn in E. injection E as -> E. f_equal. apply (IH x' q q'); auto; intros c r D; [apply (X c (String b r))|apply (X' c (String b r))]; cbn; f_equal; exact D. }
    destruct (string_dec t EmptyString) as [->|Nt].
    - destruct (string_dec u EmptyString) as [->|Nu]; [reflexivity|]. exfalso. destruct u as [|c u]; [congruence|].
      rewrite E in E'. assert (AllBlank (p ++ EmptyString ++ q)%string) as W by (apply blank_app; split; [exact P|exact Q]). rewrite E' in W.
      apply blank_app in W. destruct W as [_ W]. apply blank_app in W. destruct W as [W _]. apply (A' c u eq_refl). apply W.
    - destruct (string_dec u EmptyString) as [->|Nu].
      + exfalso. destruct t as [|c t]; [congruence|].
        rewrite E in E'. assert (AllBlank (p' ++ EmptyString ++ q')%string) as W by (apply blank_app; split; [exact P'|exact Q']). rewrite <- E' in W.
        apply blank_app in W. destruct W as [_ W]. apply blank_app in W. destruct W as [W _]. apply (A c t eq_refl). apply W.
      + rewrite E in E'.
        assert (F : (t ++ q = u ++ q')%string).
        { apply (G p p'); auto; intros x r D; [destruct t as [|c t]; [congruence|]; injection D as <- _; apply (A c t eq_refl)
                                              |destruct u as [|c u]; [congruence|]; injection D as <- _; apply (A' c u eq_refl)]. }
        apply (G' t u q q'); auto. }
  intros s a b c d Ha Hb Hc Hd. unfold stat_name. rewrite <- (U _ _ Ha), <- (U _ _ Hb), <- (U _ _ Hc), <- (U _ _ Hd). split.
  - intros _ H. apply single_id. exact H.
  - intros -> Nb H HD.
    replace (a ++ " " ++ b ++ " " ++ "" ++ " " ++ d)%string with ((a ++ " " ++ b) ++ "  " ++ d)%string by (rewrite !app_assoc_s; reflexivity).
    replace (a ++ " " ++ b ++ " " ++ d)%string with ((a ++ " " ++ b) ++ " " ++ d)%string by (rewrite !app_assoc_s; reflexivity).
    apply single_gap; [rewrite !app_assoc_s; exact H| |exact HD].
    intros r E. destruct Hb as [_ [_ Hb]].
    assert (L : forall s, s = EmptyString \/ exists r a, s = (r ++ String a EmptyString)%string).
    { induction s0 as [|x t [->|[r0 [y ->]]]]; [left; reflexivity|right; exists EmptyString, x; reflexivity|right; exists (String x r0), y; reflexivity]. }
    destruct (L b) as [->|[r' [y ->]]]; [congruence|].
    assert (y = " "%char) as ->.
    { revert E. replace (a ++ " " ++ r' ++ String y EmptyString)%string with ((a ++ " " ++ r') ++ String y EmptyString)%string by (rewrite !app_assoc_s; reflexivity).
      generalize (a ++ " " ++ r')%string as z. clear. intros z. revert r. induction z as [|c z IH]; intros [|e r] E; cbn in E; injection E; intros; subst; auto.
      - destruct r; discriminate.
      - destruct z; discriminate.
      - eapply IH. eassumption. }
    apply (Hb " "%char r' eq_refl). left. reflexivity.
Qed.
Print Assumptions C338_name.

(** ** the table *)
Lemma first_some_split : forall {A} (g : A -> cell) l, match first_some (map g l) with
  | Some x => exists p s q, l = p ++ s :: q /\ g s = Some x /\ forall y, In y p -> g y = None
  | None => forall y, In y l -> g y = None end.
Proof.
  intros A g l. induction l as [|s t IH]; cbn; [intros y []|]. destruct (g s) as [x|] eqn:E.
  - exists [], s, t. repeat split; auto. intros y [].
  - destruct (first_some (map g t)) as [x|].
    + destruct IH as [p [s' [q [A1 [B C]]]]]. exists (s :: p), s', q. subst. repeat split; auto. intros y [<-|I]; auto.
    + intros y [<-|I]; auto.
Qed.
Lemma combined_spec : forall stats r n, match combined stats r n with
  | Some x => exists p s q, stats = p ++ s :: q /\ s_run s = r /\ stat_name s = n /\ s_value s = Some x
              /\ forall y, In y q -> s_run y = r -> stat_name y = n -> s_value y = None
  | None => forall y, In y stats -> s_run y = r -> stat_name y = n -> s_value y = None end.
Proof.
  intros stats r n. unfold combined, last_some.
  assert (F : forall f : stat -> bool, rev (filter f stats) = filter f (rev stats)).
  { intros f. clear. induction stats as [|s t IH]; [reflexivity|]. cbn [filter rev]. rewrite filter_app, <- IH. cbn. destruct (f s); cbn; [reflexivity|rewrite app_nil_r; reflexivity]. }
  rewrite <- map_rev, F. set (f := fun s => String.eqb (s_run s) r && String.eqb (stat_name s) n).
  assert (Q : forall s, f s = true <-> s_run s = r /\ stat_name s = n) by (intros s; unfold f; rewrite andb_true_iff, !String.eqb_eq; tauto).
  assert (G : first_some (map s_value (filter f (rev stats))) = first_some (map (fun s => if f s then s_value s else None) (rev stats))).
  { generalize (rev stats) as l. induction l as [|s t IH]; [reflexivity|]. cbn [filter map first_some]. destruct (f s); cbn [map first_some]; [destruct (s_value s); auto|exact IH]. }
  rewrite G. pose proof (first_some_split (fun s => if f s then s_value s else None) (rev stats)) as H. clear G.
  destruct (first_some (map (fun s => if f s then s_value s else None) (rev stats))) as [x|].
  - destruct H as [p [s [q [A [B C]]]]]. exists (rev q), s, (rev p). apply (f_equal (@rev stat)) in A. rewrite rev_involutive, rev_app_distr in A. cbn in A. rewrite <- app_assoc in A.
    split; [exact A|]. destruct (f s) eqn:E; [|discriminate]. apply Q in E. destruct E as [E1 E2]. repeat split; auto.
    intros y I Y1 Y2. apply in_rev in I. specialize (C y I). rewrite (proj2 (Q y) (conj Y1 Y2)) in C. exact C.
  - intros y I Y1 Y2. apply in_rev in I. specialize (H y I). cbv beta in H. rewrite (proj2 (Q y) (conj Y1 Y2)) in H. exact H.
Qed.
Lemma read_spec : forall dbs created,
  match read_dbs dbs created with
  | (Ok stats, c) => c = created /\ exists ls, map snd dbs = map Some ls /\ stats = concat ls
  | (Err e, c) => e = OperationalError /\ exists pre d post, dbs = pre ++ (d, None) :: post /\ (forall q, In q pre -> snd q <> None) /\ c = d :: created
  end.
Proof.
  induction dbs as [|[d [l|]] t IH]; intros created; cbn [read_dbs].
  - split; [reflexivity|]. exists []. auto.
  - specialize (IH created). destruct (read_dbs t created) as [[stats|e] c]; cbn [fst snd bind].
    + destruct IH as [-> [ls [A B]]]. split; [reflexivity|]. exists (l :: ls). cbn. split; congruence.
    + destruct IH as [-> [pre [d' [post [A [B C]]]]]]. split; [reflexivity|]. exists ((d, Some l) :: pre), d', post. subst. split; [reflexivity|]. split; [|reflexivity].
      intros q [<-|I]; [discriminate|apply B; exact I].
  - split; [reflexivity|]. exists [], d, t. split; [reflexivity|]. split; [intros q []|reflexivity].
Qed.
(** C338: the table has one row for each run and one column for each name of the databases together; a cell is the last value of that
    run and name that is not missing.  No file is made. *)
Theorem C338_table : forall dbs out created, combine_result_dbs dbs = (Ok out, created) ->
  created = [] /\ exists ls, map snd dbs = map Some ls
  /\ NoDup (f_index out) /\ (forall r, In r (f_index out) <-> exists s, In s (concat ls) /\ s_run s = r)
  /\ NoDup (f_cols out) /\ (forall n, In n (f_cols out) <-> exists s, In s (concat ls) /\ stat_name s = n)
  /\ length (f_cells out) = length (f_index out)
  /\ forall i j r n, nth_error (f_index out) i = Some r -> nth_error (f_cols out) j = Some n ->
       exists v, At (f_cells out) i j v /\
       match v with
       | Some x => exists p s q, concat ls = p ++ s :: q /\ s_run s = r /\ stat_name s = n /\ s_value s = Some x
                   /\ forall y, In y q -> s_run y = r -> stat_name y = n -> s_value y = None
       | None => forall y, In y (concat ls) -> s_run y = r -> stat_name y = n -> s_value y = None
       end.
Proof.
  intros dbs out created H. unfold combine_result_dbs in H. pose proof (read_spec dbs []) as Q. destruct (read_dbs dbs []) as [[stats|e] c]; cbn [fst snd bind] in H; [|discriminate].
  destruct Q as [-> [ls [A ->]]]. injection H as <- <-. split; [reflexivity|]. exists ls. split; [exact A|]. cbn [f_index f_cols f_cells].
  assert (M : forall (g : stat -> string) x, In x (nodup string_dec (map g (concat ls))) <-> exists s, In s (concat ls) /\ g s = x).
  { intros g x. rewrite nodup_In, in_map_iff. split; intros [s [U V]]; exists s; auto. }
  split; [apply NoDup_nodup|]. split; [apply M|]. split; [apply NoDup_nodup|]. split; [apply M|]. split; [apply map_length|].
  intros i j r n Hi Hj. exists (combined (concat ls) r n). split; [|apply combined_spec].
  exists (map (fun n0 => combined (concat ls) r n0) (nodup string_dec (map stat_name (concat ls)))). split; rewrite nth_error_map'; [rewrite Hi|rewrite Hj]; reflexivity.
Qed.
Print Assumptions C338_table.
(** C338: a directory without a database stops the whole, although the message is only a warning, and a new empty file is left in that directory. *)
Theorem C338_missing : forall pre d post, (forall q, In q pre -> snd q <> None) ->
  combine_result_dbs (pre ++ (d, None) :: post) = (Err OperationalError, [d]).
Proof.
  intros pre d post H. unfold combine_result_dbs.
  assert (E : read_dbs (pre ++ (d, None) :: post) [] = (Err OperationalError, [d])).
  { induction pre as [|[x [l|]] t IH]; [reflexivity| |elim (H (x, None) (or_introl eq_refl)); reflexivity].
    cbn [app read_dbs]. rewrite IH by (intros q I; apply H; right; exact I). reflexivity. }
  rewrite E. reflexivity.
Qed.
Print Assumptions C338_missing.
Definition st (v : R) (m i : string) : stat := {| s_value := Some v; s_metric := m; s_info := i; s_slicer := "HEAL"; s_summary := "Median"; s_run := "r" |}.
(** C338: two statistics of different metrics may have the same name, and then only the later one is in the table. *)
Theorem C338_distinct_refuted : ~ (forall s s', s_metric s <> s_metric s' -> stat_name s <> stat_name s').
Proof. intros H. apply (H (st 1 "Nvisits" "r band") (st 2 "Nvisits r" "band")); [discriminate|reflexivity]. Qed.
Print Assumptions C338_distinct_refuted.
Theorem C338_lost_refuted : ~ (forall dbs out s, combine_result_dbs dbs = (Ok out, []) -> (exists d l, In (d, Some l) dbs /\ In s l) ->
  exists i j, nth_error (f_index out) i = Some (s_run s) /\ At (f_cells out) i j (s_value s)).
Proof.
  intros H.
  destruct (H [("d"%string, Some [st 1 "Nvisits" "r band"; st 2 "Nvisits r" "band"])] _ (st 1 "Nvisits" "r band") eq_refl) as [i [j [A [row [B C]]]]].
  { exists "d"%string, [st 1 "Nvisits" "r band"; st 2 "Nvisits r" "band"]. cbn. auto. }
  destruct i as [|i]; [|vm_compute in A; destruct i; discriminate]. vm_compute in B. injection B as <-.
  destruct j as [|[|j]]; vm_compute in C; [|discriminate|discriminate]. injection C as C. assert (2 = 1)%R as D by exact C. apply eq_IZR in D. discriminate.
Qed.
Print Assumptions C338_lost_refuted.
Example C338_case : stat_name (st 1 " Nvisits" "") = "Median Nvisits HEAL"%string /\ Stripped " Nvisits" "Nvisits".
Proof. split; [reflexivity|]. exact (strip_spec " Nvisits"). Qed.
