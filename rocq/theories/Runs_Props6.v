(** C337: the table of runs by family and by run.  C339: downloading runs; the lines between families. *)
From Coq Require Import String Ascii Reals ZArith List Bool Lia Permutation.
From Verif Require Import Base Template_Model Maps_Proofs Runs_Spec Runs_Model Runs_Props.
Import ListNotations.

Lemma nth_combine : forall {A B} (l : list A) (l' : list B) k p, nth_error (combine l l') k = Some p <-> nth_error l k = Some (fst p) /\ nth_error l' k = Some (snd p).
Proof.
  induction l as [|x t IH]; intros [|y l'] [|k] [a b]; cbn [combine nth_error fst snd]; try (split; [discriminate|intros [A1 B1]; discriminate]).
  - split; [intros H; injection H; intros; subst; auto|intros [H K]; congruence].
  - apply (IH l' k (a, b)).
Qed.

(** C337: by family.  There is a row for every run of every family, with its own description, path and address, in order; lists of
    different length are refused; a family without runs has one row in which everything is missing. *)
Definition RowFor (a : family) (w : frow) : Prop :=
  w_family w = a_name a /\ w_version w = a_version a
  /\ ((exists k, nth_error (a_runs a) k = w_run w /\ nth_error (a_briefs a) k = w_brief w /\ nth_error (a_paths a) k = w_path w /\ nth_error (a_urls a) k = Some (w_url w) /\ w_run w <> None)
      \/ a_runs a = [] /\ w_run w = None /\ w_brief w = None /\ w_path w = None /\ w_url w = None).
Theorem C337_families : forall l,
  ((exists rows, family_runs l = Ok rows)
   <-> forall a, In a l -> length (a_briefs a) = length (a_runs a) /\ length (a_paths a) = length (a_runs a) /\ length (a_urls a) = length (a_runs a))
  /\ (forall e, family_runs l = Err e -> e = ValueError)
  /\ forall rows, family_runs l = Ok rows -> forall w, In w rows <-> exists a, In a l /\ RowFor a w.
Proof.
  assert (G : forall a, match explode1 a with
     | Ok rows => (length (a_briefs a) = length (a_runs a) /\ length (a_paths a) = length (a_runs a) /\ length (a_urls a) = length (a_runs a))
                  /\ forall w, In w rows <-> RowFor a w
     | Err e => e = ValueError /\ ~ (length (a_briefs a) = length (a_runs a) /\ length (a_paths a) = length (a_runs a) /\ length (a_urls a) = length (a_runs a)) end).
  { intros a. unfold explode1.
    destruct (Nat.eqb_spec (length (a_briefs a)) (length (a_runs a))) as [E1|E1]; cbn [andb]; [|split; [reflexivity|tauto]].
    destruct (Nat.eqb_spec (length (a_paths a)) (length (a_runs a))) as [E2|E2]; cbn [andb]; [|split; [reflexivity|tauto]].
    destruct (Nat.eqb_spec (length (a_urls a)) (length (a_runs a))) as [E3|E3]; [|split; [reflexivity|tauto]].
    split; [auto|]. intros w. destruct (a_runs a) as [|r0 rs] eqn:R.
    - unfold RowFor. rewrite R. split.
      + intros [<-|[]]. cbn. split; [reflexivity|]. split; [reflexivity|]. right. auto.
      + intros [F [V [[k [A [_ [_ [_ N]]]]]|[_ [A [B [C D]]]]]]]; [destruct k; cbn in A; congruence|]. left. destruct w; cbn in *. congruence.
    - rewrite <- R in *. rewrite in_map_iff. split.
      + intros [q [<- I]]. apply In_nth_error in I. destruct I as [k K].
        apply nth_combine in K. destruct K as [K D]. apply nth_combine in K. destruct K as [K C]. apply nth_combine in K. destruct K as [A B].
        split; [reflexivity|]. split; [reflexivity|]. left. exists k. cbn. repeat split; auto. discriminate.
      + intros [F [V [[k [A [B [C [D N]]]]]|[A _]]]]; [|congruence].
        destruct (w_run w) as [r|] eqn:Wr; [|congruence].
        assert (Lk : (k < length (a_runs a))%nat) by (apply nth_error_Some; congruence).
        destruct (w_brief w) as [b|] eqn:Wb; [|apply nth_error_None in B; lia].
        destruct (w_path w) as [p|] eqn:Wp; [|apply nth_error_None in C; lia].
        exists (r, b, p, w_url w). split; [destruct w; cbn in *; congruence|]. apply (nth_error_In _ k).
        apply nth_combine. split; [|exact D]. apply nth_combine. split; [|exact C]. apply nth_combine. split; assumption. }
  induction l as [|a t IH]; cbn [family_runs].
  - split; [split; [intros _ a []|eauto]|]. split; [discriminate|]. intros rows H. injection H as <-. intros w. split; [intros []|intros [a [[] _]]].
  - specialize (G a). destruct (explode1 a) as [ra|ea]; cbn [bind].
    + destruct G as [G1 G2]. destruct IH as [IH1 [IH2 IH3]]. destruct (family_runs t) as [rt|et]; cbn [bind].
      * split; [split; [|eauto]|].
        { intros _ b [<-|I]; [exact G1|]. apply (proj1 IH1); eauto. }
        split; [discriminate|]. intros rows H. injection H as <-. intros w. rewrite in_app_iff, G2, (IH3 rt eq_refl). split.
        -- intros [H|[b [I H]]]; [exists a; cbn; auto|exists b; cbn; auto].
        -- intros [b [[<-|I] H]]; [left; exact H|right; eauto].
      * split; [split; [intros [rows H]; discriminate|]|split; [intros e H; injection H as <-; apply (IH2 et); reflexivity|discriminate]].
        intros H. destruct (proj2 IH1) as [rows E]; [intros b I; apply H; right; exact I|discriminate].
    + destruct G as [-> G]. split; [split; [intros [rows H]; discriminate|]|split; [congruence|discriminate]].
      intros H. elim G. apply H. left. reflexivity.
Qed.
Print Assumptions C337_families.

Lemma rkey_eqb_eq : forall a b, rkey_eqb a b = true <-> a = b.
Proof.
  intros [[[a1 a2] a3] a4] [[[b1 b2] b3] b4]. unfold rkey_eqb. rewrite !andb_true_iff, !String.eqb_eq. split; [intros [[[-> ->] ->] ->]; reflexivity|].
  intros H. injection H. auto.
Qed.
Lemma keys_in : forall rows k, In k (keys_of rows) <-> exists w, In w rows /\ key_of w = Some k.
Proof.
  intros rows k. unfold keys_of. rewrite in_flat_map. split.
  - intros [w [I J]]. exists w. split; [exact I|]. destruct (key_of w); [destruct J as [->|[]]; reflexivity|contradiction].
  - intros [w [I J]]. exists w. split; [exact I|]. rewrite J. left. reflexivity.
Qed.
Definition Entry (w : frow) (u : rrow) : Prop := w_run w = Some (u_run u) /\ w_brief w = Some (u_brief u) /\ w_path w = Some (u_path u) /\ w_url w = Some (u_url u).
Lemma key_entry : forall w r b p u, key_of w = Some (r, b, p, u) <-> w_run w = Some r /\ w_brief w = Some b /\ w_path w = Some p /\ w_url w = Some u.
Proof.
  intros w r b p u. unfold key_of. destruct (w_run w), (w_brief w), (w_path w), (w_url w); split; try (intros H; discriminate);
    try (intros [A [B [C D]]]; discriminate); [intros H; injection H; intros; subst; auto|intros [A [B [C D]]]; congruence].
Qed.
(** C337: by run.  Each combination of run, description, path and address of the rows by family -- when none of the four is missing --
    has exactly one row, whose families and versions are those of the rows with that combination, in order. *)
Theorem C337_runs : forall rows,
  NoDup (map (fun u => (u_run u, u_brief u, u_path u, u_url u)) (get_runs rows))
  /\ (forall w, In w rows -> w_run w <> None -> w_brief w <> None -> w_path w <> None -> w_url w <> None -> exists u, In u (get_runs rows) /\ Entry w u)
  /\ (forall u, In u (get_runs rows) -> exists ws, Sub (fun w => Entry w u) rows ws /\ ws <> [] /\ u_families u = map w_family ws /\ u_versions u = map w_version ws).
Proof.
  intros rows. unfold get_runs. split; [|split].
  - rewrite map_map. rewrite (map_ext _ (fun k => k)); [rewrite map_id; apply NoDup_nodup|]. intros [[[r b] p] u]. reflexivity.
  - intros w I A B C D. destruct (w_run w) as [r|] eqn:E1; [|congruence]. destruct (w_brief w) as [b|] eqn:E2; [|congruence].
    destruct (w_path w) as [p|] eqn:E3; [|congruence]. destruct (w_url w) as [u|] eqn:E4; [|congruence].
    eexists. split.
    + apply in_map with (x := (r, b, p, u)). apply nodup_In. apply keys_in. exists w. split; [exact I|]. apply key_entry. auto.
    + unfold Entry. cbn. auto.
  - intros u I. apply in_map_iff in I. destruct I as [[[[r b] p] a] [<- I]]. apply nodup_In in I. apply keys_in in I. destruct I as [w [I K]].
    cbn [u_families u_versions]. exists (filter (fun w => match key_of w with Some k' => rkey_eqb k' (r, b, p, a) | None => false end) rows).
    split; [|split; [|auto]].
    + apply filter_sub. intros w'. unfold Entry. cbn. rewrite <- key_entry. destruct (key_of w') as [k|]; [|split; discriminate].
      rewrite rkey_eqb_eq. split; [intros ->; reflexivity|intros H; injection H as ->; reflexivity].
    + intros E. assert (In w []) as []. rewrite <- E. apply filter_In. split; [exact I|]. rewrite K. apply rkey_eqb_eq. reflexivity.
Qed.
Print Assumptions C337_runs.

(** C337: if description, path and address of a run are the same in all its families, a run has one row, with all its families. *)
Theorem C337_once_partial : forall rows u, In u (get_runs rows) ->
  (forall w w', In w rows -> In w' rows -> w_run w = w_run w' -> w_run w <> None -> w_brief w = w_brief w' /\ w_path w = w_path w' /\ w_url w = w_url w') ->
  (forall u', In u' (get_runs rows) -> u_run u' = u_run u -> u' = u)
  /\ exists ws, Sub (fun w => w_run w = Some (u_run u)) rows ws /\ u_families u = map w_family ws.
Proof.
  intros rows u I H. destruct (C337_runs rows) as [N [_ V]].
  destruct (V u I) as [ws [S1 [NE [F _]]]].
  assert (X : exists w, In w rows /\ Entry w u).
  { clear - S1 NE. induction S1 as [|w t s P S1 IH|w t s P S1 IH]; [congruence|exists w; split; [left; reflexivity|exact P]|].
    destruct (IH NE) as [w' [A B]]. exists w'. split; [right; exact A|exact B]. }
  destruct X as [w [Iw [E1 [E2 [E3 E4]]]]]. split.
  - intros u' I' E. destruct (V u' I') as [ws' [S1' [NE' _]]].
    assert (X' : exists w', In w' rows /\ Entry w' u').
    { clear - S1' NE'. induction S1' as [|w t s P S1 IH|w t s P S1 IH]; [congruence|exists w; split; [left; reflexivity|exact P]|].
      destruct (IH NE') as [w' [A B]]. exists w'. split; [right; exact A|exact B]. }
    destruct X' as [w' [Iw' [E1' [E2' [E3' E4']]]]].
    destruct (H w w' Iw Iw') as [Q1 [Q2 Q3]]; [congruence|congruence|].
    assert (K : (u_run u', u_brief u', u_path u', u_url u') = (u_run u, u_brief u, u_path u, u_url u)) by congruence.
    clear - N I I' K. induction (get_runs rows) as [|x t IH]; [contradiction|]. cbn in N. inversion N as [|a b N1 N2]; subst.
    destruct I as [<-|I], I' as [<-|I'].
    + reflexivity.
    + exfalso. apply N1. rewrite <- K. apply (in_map (fun u => (u_run u, u_brief u, u_path u, u_url u)) _ _ I').
    + exfalso. apply N1. rewrite K. apply (in_map (fun u => (u_run u, u_brief u, u_path u, u_url u)) _ _ I).
    + apply IH; assumption.
  - exists ws. split; [|exact F].
    assert (Q : forall w', In w' rows -> (Entry w' u <-> w_run w' = Some (u_run u))).
    { intros w' I'. split; [intros [A _]; exact A|]. intros A. destruct (H w w' Iw I') as [Q1 [Q2 Q3]]; [congruence|congruence|].
      repeat split; congruence. }
    clear - S1 Q. induction S1 as [|x t s P S1 IH|x t s P S1 IH]; constructor; try (apply IH; intros; apply Q; right; assumption).
    + apply (proj1 (Q x (or_introl eq_refl))). exact P.
    + intros A. apply P. apply (proj2 (Q x (or_introl eq_refl))). exact A.
Qed.
Print Assumptions C337_once_partial.

Definition w_ex (f b : string) (u : option string) : frow :=
  {| w_family := f; w_version := "3"; w_run := Some "r"%string; w_brief := Some b; w_path := Some "r.db"%string; w_url := u |}.
(** C337: otherwise not: a run described differently in two families has two rows (and each description stands alone, not in a list). *)
Theorem C337_once_refuted : ~ (forall rows u u', In u (get_runs rows) -> In u' (get_runs rows) -> u_run u = u_run u' -> u = u').
Proof.
  intros H.
  specialize (H [w_ex "f1" "one" (Some "u"%string); w_ex "f2" "two" (Some "u"%string)]
    {| u_run := "r"; u_families := ["f1"%string]; u_versions := ["3"%string]; u_brief := "one"; u_path := "r.db"; u_url := "u" |}
    {| u_run := "r"; u_families := ["f2"%string]; u_versions := ["3"%string]; u_brief := "two"; u_path := "r.db"; u_url := "u" |}).
  assert (E : u_brief {| u_run := "r"; u_families := ["f1"%string]; u_versions := ["3"%string]; u_brief := "one"; u_path := "r.db"; u_url := "u" |} = "two"%string).
  { rewrite H; [reflexivity|vm_compute; auto|vm_compute; auto|reflexivity]. }
  discriminate.
Qed.
Print Assumptions C337_once_refuted.
(** C337: a run without an address is not in the table by run at all. *)
Theorem C337_lost_refuted : ~ (forall rows w r, In w rows -> w_run w = Some r -> exists u, In u (get_runs rows) /\ u_run u = r).
Proof.
  intros H. destruct (H [w_ex "f1" "one" None] (w_ex "f1" "one" None) "r"%string (or_introl eq_refl) eq_refl) as [u [I _]]. exact I.
Qed.
Print Assumptions C337_lost_refuted.
Example C337_case : exists rows, family_runs [{| a_name := "f1"; a_version := "3"; a_runs := ["r"%string]; a_briefs := ["one"%string]; a_paths := ["r.db"%string]; a_urls := [Some "u"%string] |};
    {| a_name := "f2"; a_version := "3"; a_runs := ["r"; "q"]%string; a_briefs := ["one"; "x"]%string; a_paths := ["r.db"; "q.db"]%string; a_urls := [Some "u"%string; None] |}] = Ok rows
  /\ map u_families (get_runs rows) = [["f1"; "f2"]%string].
Proof. eexists. split; [reflexivity|]. reflexivity. Qed.

(** * C339: downloading *)
(** the path of a run *)
Definition PathOf (dest path full : string) : Prop := full = path /\ (exists rest, path = String "/" rest) \/ full = (dest ++ "/" ++ path)%string /\ ~ (exists rest, path = String "/" rest).
Lemma join_path : forall dest path, PathOf dest path (join dest path).
Proof.
  intros dest path. unfold join, PathOf. destruct path as [|a t]; cbn [prefix].
  - right. split; [reflexivity|]. intros [r R]. discriminate.
  - destruct (ascii_dec "/" a) as [E|E]; [replace (prefix "" t) with true by (destruct t; reflexivity); left|right]; (split; [reflexivity|]).
    + exists t. congruence.
    + intros [r R]. injection R. congruence.
Qed.
Lemma path_fun : forall d p x y, PathOf d p x -> PathOf d p y -> x = y.
Proof. unfold PathOf. intros d p x y [[-> A]|[-> A]] [[-> B]|[-> B]]; tauto. Qed.

Section Download.
Variables (fetch : string -> string) (dirs : list string) (dest : string) (clobber : bool).
(** the runs written to a path *)
Definition Writes (runs : list (string * string * string)) (p : string) (urls : list string) : Prop :=
  exists ws, Sub (fun q => PathOf dest (snd (fst q)) p) runs ws /\ urls = map snd ws.
Lemma loop_spec : forall runs d names d' names', download_loop fetch dest clobber runs d names = (d', names') ->
  forall p urls, Writes runs p urls ->
    dget String.eqb d' p = match dget String.eqb d p, urls with
                           | c, [] => c
                           | Some c, _ => if clobber then Some (fetch (last urls EmptyString)) else Some c
                           | None, u :: _ => if clobber then Some (fetch (last urls EmptyString)) else Some (fetch u)
                           end.
Proof.
  induction runs as [|[[name path] url] t IH]; intros d names d' names' H p urls [ws [S1 ->]]; cbn [download_loop] in H.
  - inversion S1; subst. cbn. injection H as <- <-. destruct (dget String.eqb d p); reflexivity.
  - pose proof (join_path dest path) as J.
    inversion S1 as [|x t' s P S2 E1 E2|x t' s P S2 E1 E2]; subst.
    + cbn [fst snd] in P. assert (join dest path = p) as JP by (eapply path_fun; [exact J|exact P]).
      assert (W : Writes t p (map snd s)) by (exists s; auto). cbn [map snd].
      rewrite JP in H. destruct clobber eqn:C; cbn [orb] in H.
      * rewrite (IH _ _ _ _ H p _ W). rewrite dget_dset_same. destruct (map snd s) as [|u us]; destruct (dget String.eqb d p); reflexivity.
      * destruct (dget String.eqb d p) as [c|] eqn:D.
        -- rewrite (IH _ _ _ _ H p _ W). rewrite D. destruct (map snd s); reflexivity.
        -- rewrite (IH _ _ _ _ H p _ W). rewrite dget_dset_same. destruct (map snd s); reflexivity.
    + cbn [fst snd] in P. assert (p <> join dest path) as JP by (intros ->; contradiction).
      assert (W : Writes t p (map snd ws)) by (exists ws; auto).
      match type of H with (if ?c then _ else _) = _ => destruct c end; rewrite (IH _ _ _ _ H p _ W); [rewrite dget_dset_other by exact JP|]; reflexivity.
Qed.
Lemma loop_names : forall runs d names d' names', download_loop fetch dest clobber runs d names = (d', names') ->
  forall n, dget String.eqb names' n = match filter (fun q => String.eqb (fst (fst q)) n) runs with [] => dget String.eqb names n
                                       | l => Some (join dest (snd (fst (last l (EmptyString, EmptyString, EmptyString))))) end.
Proof.
  induction runs as [|[[name path] url] t IH]; intros d names d' names' H n; cbn [download_loop] in H; [injection H as <- <-; reflexivity|].
  assert (E : dget String.eqb names' n = match filter (fun q => String.eqb (fst (fst q)) n) t with [] => dget String.eqb (dset String.eqb names name (join dest path)) n
                                       | l => Some (join dest (snd (fst (last l (EmptyString, EmptyString, EmptyString))))) end).
  { match type of H with (if ?c then _ else _) = _ => destruct c end; apply (IH _ _ _ _ H). }
  rewrite E. cbn [filter fst]. destruct (String.eqb_spec name n) as [->|N].
  - destruct (filter _ t) as [|q l]; [rewrite dget_dset_same; reflexivity|reflexivity].
  - rewrite dget_dset_other by congruence. reflexivity.
Qed.
(** C339: downloading fails exactly when the directory is not there, and then does nothing.  A file that no run is written to is not
    touched.  Without clobber a file that exists is not touched and a new one holds the data of the first run with that path; with
    clobber it holds the data of the last.  The names returned are the paths of the runs. *)
Theorem C339_files : forall runs d,
  (~ In dest dirs -> download_runs fetch dirs dest clobber runs d = Err OSError)
  /\ (In dest dirs -> exists d' names, download_runs fetch dirs dest clobber runs d = Ok (d', names)
      /\ (forall p, Writes runs p [] -> dget String.eqb d' p = dget String.eqb d p)
      /\ (forall p u us, Writes runs p (u :: us) ->
            (clobber = false -> forall c, dget String.eqb d p = Some c -> dget String.eqb d' p = Some c)
            /\ (clobber = false -> dget String.eqb d p = None -> dget String.eqb d' p = Some (fetch u))
            /\ (clobber = true -> dget String.eqb d' p = Some (fetch (last us u))))
      /\ (forall pre name path url post, runs = pre ++ (name, path, url) :: post -> (forall q, In q post -> fst (fst q) <> name) ->
            exists p, PathOf dest path p /\ dget String.eqb names name = Some p)).
Proof.
  intros runs d. unfold download_runs. split.
  - intros N. rewrite (proj2 (mem_not dest dirs) N). reflexivity.
  - intros I. rewrite (proj2 (mem_in dest dirs) I). destruct (download_loop fetch dest clobber runs d []) as [d' names] eqn:H.
    exists d', names. split; [reflexivity|]. pose proof (loop_spec _ _ _ _ _ H) as L. split; [|split].
    + intros p W. rewrite (L p [] W). destruct (dget String.eqb d p); reflexivity.
    + intros p u us W. pose proof (L p _ W) as E. split; [|split].
      * intros C c D. rewrite E, D, C. reflexivity.
      * intros C D. rewrite E, D, C. reflexivity.
      * intros C. rewrite E, C. replace (last (u :: us) EmptyString) with (last us u); [destruct (dget String.eqb d p); reflexivity|].
        clear. enough (Q : forall l (x y : string), l <> [] -> last l x = last l y) by (destruct us as [|v t]; [reflexivity|apply (Q (v :: t)); discriminate]).
        induction l as [|v t IH]; intros x y N; [congruence|]. destruct t as [|w t]; [reflexivity|]. apply (IH x y). discriminate.
    + intros pre name path url post E N. exists (join dest path). split; [apply join_path|].
      rewrite (loop_names _ _ _ _ _ H name). subst runs.
      assert (F : filter (fun q => String.eqb (fst (fst q)) name) (pre ++ (name, path, url) :: post) = filter (fun q => String.eqb (fst (fst q)) name) pre ++ [(name, path, url)]).
      { rewrite filter_app. cbn [filter fst]. rewrite String.eqb_refl. f_equal. f_equal.
        clear - N. induction post as [|q t IH]; [reflexivity|]. cbn [filter]. destruct (String.eqb_spec (fst (fst q)) name) as [E|E]; [elim (N q (or_introl eq_refl)); exact E|].
        apply IH. intros q' I. apply N. right. exact I. }
      rewrite F. destruct (filter _ pre ++ [(name, path, url)]) as [|q l] eqn:G; [destruct (filter _ pre); discriminate|]. rewrite <- G. rewrite last_last. reflexivity.
Qed.
End Download.
Print Assumptions C339_files.
(** C339: downloading again without clobber changes nothing. *)
Theorem C339_again : forall fetch fetch' dirs dest runs d d' names, download_runs fetch dirs dest false runs d = Ok (d', names) ->
  exists names', download_runs fetch' dirs dest false runs d' = Ok (d', names').
Proof.
  intros fetch fetch' dirs dest runs d d' names H. unfold download_runs in *. destruct (mem dest dirs); [|discriminate]. injection H as H.
  enough (G : forall l dd nn, (forall q, In q l -> dget String.eqb dd (join dest (snd (fst q))) <> None) -> exists nn', download_loop fetch' dest false l dd nn = (dd, nn')).
  { destruct (G runs d' []) as [n' E]; [|exists n'; rewrite E; reflexivity].
    enough (K : forall l dd nn d1 n1, download_loop fetch dest false l dd nn = (d1, n1) ->
       (forall p, dget String.eqb dd p <> None -> dget String.eqb d1 p <> None) /\ (forall q, In q l -> dget String.eqb d1 (join dest (snd (fst q))) <> None)).
    { apply (K runs d [] d' names). exact H. }
    clear. induction l as [|[[n p] u] t IH]; intros dd nn d1 n1 H; cbn [download_loop orb] in H; [injection H as <- <-; split; [auto|intros q []]|].
    destruct (dget String.eqb dd (join dest p)) as [c|] eqn:D.
    - destruct (IH _ _ _ _ H) as [A B]. split; [exact A|]. intros q [<-|I]; [apply A; cbn; congruence|apply B; exact I].
    - destruct (IH _ _ _ _ H) as [A B]. split.
      + intros x X. apply A. destruct (string_dec x (join dest p)) as [->|E]; [rewrite dget_dset_same; discriminate|rewrite dget_dset_other by exact E; exact X].
      + intros q [<-|I]; [apply A; cbn; rewrite dget_dset_same; discriminate|apply B; exact I]. }
  clear. induction l as [|[[n p] u] t IH]; intros dd nn H; cbn [download_loop orb]; [eauto|].
  pose proof (H _ (or_introl eq_refl)) as N. cbn in N. destruct (dget String.eqb dd (join dest p)) as [c|]; [|congruence].
  apply IH. intros q I. apply H. right. exact I.
Qed.
Print Assumptions C339_again.
Example C339_case : Writes "d" [("a", "x.db", "u1"); ("b", "/y.db", "u2"); ("c", "x.db", "u3")]%string "d/x.db" ["u1"; "u3"]%string.
Proof.
  exists [("a", "x.db", "u1"); ("c", "x.db", "u3")]%string. split; [|reflexivity].
  apply Sub_in; [right; split; [reflexivity|intros [r R]; discriminate]|]. apply Sub_out; [intros [[A B]|[A B]]; discriminate|].
  apply Sub_in; [right; split; [reflexivity|intros [r R]; discriminate]|]. constructor.
Qed.

(** * C340: the lines between families *)
(** the number of runs in the first [k] + 1 families *)
Inductive Total (count : string -> nat -> Prop) : list string -> nat -> Prop :=
| Tot_nil : Total count [] 0
| Tot_cons : forall f n t s, count f n -> Total count t s -> Total count (f :: t) (n + s).
Lemma cumsum_spec : forall (count : string -> nat -> Prop) names ns, Forall2 count names ns ->
  forall acc, length (cumsum acc ns) = length names
  /\ forall k, (k < length names)%nat -> exists s, Total count (firstn (S k) names) s /\ nth_error (cumsum acc ns) k = Some (acc + s)%nat.
Proof.
  intros count names ns F. induction F as [|f n t p A F IH]; intros acc; [split; [reflexivity|cbn; lia]|].
  destruct (IH (acc + n)%nat) as [L K]. split; [cbn; rewrite L; reflexivity|]. intros [|k] H.
  - exists (n + 0)%nat. split; [cbn; repeat constructor; exact A|cbn; f_equal; lia].
  - destruct (K k) as [s [T E]]; [cbn in H; lia|]. exists (n + s)%nat. split; [cbn [firstn]; constructor; [exact A|exact T]|].
    cbn [cumsum nth_error]. rewrite E. f_equal. lia.
Qed.
Lemma map_ok_spec : forall {A B} (g : A -> result B) l ys, map_ok g l = Ok ys -> Forall2 (fun x y => g x = Ok y) l ys.
Proof.
  induction l as [|x t IH]; intros ys H; cbn in H; [injection H as <-; constructor|]. destruct (g x) as [y|] eqn:E; [|discriminate]. cbn [bind] in H.
  destruct (map_ok g t) as [r|]; [|discriminate]. cbn in H. injection H as <-. constructor; [exact E|apply IH; reflexivity].
Qed.
Lemma F2_impl : forall {A B} (P Q : A -> B -> Prop) l l', Forall2 P l l' -> (forall x y, In x l -> P x y -> Q x y) -> Forall2 Q l l'.
Proof. intros A B P Q l l' F. induction F as [|x y t t' P1 F IH]; intros H; constructor; [apply H; [left; reflexivity|assumption]|apply IH; intros; apply H; [right|]; assumption]. Qed.
(** C340: from the descriptions of the families the lines are the running totals of their numbers of runs ... *)
Theorem C340_lines : forall fams names lines, find_family_lines_desc fams names = Ok lines ->
  length lines = length names
  /\ forall k, (k < length names)%nat -> exists s, Total (fun f n => exists rs, dget String.eqb fams f = Some rs /\ n = length rs) (firstn (S k) names) s /\ nth_error lines k = Some s.
Proof.
  intros fams names lines H. unfold find_family_lines_desc in H. destruct (map_ok _ names) as [ns|] eqn:E; [|discriminate]. cbn in H. injection H as <-.
  apply map_ok_spec in E. apply (cumsum_spec (fun f n => exists rs, dget String.eqb fams f = Some rs /\ n = length rs) names ns).
  eapply F2_impl; [exact E|]. intros f n _ Q. cbv beta in Q. destruct (dget String.eqb fams f) as [rs|]; [|discriminate]. injection Q as <-. eauto.
Qed.
Print Assumptions C340_lines.
(** ... from the table by family too, if each of the families has two runs or more ... *)
Theorem C340_table_partial : forall rows names lines, find_family_lines rows names = Ok lines ->
  (forall f, In f names -> (2 <= length (filter (fun p => String.eqb (fst p) f) rows))%nat) ->
  length lines = length names
  /\ forall k, (k < length names)%nat -> exists s, Total (fun f n => exists ws, Sub (fun p => fst p = f) rows ws /\ n = length ws) (firstn (S k) names) s /\ nth_error lines k = Some s.
Proof.
  intros rows names lines H T. unfold find_family_lines in H. destruct (map_ok _ names) as [ns|] eqn:E; [|discriminate]. cbn in H. injection H as <-.
  apply map_ok_spec in E. apply (cumsum_spec (fun f n => exists ws, Sub (fun p => fst p = f) rows ws /\ n = length ws) names ns).
  eapply F2_impl; [exact E|]. intros f n I Q. cbv beta in Q. unfold family_len in Q. specialize (T f I).
  exists (filter (fun p => String.eqb (fst p) f) rows). split; [apply filter_sub; intros x; apply String.eqb_eq|].
  destruct (filter _ rows) as [|a [|b l]]; cbn in T; [lia|lia|]. injection Q as <-. reflexivity.
Qed.
Print Assumptions C340_table_partial.
(** ... but a family of a single run counts for as many lines as its name has characters. *)
Theorem C340_single_refuted : ~ (forall rows f lines, find_family_lines rows [f] = Ok lines -> exists ws, Sub (fun p => fst p = f) rows ws /\ lines = [length ws]).
Proof.
  intros H. destruct (H [("f", "baseline")]%string "f"%string [8%nat] eq_refl) as [ws [S1 E]]. injection E as E.
  inversion S1 as [|x t s P S2|x t s P S2]; subst; inversion S2; subst; cbn in E; lia.
Qed.
Print Assumptions C340_single_refuted.
Example C340_case : find_family_lines [("f", "a"); ("f", "b"); ("g", "c"); ("g", "d"); ("g", "e")]%string ["f"; "g"]%string = Ok [2; 5]%nat.
Proof. reflexivity. Qed.
