(** Properties C223 and C224: reading orbits from a file. *)
From Coq Require Import Reals Lra Lia.
From Verif Require Import Base Orbits_Model Orbits_Spec Orbits_Proofs Orbits_Proofs2 Orbits_Proofs3 Orbits_Props Orbits_Props2.
From Verif Require Import OrbitsIO_Model OrbitsIO_Spec OrbitsIO_Proofs OrbitsIO_Proofs2.
Open Scope R_scope.

(** * C223: header and data lines *)
(** Statement: the last line before the first line of data is the header, whatever lines precede it; its names (without a leading #, !!
    or ##) are used, all later lines that are not blank are data. *)
Theorem C223_header : forall is_float comments header names data, header_of header names ->
  (forall l, In l (comments ++ [header]) -> ~ data_line is_float l) ->
  (exists d rest, data = d :: rest /\ data_line is_float d) -> (forall l, In l data -> l = [] \/ length l = length names) ->
  exists rows_, read_table is_float (comments ++ [header] ++ data) (comments ++ [header] ++ data) = Ok (names, rows_) /\
  rows_ = filter (fun l => match l with [] => false | _ => true end) data.
Proof.
  intros is_float comments header names data H N [d [rest [-> D]]] L. eexists. split; [apply with_header; assumption|].
  apply filter_ext. intros [|w l]; reflexivity.
Qed.
Print Assumptions C223_header.
(** Statement: a file without a header is in the DES layout named by its second word; no line is lost. *)
Theorem C223_no_header : forall is_float d data, data_line is_float d -> (forall l, In l (d :: data) -> l = [] \/ length l = 14%nat) ->
  exists names rows_, des_layout (nth 1 d ""%string) names /\ read_table is_float (d :: data) (d :: data) = Ok (names, rows_) /\
  rows_ = filter (fun l => match l with [] => false | _ => true end) (d :: data).
Proof.
  intros is_float d data D L. destruct (no_header is_float d data D L) as [names [A B]]. exists names. eexists. split; [exact A|]. split; [exact B|].
  apply filter_ext. intros [|w l]; reflexivity.
Qed.
Print Assumptions C223_no_header.
(** Statement: blank lines do not matter.  A blank line between header and data is taken for the header: IndexError, whatever follows *)
Theorem C223_blank_refuted : ~ (forall is_float header names data, header_of header names -> ~ data_line is_float header ->
  (exists d rest, data = d :: rest /\ data_line is_float d) -> (forall l, In l data -> length l = length names) ->
  read_table is_float ([header] ++ [[]] ++ data) ([header] ++ [[]] ++ data) = read_table is_float ([header] ++ data) ([header] ++ data)).
Proof.
  intros C. set (fl := fun w => String.eqb w "1"%string).
  specialize (C fl ["a"; "b"; "c"; "d"]%string ["a"; "b"; "c"; "d"]%string [["1"; "1"; "1"; "1"]%string]).
  assert (H : Err IndexError = Ok (["a"; "b"; "c"; "d"]%string, [["1"; "1"; "1"; "1"]%string])); [|discriminate]. apply C.
  - constructor. repeat split; discriminate.
  - intros [w [E F]]. cbn in E. injection E as <-. discriminate.
  - exists ["1"; "1"; "1"; "1"]%string, []. split; [reflexivity|]. exists "1"%string. split; reflexivity.
  - intros l [<-|[]]. reflexivity.
Qed.
Print Assumptions C223_blank_refuted.
Theorem C223_blank_error : forall is_float comments data, (forall l, In l comments -> ~ data_line is_float l) ->
  (exists d rest, data = d :: rest /\ data_line is_float d) ->
  read_table is_float (comments ++ [[]] ++ data) (comments ++ [[]] ++ data) = Err IndexError.
Proof.
  intros is_float comments data N [d [rest [-> D]]]. unfold read_table. rewrite scan_pre; [reflexivity| |exact D].
  intros l I. apply in_app_iff in I. destruct I as [I|[<-|[]]]; [exact (N l I)|]. intros [w [E _]]. discriminate.
Qed.
Print Assumptions C223_blank_error.
(** Statement: delim names the delimiter of the file.  The search for the header splits at white space all the same: without white space
    every line is one word, no line is a line of data, and none is left to read *)
Theorem C223_delim_refuted : forall is_float lines fields, (forall l, In l lines -> length l = 1%nat) -> length fields = length lines ->
  exists e, read_table is_float lines fields = Err e.
Proof.
  intros is_float lines fields H L. destruct lines as [|l0 ls] eqn:EL.
  - destruct fields; [|discriminate]. eexists. reflexivity.
  - assert (NE : lines <> []) by (rewrite EL; discriminate). rewrite <- EL in *. clear EL l0 ls. destruct (exists_last NE) as [pre [hd E]]. subst lines.
    assert (ND : forall l, In l (pre ++ [hd]) -> ~ data_line is_float l).
    { intros l I [w [X _]]. specialize (H l I). destruct l as [|a [|b l]]; discriminate. }
    unfold read_table. assert (S := scan_pre is_float pre hd [] (-1) None ND I). cbn [app] in S. rewrite S.
    destruct hd as [|w [|w' r]]; [|destruct (String.eqb w "#" || String.eqb w "!!" || String.eqb w "##")%bool eqn:B|].
    + eexists. reflexivity.
    + cbn [header_names bind]. rewrite B. cbn [fst snd]. unfold read_csv. rewrite skipn_all2 by (rewrite app_length in L; cbn in L; lia). eexists. reflexivity.
    + cbn [header_names bind]. rewrite B. cbn [fst snd]. unfold read_csv. rewrite skipn_all2 by (rewrite app_length in L; cbn in L; lia). eexists. reflexivity.
    + specialize (H (w :: w' :: r)). rewrite in_app_iff in H. cbn in H. specialize (H (or_intror (or_introl eq_refl))). discriminate.
Qed.
Print Assumptions C223_delim_refuted.
Definition one_is_number : string -> bool := fun w => String.eqb w "1"%string.
Example C223_case : header_of ["#"; "obj_id"; "q"; "e"; "i"]%string ["obj_id"; "q"; "e"; "i"]%string /\
  data_line one_is_number ["x"; "1"; "1"; "1"]%string /\ ~ data_line one_is_number ["#"; "obj_id"; "q"; "e"; "i"]%string /\
  read_table one_is_number [["!!comment"]; ["#"; "obj_id"; "q"; "e"; "i"]; ["x"; "1"; "1"; "1"]; []; ["y"; "1"; "1"; "1"]]%string
    [["!!comment"]; ["#"; "obj_id"; "q"; "e"; "i"]; ["x"; "1"; "1"; "1"]; []; ["y"; "1"; "1"; "1"]]%string =
  Ok (["obj_id"; "q"; "e"; "i"]%string, [["x"; "1"; "1"; "1"]; ["y"; "1"; "1"; "1"]]%string).
Proof.
  split; [constructor; auto|]. split; [exists "1"%string; split; reflexivity|]. split; [|reflexivity].
  intros [w [E F]]. cbn in E. injection E as <-. discriminate.
Qed.

(** * C224: standard names *)
(** the names that the missing comma of the table loses *)
Definition lost (c : string) : Prop := (c = "S3MID" \/ c = "objid(int)" \/ c = "S3MIDobjid(int)")%string.
Lemma doc_alt : forall c s, In (c, s) documented -> ~ lost c -> exists p, In p alt_names /\ In c (snd p) /\ fst p = s.
Proof.
  intros c s I NL. assert (G : forallb (fun q => mem (fst q) ["S3MID"; "objid(int)"; "S3MIDobjid(int)"]%string ||
    existsb (fun p => mem (fst q) (snd p) && String.eqb (fst p) (snd q)) alt_names) documented = true) by (vm_compute; reflexivity).
  rewrite forallb_forall in G. specialize (G _ I). cbn [fst snd] in G. apply orb_prop in G. destruct G as [G|G].
  - destruct NL. apply mem_in in G. unfold lost. clear - G. destruct G as [<-|[<-|[<-|[]]]]; tauto.
  - apply existsb_exists in G. destruct G as [p [J G]]. apply andb_prop in G. destruct G as [A B]. exists p. split; [exact J|]. split; [apply mem_in; exact A|]. apply String.eqb_eq; exact B.
Qed.
Lemma alt_doc : forall c p, In p alt_names -> In c (snd p) -> ~ lost c -> In (c, fst p) documented.
Proof.
  intros c p I J NL. assert (G : forallb (fun p => forallb (fun c => mem c ["S3MID"; "objid(int)"; "S3MIDobjid(int)"]%string ||
    existsb (fun q => String.eqb (fst q) c && String.eqb (snd q) (fst p)) documented) (snd p)) alt_names = true) by (vm_compute; reflexivity).
  rewrite forallb_forall in G. specialize (G _ I). cbn beta in G. rewrite forallb_forall in G. specialize (G _ J). apply orb_prop in G. destruct G as [G|G].
  - destruct NL. apply mem_in in G. unfold lost. clear - G. destruct G as [<-|[<-|[<-|[]]]]; tauto.
  - apply existsb_exists in G. destruct G as [q [K G]]. apply andb_prop in G. destruct G as [A B]. apply String.eqb_eq in A. apply String.eqb_eq in B. subst c. rewrite <- B. destruct q; exact K.
Qed.
(** Statement: every documented alternative name of a column becomes the standard name, other columns keep theirs, the order stays.  True
    but for S3MID and objid(int). *)
Theorem C224_names_partial : forall cols, NoDup cols -> (forall c, In c cols -> ~ lost c) ->
  (forall c d s, In c cols -> In d cols -> In (c, s) documented -> In (d, s) documented -> c = d) ->
  exists cols', standard_names cols = Ok cols' /\ length cols' = length cols /\
  forall i c, nth_error cols i = Some c -> exists s, nth_error cols' i = Some s /\
    (In (c, s) documented \/ s = c /\ forall t, ~ In (c, t) documented).
Proof.
  intros cols ND NL U. exists (map (std alt_names) cols). split; [|split; [apply map_length|]].
  - apply (fold_ok alt_names cols alt_apart ND). intros p P c d C D CP DP. apply (U c d (fst p)); try assumption; apply alt_doc; auto.
  - intros i c N. exists (std alt_names c). split; [exact (map_nth_error _ i cols N)|]. assert (I := nth_error_In _ _ N).
    destruct (in_dec string_dec c (flat_map snd alt_names)) as [Y|Y].
    + apply in_flat_map in Y. destruct Y as [p [P Q]]. left. rewrite (std_own alt_names p c alt_apart P Q). apply alt_doc; auto.
    + right. split; [apply std_other; intros p P Q; apply Y; apply in_flat_map; exists p; auto|].
      intros t T. destruct (doc_alt c t T (NL c I)) as [p [P [Q _]]]. apply Y. apply in_flat_map. exists p. auto.
Qed.
Print Assumptions C224_names_partial.
Lemma by_name : forall (l : list (string * list string)), NoDup (map fst l) -> forall p q, In p l -> In q l -> fst p = fst q -> p = q.
Proof.
  intros l. induction l as [|a l IH]; intros K p q P Q E; [destruct P|]. cbn [map] in K. inversion K as [|? ? NI K']; subst. destruct P as [->|P], Q as [->|Q].
  - reflexivity.
  - destruct NI. rewrite E. apply in_map. exact Q.
  - destruct NI. rewrite <- E. apply in_map. exact P.
  - exact (IH K' p q P Q E).
Qed.
Lemma alt_distinct : NoDup (map fst alt_names).
Proof. cbn [map fst alt_names]. repeat (constructor; [cbn [In]; intuition discriminate|]). constructor. Qed.
(** Statement: two columns that mean the same raise ValueError. *)
Theorem C224_ambiguous_partial : forall cols c d s, NoDup cols -> In c cols -> In d cols -> c <> d -> In (c, s) documented -> In (d, s) documented ->
  ~ lost c -> ~ lost d -> standard_names cols = Err ValueError.
Proof.
  intros cols c d s ND C D X DC DD LC LD. destruct (doc_alt c s DC LC) as [p [P [CP FP]]]. destruct (doc_alt d s DD LD) as [q [Q [DQ FQ]]].
  assert (E : p = q) by (apply (by_name alt_names alt_distinct p q P Q); congruence).
  subst q. exact (fold_ambiguous alt_names cols p c d alt_apart ND P C D CP DQ X).
Qed.
Print Assumptions C224_ambiguous_partial.
(** Statement: S3MID and objid(int) become obj_id.  They stay as they are (and with them, the object identifiers are replaced by
    numbers) *)
Theorem C224_lost_refuted : ~ (forall cols c s, NoDup cols -> In c cols -> In (c, s) documented ->
  (forall d t, In d cols -> In (d, t) documented -> d = c \/ t <> s) -> exists cols', standard_names cols = Ok cols' /\ In s cols').
Proof.
  intros C. destruct (C ["S3MID"; "q"]%string "S3MID"%string "obj_id"%string) as [cols' [E I]].
  - repeat constructor; cbn; intuition discriminate.
  - left; reflexivity.
  - cbn; tauto.
  - intros d t [<-|[<-|[]]] T; [left; reflexivity|right]. cbn in T. repeat (destruct T as [T|T]; [try discriminate T; injection T as <-; discriminate|]). destruct T.
  - vm_compute in E. injection E as <-. cbn in I. intuition discriminate.
Qed.
Print Assumptions C224_lost_refuted.
