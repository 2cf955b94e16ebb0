(** Properties C216-C220: Orbits. *)
From Coq Require Import Reals Lra Lia.
From Verif Require Import Base Orbits_Model Orbits_Spec Orbits_Proofs Orbits_Proofs2 Orbits_Proofs3.
Open Scope R_scope.

(** ** Tables for the cases *)
Definition kep (ids axes_ epochs : list cell) (more : list (string * list cell)) : frame :=
  let n := length ids in
  {| f_index := count n;
     f_cols := [("obj_id", ids); ("a", axes_); ("e", repeat (Num 0.1) n); ("inc", repeat (Num 5) n); ("Omega", repeat (Num 10) n);
                ("argPeri", repeat (Num 20) n); ("meanAnomaly", repeat (Num 30) n); ("epoch", epochs); ("H", repeat (Num 17) n);
                ("g", repeat (Num 0.15) n); ("sed_filename", repeat (Txt "C.dat") n)]%string ++ more |}.
Definition holder (f : frame) : orb := {| o_orbits := Some f; o_format := Some (Txt "KEP"); o_draws := 0 |}.
Ltac distinct := cbn; repeat constructor; cbn; intuition discriminate.
Ltac columns := let I := fresh in intros c l I; cbn in I; repeat (destruct I as [I|I]; [injection I as <- <-; reflexivity|]); destruct I.
Lemma kep_holding : forall ids a ep, ids <> [] -> length a = length ids -> length ep = length ids -> holding (holder (kep ids a ep [])) (kep ids a ep []) "KEP".
Proof.
  intros ids a ep N LA LE. split; [reflexivity|]. split; [reflexivity|]. split; [|split].
  - split; [unfold names, kep; cbn; repeat constructor; cbn; intuition discriminate|]. intros c l I. unfold rows. cbn [kep f_index]. rewrite count_length. cbn in I.
    repeat (destruct I as [I|I]; [injection I as <- <-; rewrite ?repeat_length; auto|]). destruct I.
  - unfold rows. cbn [kep f_index]. rewrite count_length. destruct ids; [congruence|cbn; lia].
  - eexists. split; [constructor|]. intros c I. cbn in I |- *. tauto.
Qed.

(** * C216: equality *)
(** Statement: Orbits objects of the same length compare equal exactly when formats and all elements agree.  What holds: only the
    formats and the obj_id columns decide. *)
Theorem C216_ids_partial : forall o1 o2 f1 f2 fmt1 fmt2, holding o1 f1 fmt1 -> holding o2 f2 fmt2 -> rows f1 = rows f2 ->
  exists b, orb_eq o1 o2 = Ok (Some b) /\
  (b = true <-> fmt1 = fmt2 /\ forall i v w, holds f1 "obj_id" i v -> holds f2 "obj_id" i w -> v = w /\ v <> Nan).
Proof.
  intros o1 o2 f1 f2 fmt1 fmt2 H1 H2 R. destruct (string_dec fmt1 fmt2) as [<-|D].
  - destruct (eq_ids o1 o2 f1 f2 fmt1 H1 H2) as [l1 [l2 [I1 [I2 [L1 [L2 E]]]]]]. assert (L : length l1 = length l2) by congruence.
    assert (A := all_equal_iff l1 l2 L). rewrite all_equal_lengths in A, E by exact L. cbn [bind] in E. eexists. split; [exact E|].
    set (b := forallb _ _) in *. transitivity (Ok b = Ok true); [split; congruence|]. rewrite A. split.
    + intros H. split; [reflexivity|]. intros i v w HV HW. destruct HV as [l [J N]], HW as [l' [J' N']].
      assert (l = l1) by exact (unique_col _ _ _ _ (proj1 (proj1 (proj2 (proj2 H1)))) J I1).
      assert (l' = l2) by exact (unique_col _ _ _ _ (proj1 (proj1 (proj2 (proj2 H2)))) J' I2). subst. apply cell_eqb_iff. exact (H i v w N N').
    + intros [_ H] i v w N N'. apply cell_eqb_iff. apply (H i); [exists l1; auto|exists l2; auto].
  - exists false. split; [|split; [discriminate|tauto]]. unfold orb_eq. destruct H1 as [_ [-> _]], H2 as [_ [-> _]]. cbn [same_format cell_eqb].
    apply String.eqb_neq in D. rewrite D. reflexivity.
Qed.
Print Assumptions C216_ids_partial.
(** different elements, and "equal" *)
Definition near := kep [Num 1; Num 2] [Num 2.5; Num 2.6] [Num 59000; Num 59000] [].
Definition far := kep [Num 1; Num 2] [Num 40; Num 41] [Num 59000; Num 59000] [].
Lemma same_ids : orb_eq (holder near) (holder far) = Ok (Some true).
Proof.
  unfold orb_eq, holder. cbn [o_format o_orbits same_format cell_eqb]. rewrite String.eqb_refl. cbn [negb frame_of o_orbits].
  unfold frame_of. cbn [o_orbits data_cols]. cbn [String.eqb Ascii.eqb Bool.eqb bind]. unfold kep_cols, eq_loop.
  unfold column, near, far, kep. cbn [f_cols find fst snd app]. rewrite String.eqb_refl. cbn [bind snd all_equal length Nat.eqb combine forallb fst cell_eqb].
  destruct (Req_EM_T 1 1) as [_|X]; [|congruence]. destruct (Req_EM_T 2 2) as [_|X]; [|congruence]. reflexivity.
Qed.
Theorem C216_elements_refuted : ~ (forall o1 o2 f1 f2 fmt els, holding o1 f1 fmt -> holding o2 f2 fmt -> rows f1 = rows f2 -> elements fmt els ->
  orb_eq o1 o2 = Ok (Some true) -> forall c i v w, In c els -> holds f1 c i v -> holds f2 c i w -> v = w).
Proof.
  intros C. assert (H : Num 2.5 = Num 40).
  { apply (C (holder near) (holder far) near far "KEP"%string ["a"; "e"; "inc"; "Omega"; "argPeri"; "meanAnomaly"]%string) with (c := "a"%string) (i := 0%nat).
    - apply kep_holding; [discriminate|reflexivity|reflexivity].
    - apply kep_holding; [discriminate|reflexivity|reflexivity].
    - reflexivity.
    - constructor.
    - exact same_ids.
    - cbn. tauto.
    - eexists. split; [right; left; reflexivity|reflexivity].
    - eexists. split; [right; left; reflexivity|reflexivity]. }
  injection H. lra.
Qed.
Print Assumptions C216_elements_refuted.
(** one orbit "equals" many with its id *)
Definition twice := kep [Num 1; Num 1] [Num 2.5; Num 2.6] [Num 59000; Num 59000] [].
Definition once := kep [Num 1] [Num 2.5] [Num 59000] [].
Theorem C216_length_refuted : ~ (forall o1 o2 f1 f2 fmt, holding o1 f1 fmt -> holding o2 f2 fmt -> orb_eq o1 o2 = Ok (Some true) -> rows f1 = rows f2).
Proof.
  intros C. assert (H : rows once = rows twice).
  { apply (C (holder once) (holder twice) once twice "KEP"%string).
    - apply kep_holding; [discriminate|reflexivity|reflexivity].
    - apply kep_holding; [discriminate|reflexivity|reflexivity].
    - unfold orb_eq, holder. cbn [o_format o_orbits same_format cell_eqb]. rewrite String.eqb_refl. cbn [negb].
      unfold frame_of. cbn [o_orbits data_cols]. cbn [String.eqb Ascii.eqb Bool.eqb bind]. unfold kep_cols, eq_loop.
      unfold column, once, twice, kep. cbn [f_cols find fst snd app]. rewrite String.eqb_refl. cbn [bind snd all_equal forallb cell_eqb].
      destruct (Req_EM_T 1 1) as [_|X]; [|congruence]. reflexivity. }
  discriminate.
Qed.
Print Assumptions C216_length_refuted.
(** other lengths raise instead of comparing different *)
Theorem C216_length_error : forall o1 o2 f1 f2 fmt, holding o1 f1 fmt -> holding o2 f2 fmt -> rows f1 <> rows f2 -> rows f1 <> 1%nat -> rows f2 <> 1%nat ->
  orb_eq o1 o2 = Err ValueError.
Proof.
  intros o1 o2 f1 f2 fmt H1 H2 D D1 D2. destruct (eq_ids o1 o2 f1 f2 fmt H1 H2) as [l1 [l2 [_ [_ [L1 [L2 E]]]]]]. rewrite E. rewrite <- L1, <- L2 in *.
  unfold all_equal. apply Nat.eqb_neq in D. destruct l1 as [|x [|x' l1]]; [| cbn in D1; lia|].
  - destruct l2 as [|y [|y' l2]]; [discriminate|cbn in D2; lia|]. rewrite D. reflexivity.
  - destruct l2 as [|y [|y' l2]]; [|cbn in D2; lia|]; rewrite D; reflexivity.
Qed.
Print Assumptions C216_length_error.
Example C216_case : holding (holder near) near "KEP" /\ holding (holder far) far "KEP" /\ rows near = rows far /\ orb_eq (holder near) (holder far) = Ok (Some true).
Proof.
  split; [apply kep_holding; [discriminate|reflexivity|reflexivity]|]. split; [apply kep_holding; [discriminate|reflexivity|reflexivity]|].
  split; [reflexivity|exact same_ids].
Qed.

(** * C217: validation *)
Lemma frame_rows : forall f, rows (to_frame (DataFrame f)) = rows f.
Proof. intros f. unfold rows at 1. cbn. apply count_length. Qed.
Lemma frame_wf : forall f, wf f -> wf (to_frame (DataFrame f)).
Proof. intros f [N L]. split; [exact N|]. intros c l I. rewrite frame_rows. exact (L c l I). Qed.
Lemma frame_acceptable : forall f fmt, acceptable (to_frame (DataFrame f)) fmt <-> acceptable f fmt.
Proof.
  intros f fmt. unfold acceptable. rewrite frame_rows.
  assert (C : chosen (to_frame (DataFrame f)) fmt <-> chosen f fmt).
  { split; intros C; inversion C as [t s I A X|I J|I J K|I J K L]; subst.
    - exact (ch_stated f t fmt I A X).
    - exact (ch_com f I J).
    - exact (ch_kep f I J K).
    - exact (ch_car f I J K L).
    - exact (ch_stated (to_frame (DataFrame f)) t fmt I A X).
    - exact (ch_com (to_frame (DataFrame f)) I J).
    - exact (ch_kep (to_frame (DataFrame f)) I J K).
    - exact (ch_car (to_frame (DataFrame f)) I J K L). }
  rewrite C. reflexivity.
Qed.
(** a table is accepted exactly when it is not empty, its format is one of the three (stated or recognised), the six elements and
    an epoch are there, and the first epoch is between 1800 and 2200 *)
Theorem C217_accepts : forall draws o f, wf f -> numeric_elements f ->
  (u_result (set_orbits draws o (DataFrame f)) = Ok tt <-> exists fmt, acceptable f fmt).
Proof.
  intros draws o f W N. rewrite accepts_given; [|apply frame_wf; exact W|exact N]. split; intros [fmt A]; exists fmt; apply frame_acceptable; exact A.
Qed.
Print Assumptions C217_accepts.
(** what is stored: every given value, the missing optional columns, nothing else *)
Theorem C217_stored : forall draws o f f' fmt, wf f -> accepted (set_orbits draws o (DataFrame f)) f' fmt ->
  chosen f fmt /\ holding (u_self (set_orbits draws o (DataFrame f))) f' fmt /\ rows f' = rows f /\
  (forall c i v, holds f c i v -> c <> "FORMAT"%string -> c <> "index"%string -> holds f' c i v) /\
  (forall c i v, holds f' c i v -> holds f c i v /\ c <> "FORMAT"%string /\ c <> "index"%string \/ ~ In c (names f) /\
     (c = "obj_id"%string /\ v = Num (INR i) \/ c = "H"%string /\ v = Num 20 \/ c = "g"%string /\ v = Num 0.15 \/
      c = "sed_filename"%string /\ (v = Txt "C.dat" \/ v = Txt "S.dat"))).
Proof.
  intros draws o f f' fmt W A. destruct (stored draws o (DataFrame f) f' fmt (frame_wf f W) A) as [C [H [IX [_ [_ [NM HD]]]]]].
  assert (C' : chosen f fmt).
  { inversion C as [t s I B X|I J|I J K|I J K L]; subst; [exact (ch_stated f t fmt I B X)|exact (ch_com f I J)|exact (ch_kep f I J K)|exact (ch_car f I J K L)]. }
  split; [exact C'|]. split; [exact H|]. split; [unfold rows; rewrite IX; cbn; apply count_length|]. split.
  - intros c i v X NF NI. apply HD. left. apply plain_holds; [apply frame_wf; exact W|]. left. auto.
  - intros c i v X. apply HD in X. destruct X as [X|[NS [-> [a [x [_ [_ ->]]]]]]].
    + apply plain_holds in X; [|apply frame_wf; exact W]. destruct X as [X|[NI [_ D]]]; [left; exact X|]. right. split; [exact NI|]. destruct D as [D|[D|D]]; tauto.
    + right. split; [exact NS|]. right; right; right. split; [reflexivity|]. unfold sed_of. destruct x; [destruct (Rle_dec _ _)| | |]; auto.
Qed.
Print Assumptions C217_stored.
(** Statement: every epoch that is accepted is an MJD between 1800 and 2200.  Only the first row is looked at. *)
Definition mixed := kep [Num 1; Num 2] [Num 2.5; Num 2.6] [Num 59000; Num 2459000.5] [].
Lemma kep_numeric : forall ids a ep, (forall v s, In v a -> v <> Txt s) -> (forall v s, In v ep -> v <> Txt s) -> numeric_elements (kep ids a ep []).
Proof.
  intros ids a ep A E c I i s [l [J N]]. apply nth_error_In in N. cbn in I, J.
  destruct I as [<-|[<-|[<-|[<-|[<-|[<-|[<-|[]]]]]]]];
    repeat (destruct J as [J|J]; [injection J as ?; subst; try discriminate|]); try destruct J.
  - exact (A _ s N eq_refl).
  - apply repeat_spec in N. discriminate.
  - exact (E _ s N eq_refl).
Qed.
Theorem C217_epoch_refuted : ~ (forall draws o f f' fmt, wf f -> numeric_elements f -> accepted (set_orbits draws o (DataFrame f)) f' fmt ->
  forall i v, holds f' "epoch" i v -> epoch_ok v).
Proof.
  intros C. assert (W : wf mixed) by (destruct (kep_holding [Num 1; Num 2] [Num 2.5; Num 2.6] [Num 59000; Num 2459000.5]) as [_ [_ [W _]]]; [discriminate|reflexivity|reflexivity|exact W]).
  assert (N : numeric_elements mixed) by (apply kep_numeric; intros v s I; cbn in I; intuition congruence).
  set (d := fun _ : nat => 0). assert (A : u_result (set_orbits d fresh (DataFrame mixed)) = Ok tt).
  { apply C217_accepts; [exact W|exact N|]. exists "KEP"%string. split; [discriminate|]. split; [apply ch_kep; cbn; intuition discriminate|].
    split; [eexists; split; [constructor|intros c I; cbn in I |- *; tauto]|]. split; [|cbn; intuition discriminate].
    exists (Num 59000). split; [eexists; split; [do 7 right; left; reflexivity|reflexivity]|]. intros x X. injection X as <-. lra. }
  destruct (set_ok d fresh (DataFrame mixed) A) as [_ [fm [f1 [fmt [f2 [k [_ [_ [_ [_ [Q [U _]]]]]]]]]]]].
  apply required_ok in Q. destruct Q as [s [els [-> [EL HC]]]].
  assert (AC : accepted (set_orbits d fresh (DataFrame mixed)) f2 s) by (split; [exact A|]; rewrite U; split; reflexivity).
  destruct (C217_stored d fresh mixed f2 s W AC) as [_ [_ [_ [K _]]]].
  assert (H : epoch_ok (Num 2459000.5)).
  { apply (C d fresh mixed f2 s W N AC 1%nat). apply K; [|discriminate|discriminate]. eexists. split; [do 7 right; left; reflexivity|reflexivity]. }
  specialize (H _ eq_refl). lra.
Qed.
Print Assumptions C217_epoch_refuted.
(** tables whose elements are numbers are rejected with ValueError or KeyError *)
Theorem C217_error_kinds : forall draws o f e, wf f -> numeric_elements f -> u_result (set_orbits draws o (DataFrame f)) = Err e -> e = ValueError \/ e = KeyError.
Proof. intros draws o f e W N. apply set_kinds; [apply frame_wf; exact W|exact N]. Qed.
Print Assumptions C217_error_kinds.
(** Statement: a missing element raises ValueError.  Without an epoch it is KeyError *)
Definition timeless : frame := {| f_index := [0%Z]; f_cols := [("a"%string, [Num 2.5])] |}.
Theorem C217_missing_refuted : ~ (forall draws o f e, wf f -> numeric_elements f -> u_result (set_orbits draws o (DataFrame f)) = Err e -> e = ValueError).
Proof.
  intros C. assert (KeyError = ValueError); [|discriminate]. apply (C (fun _ => 0) fresh timeless).
  - split; [cbn; repeat constructor; cbn; tauto|]. intros c l I. cbn in I. destruct I as [I|[]]. injection I as <- <-. reflexivity.
  - intros c I i s [l [J N]]. cbn in J. destruct J as [J|[]]. injection J as <- <-. destruct i as [|[|i]]; discriminate.
  - reflexivity.
Qed.
Print Assumptions C217_missing_refuted.
Example C217_case : wf near /\ numeric_elements near /\ acceptable near "KEP".
Proof.
  split; [destruct (kep_holding [Num 1; Num 2] [Num 2.5; Num 2.6] [Num 59000; Num 59000]) as [_ [_ [W _]]]; [discriminate|reflexivity|reflexivity|exact W]|].
  split; [apply kep_numeric; intros v s I; cbn in I; intuition congruence|]. split; [discriminate|]. split; [apply ch_kep; cbn; intuition discriminate|].
  split; [eexists; split; [constructor|intros c I; cbn in I |- *; tauto]|]. split; [|cbn; intuition discriminate].
  exists (Num 59000). split; [eexists; split; [do 7 right; left; reflexivity|reflexivity]|]. intros x X. injection X as <-. lra.
Qed.
