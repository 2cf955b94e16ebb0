(** One row as an Orbits object; comparison; the kinds of errors. *)
From Coq Require Import Reals Lra Lia.
From Verif Require Import Base Orbits_Model Orbits_Spec Orbits_Proofs Orbits_Proofs2.
Open Scope R_scope.

(** ** Rows *)
Lemma row_names : forall f i, names (to_frame (row f i)) = names f.
Proof. intros f i. unfold names, row. cbn [to_frame f_cols]. rewrite !map_map. reflexivity. Qed.
Lemma row_holds : forall f i c j v, wf f -> (i < rows f)%nat -> (holds (to_frame (row f i)) c j v <-> j = 0%nat /\ holds f c i v).
Proof.
  intros f i c j v W Hi. unfold holds, row. cbn [to_frame f_cols]. rewrite map_map. cbn [fst snd]. split.
  - intros [l [I E]]. apply in_map_iff in I. destruct I as [[c' l'] [X I]]. cbn in X. injection X as -> <-. destruct j as [|j]; [|destruct j; discriminate].
    cbn in E. injection E as <-. split; [reflexivity|]. exists l'. split; [exact I|]. apply nth_error_nth'. rewrite (proj2 W _ _ I). exact Hi.
  - intros [-> [l [I E]]]. exists [nth i l Nan]. split; [apply in_map_iff; exists (c, l); auto|]. cbn. f_equal. apply nth_error_nth. exact E.
Qed.
Lemma row_wf : forall f i, wf f -> wf (to_frame (row f i)).
Proof.
  intros f i W. split.
  - rewrite row_names. exact (proj1 W).
  - intros c l I. unfold row in I. cbn [to_frame f_cols] in I. rewrite map_map in I. apply in_map_iff in I. destruct I as [p [X _]]. injection X as _ <-. reflexivity.
Qed.
(** the orbit of a row *)
Lemma row_orbits : forall draws f fmt i v, wf f -> (i < rows f)%nat -> chosen f fmt -> ~ In "FORMAT"%string (names f) -> ~ In "index"%string (names f) ->
  (exists els, elements fmt els /\ forall c, In c (els ++ ["obj_id"; "epoch"; "H"; "g"; "sed_filename"]%string) -> In c (names f)) ->
  holds f "epoch" i v -> epoch_ok v -> (forall s, v <> Txt s) ->
  new_orbits draws (row f i) = Ok {| o_orbits := Some (to_frame (row f i)); o_format := Some (Txt fmt); o_draws := 0 |}.
Proof.
  intros draws f fmt i v W Hi C NF NI [els [EL HC]] HV OK NT. set (r := to_frame (row f i)). assert (WR : wf r) by (apply row_wf; exact W).
  assert (NR : names r = names f) by apply row_names. assert (D : drop "index" r = r) by (apply drop_absent; rewrite NR; exact NI).
  assert (S : stated r = (None, r, None)) by (apply stated_absent; rewrite NR; exact NF).
  assert (M : resolve None r = Ok (Txt fmt)).
  { unfold resolve. apply guess_chosen; [rewrite NR; exact NF|]. inversion C as [t s I A X|I J|I J K|I J K L]; subst; [contradiction| | |].
    - apply ch_com; rewrite NR; assumption.
    - apply ch_kep; rewrite NR; assumption.
    - apply ch_car; rewrite NR; assumption. }
  assert (HR : holds r "epoch" 0 v) by (apply row_holds; auto).
  assert (E : check_epoch r = Ok tt).
  { apply epoch_check; [exact WR|cbn; lia| |exists v; auto]. intros j s X. assert (j = 0%nat) by (apply row_holds in X; tauto). subst j.
    exact (NT s (holds_fun _ _ _ _ _ WR HR X)). }
  assert (DF : defaults r = r) by (apply defaults_id; rewrite NR; apply HC; apply in_app_iff; right; cbn; tauto).
  assert (F : fill_sed draws (o_draws fresh) (defaults r) = Ok (r, o_draws fresh)).
  { rewrite DF. unfold fill_sed. assert (B : has "sed_filename" r = true); [|rewrite B; reflexivity].
    apply has_in. rewrite NR. apply HC. apply in_app_iff. right. cbn. tauto. }
  assert (Q : required (Txt fmt) r = Ok tt).
  { apply required_ok. exists fmt, els. split; [reflexivity|]. split; [exact EL|]. intros c I. rewrite NR. apply HC. exact I. }
  unfold new_orbits. destruct (set_run draws fresh (row f i) None r (Txt fmt) r 0%nat) as [A [B _]].
  - fold r. rewrite D. cbn. discriminate.
  - fold r. rewrite D. exact S.
  - exact M.
  - exact E.
  - exact F.
  - exact Q.
  - cbv zeta. rewrite A. cbn [bind]. rewrite B. reflexivity.
Qed.
Lemma all_ok_map : forall {A B} (g : A -> result B) (h : A -> B) l, (forall x, In x l -> g x = Ok (h x)) -> all_ok (map g l) = Ok (map h l).
Proof.
  intros A B g h l. induction l as [|x l IH]; intros H; [reflexivity|]. cbn. rewrite (H x (or_introl eq_refl)). cbn.
  rewrite IH by (intros y I; apply H; right; exact I). reflexivity.
Qed.
Lemma all_ok_err : forall {A} (l : list (result A)) i e, nth_error l i = Some (Err e) -> exists e', all_ok l = Err e'.
Proof.
  intros A l. induction l as [|x l IH]; intros i e H; [destruct i; discriminate|]. cbn. destruct x as [x|e']; [|eexists; reflexivity].
  destruct i as [|i]; [discriminate|]. cbn in H. destruct (IH i e H) as [e' ->]. cbn. eexists. reflexivity.
Qed.
(** the single-row object *)
Definition single (f : frame) (fmt : string) (i : nat) : orb :=
  {| o_orbits := Some (to_frame (row f i)); o_format := Some (Txt fmt); o_draws := 0 |}.
Lemma iterate : forall draws o f fmt, holding o f fmt -> chosen f fmt -> ~ In "FORMAT"%string (names f) -> ~ In "index"%string (names f) ->
  (forall i v, holds f "epoch" i v -> epoch_ok v /\ forall s, v <> Txt s) ->
  items draws o = Ok (map (single f fmt) (seq 0 (rows f))) /\
  (forall i, (i < rows f)%nat -> get_item draws o (Z.of_nat i) = Ok (single f fmt i) /\ get_item draws o (Z.of_nat i - Z.of_nat (rows f)) = Ok (single f fmt i)).
Proof.
  intros draws o f fmt [HO [HF [W [R [els [EL HC]]]]]] C NF NI EP.
  assert (ROW : forall i, (i < rows f)%nat -> new_orbits draws (row f i) = Ok (single f fmt i)).
  { intros i Hi. destruct (holds_exists f "epoch" i W) as [v HV]; [apply HC; apply in_app_iff; right; cbn; tauto|exact Hi|].
    destruct (EP i v HV) as [OK NT]. apply (row_orbits draws f fmt i v); try assumption. exists els. auto. }
  split.
  - unfold items, frame_of. rewrite HO. cbn [bind]. apply all_ok_map. intros i I. apply in_seq in I. apply ROW. lia.
  - intros i Hi. unfold get_item, frame_of. rewrite HO. cbn [bind]. split.
    + assert (B : ((Z.of_nat i <? - Z.of_nat (rows f)) || (Z.of_nat (rows f) <=? Z.of_nat i))%Z%bool = false)
        by (apply Bool.orb_false_iff; split; [apply Z.ltb_ge; lia|apply Z.leb_gt; lia]).
      rewrite B. assert (B2 : (Z.of_nat i <? 0)%Z = false) by (apply Z.ltb_ge; lia). rewrite B2, Nat2Z.id. apply ROW. exact Hi.
    + assert (B : ((Z.of_nat i - Z.of_nat (rows f) <? - Z.of_nat (rows f)) || (Z.of_nat (rows f) <=? Z.of_nat i - Z.of_nat (rows f)))%Z%bool = false)
        by (apply Bool.orb_false_iff; split; [apply Z.ltb_ge; lia|apply Z.leb_gt; lia]).
      rewrite B. assert (B2 : (Z.of_nat i - Z.of_nat (rows f) <? 0)%Z = true) by (apply Z.ltb_lt; lia). rewrite B2.
      replace (Z.to_nat (Z.of_nat i - Z.of_nat (rows f) + Z.of_nat (rows f))) with i by lia. apply ROW. exact Hi.
Qed.
Lemma single_holding : forall o f fmt i, holding o f fmt -> (i < rows f)%nat -> holding (single f fmt i) (to_frame (row f i)) fmt.
Proof.
  intros o f fmt i [HO [HF [W [R [els [EL HC]]]]]] Hi. split; [reflexivity|]. split; [reflexivity|]. split; [apply row_wf; exact W|]. split; [cbn; lia|].
  exists els. split; [exact EL|]. intros c I. rewrite row_names. apply HC. exact I.
Qed.

(** ** Comparison *)
Lemma all_equal_lengths : forall a b, length a = length b -> all_equal a b = Ok (forallb (fun p => cell_eqb (fst p) (snd p)) (combine a b)).
Proof.
  intros a b L. unfold all_equal. destruct a as [|x a]; [destruct b; [reflexivity|discriminate]|]. destruct b as [|y b]; [discriminate|].
  cbn in L. destruct a as [|x' a].
  - destruct b; [reflexivity|discriminate].
  - destruct b as [|y' b]; [discriminate|]. assert (E : Nat.eqb (length (x :: x' :: a)) (length (y :: y' :: b)) = true) by (apply Nat.eqb_eq; exact L).
    rewrite E. reflexivity.
Qed.
Lemma all_equal_iff : forall a b, length a = length b ->
  (all_equal a b = Ok true <-> forall i v w, nth_error a i = Some v -> nth_error b i = Some w -> cell_eqb v w = true).
Proof.
  intros a b L. rewrite all_equal_lengths by exact L. split.
  - intros H i v w A B. injection H as H. rewrite forallb_forall in H. apply (H (v, w)). exact (nth_error_In _ _ (nth_combine _ _ _ _ _ A B)).
  - intros H. f_equal. apply forallb_forall. intros [v w] I. apply In_nth_error in I. destruct I as [i I]. cbn.
    assert (Hi : (i < length (combine a b))%nat) by (apply nth_error_Some; congruence). rewrite combine_length in Hi.
    apply (nth_error_nth _ _ (v, w)) in I. rewrite combine_nth in I by exact L. injection I as A B.
    apply (H i); [rewrite <- A; apply nth_error_nth'; lia|rewrite <- B; apply nth_error_nth'; lia].
Qed.
Lemma cell_eqb_iff : forall v w, cell_eqb v w = true <-> v = w /\ v <> Nan.
Proof.
  intros v w. split.
  - intros H. split; [apply cell_eqb_true; exact H|]. intros ->. destruct w; discriminate.
  - intros [<- N]. destruct v as [x|s|]; cbn; [destruct (Req_EM_T x x); [reflexivity|contradiction]|apply String.eqb_refl|congruence].
Qed.
Lemma eq_ids : forall o1 o2 f1 f2 fmt, holding o1 f1 fmt -> holding o2 f2 fmt -> exists l1 l2, In ("obj_id"%string, l1) (f_cols f1) /\
  In ("obj_id"%string, l2) (f_cols f2) /\ length l1 = rows f1 /\ length l2 = rows f2 /\
  orb_eq o1 o2 = do same <- all_equal l1 l2; Ok (Some same).
Proof.
  intros o1 o2 f1 f2 fmt [HO1 [HF1 [W1 [R1 [els [EL HC1]]]]]] [HO2 [HF2 [W2 [R2 [els' [EL' HC2]]]]]].
  assert (I1 : In "obj_id"%string (names f1)) by (apply HC1; apply in_app_iff; right; cbn; tauto).
  assert (I2 : In "obj_id"%string (names f2)) by (apply HC2; apply in_app_iff; right; cbn; tauto).
  destruct (column_has f1 _ I1) as [l1 E1]. destruct (column_has f2 _ I2) as [l2 E2]. exists l1, l2.
  assert (J1 := E1). assert (J2 := E2). apply column_ok in J1; [|exact W1]. apply column_ok in J2; [|exact W2].
  split; [exact J1|]. split; [exact J2|]. split; [exact (proj2 W1 _ _ J1)|]. split; [exact (proj2 W2 _ _ J2)|].
  unfold orb_eq. rewrite HF1, HF2. cbn [same_format]. assert (X : cell_eqb (Txt fmt) (Txt fmt) = true) by (apply String.eqb_refl). rewrite X. cbn [negb].
  assert (G : forall r, eq_loop ("obj_id"%string :: r) f1 f2 = do same <- all_equal l1 l2; Ok (Some same)).
  { intros r. cbn [eq_loop]. rewrite E1, E2. cbn [bind]. destruct (all_equal l1 l2) as [[]|]; reflexivity. }
  unfold frame_of. rewrite HO1, HO2. destruct EL; cbn [data_cols]; cbn [String.eqb Ascii.eqb Bool.eqb bind com_cols kep_cols car_cols]; apply G.
Qed.

(** ** Errors *)
Lemma axes_kinds : forall f e, wf f -> numeric_elements f -> axes f = Err e -> e = ValueError \/ e = KeyError.
Proof.
  intros f e W N H. destruct (in_dec string_dec "a"%string (names f)) as [A|A].
  { destruct (axes_ok f W N) as [a X]; [auto|congruence]. }
  assert (HA : has "a" f = false) by (apply has_not; exact A).
  destruct (in_dec string_dec "q"%string (names f)) as [Q|Q].
  - destruct (in_dec string_dec "e"%string (names f)) as [E|E]; [destruct (axes_ok f W N) as [a X]; [auto|congruence]|].
    unfold axes in H. rewrite HA in H. assert (HQ : has "q" f = true) by (apply has_in; exact Q). rewrite HQ in H.
    destruct (column_has f _ Q) as [l L]. rewrite L in H. cbn [bind] in H. destruct (column f "e") as [l'|e'] eqn:L'.
    + apply column_ok in L'; [|exact W]. apply in_names in L'. contradiction.
    + apply column_err in L'. cbn [bind] in H. injection H as <-. tauto.
  - assert (HQ : has "q" f = false) by (apply has_not; exact Q). unfold axes in H. rewrite HA, HQ in H. destruct (has "x" f) eqn:X; [|injection H as <-; auto].
    destruct (column f "x") as [l|e'] eqn:LX; [|apply column_err in LX; cbn [bind] in H; injection H as <-; tauto]. cbn [bind] in H.
    destruct (column f "y") as [l'|e'] eqn:LY; [|apply column_err in LY; cbn [bind] in H; injection H as <-; tauto]. cbn [bind] in H.
    destruct (column f "z") as [l''|e'] eqn:LZ; [|apply column_err in LZ; cbn [bind] in H; injection H as <-; tauto]. cbn [bind] in H.
    destruct (axes_ok f W N) as [a Y].
    { right; right. apply column_ok in LX; [|exact W]. apply column_ok in LY; [|exact W]. apply column_ok in LZ; [|exact W].
      split; [exact (in_names _ _ _ LX)|]. split; [exact (in_names _ _ _ LY)|]. split; [exact (in_names _ _ _ LZ)|exact Q]. }
    unfold axes in Y. rewrite HA, HQ, X, LX, LY, LZ in Y. cbn [bind] in Y. congruence.
Qed.
Lemma epoch_kinds : forall f e, wf f -> (0 < rows f)%nat -> numeric f "epoch" -> check_epoch f = Err e -> e = ValueError \/ e = KeyError.
Proof.
  intros f e W R N. unfold check_epoch. destruct (column f "epoch") as [l|x] eqn:C; cbn [bind].
  - apply column_ok in C; [|exact W]. assert (L := proj2 W _ _ C). destruct l as [|[v|s|] t]; [cbn in L; lia| | |].
    + destruct (Rlt_dec v (-21503)); [intros H; injection H as <-; auto|]. destruct (Rlt_dec 124594 v); [intros H; injection H as <-; auto|discriminate].
    + destruct (N 0%nat s). exists (Txt s :: t). auto.
    + discriminate.
  - apply column_err in C. intros H. injection H as <-. tauto.
Qed.
Lemma set_kinds : forall draws o g e, wf (to_frame g) -> numeric_elements (to_frame g) -> u_result (set_orbits draws o g) = Err e ->
  e = ValueError \/ e = KeyError.
Proof.
  intros draws o g e W N. unfold set_orbits. set (f0 := drop "index" (to_frame g)). assert (W0 : wf f0) by (apply drop_wf; exact W).
  assert (N0 : numeric_elements f0) by (apply numeric_drop; exact N).
  destruct (Nat.eqb_spec (rows f0) 0) as [Z|Z]; [cbn; intros H; injection H as <-; auto|]. assert (R0 : (0 < rows f0)%nat) by lia.
  destruct (stated f0) as [[fm f1] [x|]] eqn:S.
  { cbn. intros H. injection H as <-. unfold stated in S. destruct (column f0 "FORMAT") as [[|c t]|]; try discriminate.
    destruct (forallb _ _); [|injection S; auto]. cbv zeta in S. destruct (lacks _ _); [injection S; auto|discriminate]. }
  apply stated_ok in S; [|exact W0|exact R0]. destruct S as [-> _]. set (f1 := drop "FORMAT" f0) in *.
  assert (W1 : wf f1) by (apply drop_wf; exact W0). assert (N1 : numeric_elements f1) by (apply numeric_drop; exact N0).
  destruct (match fm with Some c => Ok c | None => guess f1 end) as [fmt|x] eqn:M.
  2:{ cbn. intros H. injection H as <-. destruct fm; [discriminate|]. unfold guess in M. destruct (has "q" f1); [discriminate|]. destruct (has "a" f1); [discriminate|].
      destruct (has "x" f1); [discriminate|]. injection M as <-. auto. }
  destruct (check_epoch f1) as [u|x] eqn:E.
  2:{ cbn. intros H. injection H as <-. refine (epoch_kinds f1 _ W1 R0 _ E). apply N1. cbn. tauto. }
  destruct (defaults_wf f1 W1) as [WD _]. assert (ND := numeric_defaults f1 W1 N1).
  destruct (fill_sed draws (o_draws o) (defaults f1)) as [[f2 k]|x] eqn:F.
  2:{ cbn. intros H. injection H as <-. unfold fill_sed in F. destruct (has "sed_filename" (defaults f1)); [discriminate|]. unfold assign_sed in F.
      destruct (axes (defaults f1)) as [a|y] eqn:A; [discriminate|]. cbn [bind] in F. injection F as ->. exact (axes_kinds _ _ WD ND A). }
  destruct (required fmt f2) as [|x] eqn:Q; [discriminate|]. cbn. intros H. injection H as <-. apply required_kinds in Q. tauto.
Qed.
