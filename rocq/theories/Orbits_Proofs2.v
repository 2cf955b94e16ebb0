(** set_orbits: which tables are accepted and what is stored. *)
From Coq Require Import Reals Lra Lia.
From Verif Require Import Base Orbits_Model Orbits_Spec Orbits_Proofs.
Open Scope R_scope.

Lemma cell_eqb_txt : forall v s, cell_eqb v (Txt s) = true <-> v = Txt s.
Proof.
  intros v s. destruct v as [x|t|]; cbn; try (split; discriminate). rewrite String.eqb_eq. split; [intros ->; reflexivity|intros H; injection H as ->; reflexivity].
Qed.
Lemma cell_eqb_true : forall v w, cell_eqb v w = true -> v = w.
Proof.
  intros v w. destruct v as [x|t|], w as [y|u|]; cbn; try discriminate.
  - destruct (Req_EM_T x y); [congruence|discriminate].
  - intros E. apply String.eqb_eq in E. congruence.
Qed.

(** ** The format *)
Lemma data_cols_elements : forall fmt cols, data_cols fmt = Ok cols -> exists s els, fmt = Txt s /\ elements s els /\
  (forall c, In c cols <-> In c (els ++ ["obj_id"; "epoch"; "H"; "g"; "sed_filename"]%string)).
Proof.
  intros fmt cols H. destruct fmt as [x|s|]; cbn in H; try discriminate. exists s.
  destruct (String.eqb_spec s "COM") as [->|_]; [injection H as <-; eexists; split; [reflexivity|]; split; [constructor|]; intros c; cbn; tauto|].
  destruct (String.eqb_spec s "KEP") as [->|_]; [injection H as <-; eexists; split; [reflexivity|]; split; [constructor|]; intros c; cbn; tauto|].
  destruct (String.eqb_spec s "CAR") as [->|_]; [injection H as <-; eexists; split; [reflexivity|]; split; [constructor|]; intros c; cbn; tauto|].
  discriminate.
Qed.
Lemma elements_data_cols : forall s els, elements s els -> exists cols, data_cols (Txt s) = Ok cols /\
  (forall c, In c cols <-> In c (els ++ ["obj_id"; "epoch"; "H"; "g"; "sed_filename"]%string)).
Proof. intros s els E. destruct E; (eexists; split; [reflexivity|]; intros c; cbn; tauto). Qed.
Lemma required_ok : forall fmt f, required fmt f = Ok tt <-> exists s els, fmt = Txt s /\ elements s els /\
  forall c, In c (els ++ ["obj_id"; "epoch"; "H"; "g"; "sed_filename"]%string) -> In c (names f).
Proof.
  intros fmt f. unfold required. split.
  - intros H. destruct (data_cols fmt) as [cols|] eqn:D; [|discriminate]. cbn [bind] in H. apply data_cols_elements in D.
    destruct D as [s [els [-> [E Q]]]]. exists s, els. split; [reflexivity|]. split; [exact E|]. intros c I. apply Q in I.
    destruct (forallb _ cols) eqn:F; [|discriminate]. rewrite forallb_forall in F. apply has_in. exact (F c I).
  - intros [s [els [-> [E H]]]]. destruct (elements_data_cols s els E) as [cols [-> Q]]. cbn [bind].
    replace (forallb (fun c => has c f) cols) with true; [reflexivity|]. symmetry. apply forallb_forall. intros c I. apply has_in. apply H. apply Q. exact I.
Qed.
Lemma required_kinds : forall fmt f e, required fmt f = Err e -> e = KeyError \/ e = ValueError.
Proof.
  intros fmt f e. unfold required. destruct (data_cols fmt) eqn:D; cbn [bind].
  - destruct (forallb _ _); [discriminate|]. intros H. injection H as <-. auto.
  - intros H. injection H as <-. left. destruct fmt as [|s|]; cbn in D; try congruence.
    destruct (String.eqb s "COM"); [discriminate|]. destruct (String.eqb s "KEP"); [discriminate|]. destruct (String.eqb s "CAR"); [discriminate|]. congruence.
Qed.
Lemma lacks_false : forall s els f, elements s els -> (forall c, In c els -> In c (names f)) -> lacks (Txt s) f = false.
Proof.
  intros s els f E H. unfold lacks. destruct E; cbn.
  - assert (Q : has "q" f = true) by (apply has_in, H; cbn; tauto). rewrite Q. reflexivity.
  - assert (Q : has "a" f = true) by (apply has_in, H; cbn; tauto). rewrite Q. reflexivity.
  - assert (Q : has "x" f = true) by (apply has_in, H; cbn; tauto). rewrite Q. reflexivity.
Qed.
Lemma stated_absent : forall f, ~ In "FORMAT"%string (names f) -> stated f = (None, f, None).
Proof.
  intros f N. unfold stated. destruct (column f "FORMAT") as [l|e] eqn:E; [|reflexivity]. destruct N.
  unfold column in E. destruct (find _ _) as [p|] eqn:F; [|discriminate]. apply find_some in F. destruct F as [I F]. apply String.eqb_eq in F.
  unfold names. apply in_map_iff. exists p. auto.
Qed.
Lemma stated_same : forall f s, wf f -> (0 < rows f)%nat -> In "FORMAT"%string (names f) -> (forall i v, holds f "FORMAT" i v -> v = Txt s) ->
  let c := if String.eqb s "CART" then Txt "CAR" else Txt s in
  stated f = (Some c, drop "FORMAT" f, if lacks c (drop "FORMAT" f) then Some ValueError else None).
Proof.
  intros f s W R I A c. destruct (column_has f _ I) as [l E]. unfold stated. rewrite E. apply column_ok in E; [|exact W].
  destruct l as [|v t]; [assert (L := proj2 W _ _ E); cbn in L; lia|].
  assert (V : v = Txt s) by (apply (A 0%nat); exists (v :: t); auto). subst v.
  replace (forallb (fun x => cell_eqb x (Txt s)) (Txt s :: t)) with true.
  - change (cell_eqb (Txt s) (Txt "CART")) with (String.eqb s "CART"). cbv zeta. fold c. reflexivity.
  - symmetry. apply forallb_forall. intros x J. apply cell_eqb_txt. apply In_nth_error in J. destruct J as [i J]. apply (A i). exists (Txt s :: t). auto.
Qed.
Lemma stated_ok : forall f fm f1, wf f -> (0 < rows f)%nat -> stated f = (fm, f1, None) ->
  f1 = drop "FORMAT" f /\ match fm with
  | None => ~ In "FORMAT"%string (names f)
  | Some c => In "FORMAT"%string (names f) /\ exists v, (forall i w, holds f "FORMAT" i w -> w = v) /\ c = (if cell_eqb v (Txt "CART") then Txt "CAR" else v)
  end.
Proof.
  intros f fm f1 W R H. unfold stated in H. destruct (column f "FORMAT") as [l|e] eqn:E.
  - apply column_ok in E; [|exact W]. destruct l as [|v t]; [assert (L := proj2 W _ _ E); cbn in L; lia|].
    destruct (forallb _ (v :: t)) eqn:F; [|discriminate]. cbv zeta in H. destruct (lacks _ _); [discriminate|]. injection H as <- <-. split; [reflexivity|].
    split; [exact (in_names _ _ _ E)|]. exists v. split; [|reflexivity]. intros i w [l' [I N]].
    assert (l' = v :: t) by exact (unique_col _ _ _ _ (proj1 W) I E). subst l'. rewrite forallb_forall in F. apply cell_eqb_true. apply F. exact (nth_error_In _ _ N).
  - injection H as <- <-. apply column_err in E. destruct E as [_ N]. split; [|exact N]. symmetry. apply drop_absent. exact N.
Qed.
Definition resolve (fm : option cell) (f : frame) : result cell := match fm with Some c => Ok c | None => guess f end.
Lemma guess_chosen : forall f s, ~ In "FORMAT"%string (names f) -> (guess f = Ok (Txt s) <-> chosen f s).
Proof.
  intros f s N. unfold guess. destruct (has "q" f) eqn:Q.
  - apply has_in in Q. split; [intros H; injection H as <-; apply ch_com; assumption|]. intros C. inversion C; subst; try tauto; reflexivity.
  - apply has_not in Q. destruct (has "a" f) eqn:A.
    + apply has_in in A. split; [intros H; injection H as <-; apply ch_kep; assumption|]. intros C. inversion C; subst; try tauto; reflexivity.
    + apply has_not in A. destruct (has "x" f) eqn:X.
      * apply has_in in X. split; [intros H; injection H as <-; apply ch_car; assumption|]. intros C. inversion C; subst; try tauto; reflexivity.
      * apply has_not in X. split; [discriminate|]. intros C. inversion C; subst; tauto.
Qed.
Lemma format_chosen : forall f fm f1 s, wf f -> (0 < rows f)%nat -> stated f = (fm, f1, None) -> resolve fm f1 = Ok (Txt s) -> chosen f s.
Proof.
  intros f fm f1 s W R S H. apply stated_ok in S; [|exact W|exact R]. destruct S as [-> S]. destruct fm as [c|]; cbn [resolve] in H.
  - injection H as ->. destruct S as [I [v [A C]]]. destruct (cell_eqb v (Txt "CART")) eqn:E.
    + apply cell_eqb_txt in E. subst v. injection C as ->. apply (ch_stated f "CART"); [exact I|exact A|]. right. split; reflexivity.
    + subst v. apply (ch_stated f s); [exact I|exact A|]. left. reflexivity.
  - rewrite drop_absent in H by exact S. apply guess_chosen; assumption.
Qed.
Lemma chosen_format : forall f s els, wf f -> (0 < rows f)%nat -> chosen f s -> elements s els -> (forall c, In c els -> In c (names f)) ->
  exists fm, stated f = (fm, drop "FORMAT" f, None) /\ resolve fm (drop "FORMAT" f) = Ok (Txt s).
Proof.
  intros f s els W R C E H. assert (HD : ~ In "FORMAT"%string els) by (destruct E; cbn; intuition discriminate).
  destruct (in_dec string_dec "FORMAT"%string (names f)) as [I|N].
  - inversion C as [t s' I' A D|X|X|X]; subst; try contradiction. eexists. split; [rewrite (stated_same f t W R I A)|].
    + assert (Q : (if String.eqb t "CART" then Txt "CAR" else Txt t) = Txt s).
      { destruct D as [->|[-> ->]]; [|reflexivity]. destruct (String.eqb_spec s "CART") as [->|_]; [inversion E|reflexivity]. }
      rewrite Q. rewrite (lacks_false s els); [reflexivity|exact E|]. intros c J. apply drop_names. split; [intros ->; contradiction|exact (H c J)].
    + reflexivity.
  - exists None. rewrite (drop_absent _ _ N). split; [apply stated_absent; exact N|]. cbn. apply guess_chosen; assumption.
Qed.

(** ** The outcome *)
Lemma set_ok : forall draws o g, let f0 := drop "index" (to_frame g) in u_result (set_orbits draws o g) = Ok tt ->
  rows f0 <> 0%nat /\ exists fm f1 fmt f2 k, stated f0 = (fm, f1, None) /\ resolve fm f1 = Ok fmt /\ check_epoch f1 = Ok tt /\
    fill_sed draws (o_draws o) (defaults f1) = Ok (f2, k) /\ required fmt f2 = Ok tt /\
    u_self (set_orbits draws o g) = {| o_orbits := Some f2; o_format := Some fmt; o_draws := k |} /\ u_given (set_orbits draws o g) = after g f1.
Proof.
  intros draws o g f0 H. unfold set_orbits in *. fold f0 in H |- *. destruct (Nat.eqb_spec (rows f0) 0) as [Z|Z]; [discriminate|]. split; [exact Z|].
  destruct (stated f0) as [[fm f1] [e|]] eqn:S; [discriminate|]. fold (resolve fm f1) in H |- *.
  destruct (resolve fm f1) as [fmt|] eqn:M; [|discriminate]. destruct (check_epoch f1) as [[]|] eqn:E; [|discriminate].
  destruct (fill_sed draws (o_draws o) (defaults f1)) as [[f2 k]|] eqn:F; [|discriminate]. destruct (required fmt f2) as [[]|] eqn:Q; [|discriminate].
  exists fm, f1, fmt, f2, k. split; [reflexivity|]. split; [exact M|]. split; [exact E|]. split; [exact F|]. split; [exact Q|]. split; reflexivity.
Qed.
Lemma set_run : forall draws o g fm f1 fmt f2 k, let f0 := drop "index" (to_frame g) in
  rows f0 <> 0%nat -> stated f0 = (fm, f1, None) -> resolve fm f1 = Ok fmt -> check_epoch f1 = Ok tt ->
  fill_sed draws (o_draws o) (defaults f1) = Ok (f2, k) -> required fmt f2 = Ok tt ->
  u_result (set_orbits draws o g) = Ok tt /\ u_self (set_orbits draws o g) = {| o_orbits := Some f2; o_format := Some fmt; o_draws := k |} /\
  u_given (set_orbits draws o g) = after g f1.
Proof.
  intros draws o g fm f1 fmt f2 k f0 Z S M E F Q. unfold set_orbits. fold f0. apply Nat.eqb_neq in Z. rewrite Z, S. fold (resolve fm f1). rewrite M, E, F, Q.
  auto.
Qed.
Lemma epoch_check : forall f, wf f -> (0 < rows f)%nat -> numeric f "epoch" ->
  (check_epoch f = Ok tt <-> exists v, holds f "epoch" 0 v /\ epoch_ok v).
Proof.
  intros f W R N. unfold check_epoch. destruct (column f "epoch") as [l|e] eqn:E.
  - apply column_ok in E; [|exact W]. cbn [bind]. assert (L := proj2 W _ _ E). destruct l as [|v t]; [cbn in L; lia|].
    assert (HV : holds f "epoch" 0 v) by (exists (v :: t); auto).
    assert (U : forall w, holds f "epoch" 0 w -> w = v) by (intros w HW; exact (holds_fun _ _ _ _ _ W HW HV)).
    destruct v as [x|s|].
    + destruct (Rlt_dec x (-21503)) as [B|B].
      { split; [discriminate|]. intros [w [HW OK]]. rewrite (U w HW) in OK. specialize (OK x eq_refl). lra. }
      destruct (Rlt_dec 124594 x) as [B'|B'].
      { split; [discriminate|]. intros [w [HW OK]]. rewrite (U w HW) in OK. specialize (OK x eq_refl). lra. }
      split; [|reflexivity]. intros _. exists (Num x). split; [exact HV|]. intros y Y. injection Y as <-. lra.
    + destruct (N 0%nat s HV).
    + split; [|reflexivity]. intros _. exists Nan. split; [exact HV|]. intros y Y. discriminate.
  - cbn [bind]. split; [discriminate|]. intros [v [HV _]]. apply column_err in E. destruct E as [_ E]. apply holds_names in HV. contradiction.
Qed.
Lemma chosen_drop : forall f s, chosen (drop "index" f) s <-> chosen f s.
Proof.
  intros f s. split; intros C; inversion C as [t s' I A D|I J|I J K|I J K L]; subst; try rewrite drop_names in *.
    - apply (ch_stated f t); [tauto| |exact D]. intros i v HV. apply (A i). apply drop_holds. split; [discriminate|exact HV].
    - apply ch_com; [intros X; apply I; split; [discriminate|exact X]|tauto].
    - apply ch_kep; [intros X; apply I; split; [discriminate|exact X]|intros X; apply J; split; [discriminate|exact X]|tauto].
    - apply ch_car; [intros X; apply I; split; [discriminate|exact X]|intros X; apply J; split; [discriminate|exact X]|intros X; apply K; split; [discriminate|exact X]|tauto].
    - apply (ch_stated _ t); [apply drop_names; split; [discriminate|exact I]| |exact D]. intros i v HV. apply drop_holds in HV. apply (A i). tauto.
    - apply ch_com; rewrite drop_names; [tauto|]. split; [discriminate|exact J].
    - apply ch_kep; rewrite drop_names; [tauto|tauto|]. split; [discriminate|exact K].
    - apply ch_car; rewrite drop_names; [tauto|tauto|tauto|]. split; [discriminate|exact L].
Qed.
Lemma acceptable_drop : forall f fmt, acceptable (drop "index" f) fmt <-> acceptable f fmt.
Proof.
  intros f fmt. unfold acceptable. rewrite drop_rows, chosen_drop. split; intros [A [B [[els [E H]] [[v [HV OK]] SE]]]]; (split; [exact A|]; split; [exact B|]; split; [|split]).
  - exists els. split; [exact E|]. intros c I. apply H in I. apply drop_names in I. tauto.
  - exists v. apply drop_holds in HV. tauto.
  - rewrite !drop_names in SE. intros X Y Z. apply SE; [tauto|tauto|]. split; [discriminate|exact Z].
  - exists els. split; [exact E|]. intros c I. apply drop_names. split; [|exact (H c I)]. intros ->. destruct E; cbn in I; intuition discriminate.
  - exists v. split; [|exact OK]. apply drop_holds. split; [discriminate|exact HV].
  - rewrite !drop_names. intros X Y Z. split; [discriminate|]. apply SE; [| |tauto]; intros K; [apply X|apply Y]; (split; [discriminate|exact K]).
Qed.
Lemma numeric_drop : forall f c, numeric_elements f -> numeric_elements (drop c f).
Proof. intros f c N d I i s H. apply drop_holds in H. exact (N d I i s (proj2 H)). Qed.
Lemma numeric_defaults : forall f, wf f -> numeric_elements f -> numeric_elements (defaults f).
Proof.
  intros f W N d I i s H. apply defaults_holds in H; [|exact W]. destruct H as [H|[_ [_ D]]]; [exact (N d I i s H)|].
  destruct D as [[_ D]|[[_ D]|[_ D]]]; discriminate.
Qed.
(** for what is given *)
Lemma accepts_given : forall draws o g, wf (to_frame g) -> numeric_elements (to_frame g) ->
  (u_result (set_orbits draws o g) = Ok tt <-> exists fmt, acceptable (to_frame g) fmt).
Proof.
  intros draws o g W N. set (f0 := drop "index" (to_frame g)).
  assert (W0 : wf f0) by (apply drop_wf; exact W). assert (N0 : numeric_elements f0) by (apply numeric_drop; exact N).
  transitivity (exists fmt, acceptable f0 fmt).
  2:{ split; intros [fmt A]; exists fmt; apply acceptable_drop; exact A. }
  split.
  - intros H. apply set_ok in H. destruct H as [Z [fm [f1 [fmt [f2 [k [S [M [E [F [Q _]]]]]]]]]]]. fold f0 in Z, S. assert (R0 : (0 < rows f0)%nat) by lia.
    assert (S' := S). apply stated_ok in S'; [|exact W0|exact R0]. destruct S' as [E1 _].
    assert (W1 : wf f1) by (subst f1; apply drop_wf; exact W0). assert (N1 : numeric_elements f1) by (subst f1; apply numeric_drop; exact N0).
    assert (R1 : (0 < rows f1)%nat) by (subst f1; rewrite drop_rows; exact R0).
    destruct (defaults_wf f1 W1) as [WD [RD ID]]. destruct (fill_sed_ok draws _ _ _ _ WD F) as [W2 [R2 [_ [NM _]]]].
    apply required_ok in Q. destruct Q as [s [els [-> [EL HC]]]]. exists s. split; [exact Z|]. split; [exact (format_chosen f0 fm f1 s W0 R0 S M)|]. split; [|split].
    + exists els. split; [exact EL|]. intros c I. assert (J : In c (names f2)) by (apply HC; apply in_app_iff; auto). apply NM in J.
      assert (X : c <> "sed_filename"%string /\ c <> "obj_id"%string /\ c <> "H"%string /\ c <> "g"%string)
        by (repeat split; intros ->; destruct EL; cbn in I; intuition discriminate).
      destruct J as [J|J]; [tauto|]. apply defaults_names in J. destruct J as [J|J]; [tauto|]. subst f1. apply drop_names in J. tauto.
    + apply epoch_check in E; [|exact W1|exact R1|apply N1; cbn; tauto]. destruct E as [v [HV OK]]. exists v. split; [|exact OK]. subst f1. apply drop_holds in HV. tauto.
    + intros X Y J. destruct (in_dec string_dec "e"%string (names f0)) as [|NE]; [assumption|exfalso].
      assert (ND : forall c, (c = "sed_filename" \/ c = "a" \/ c = "q" \/ c = "e")%string -> (In c (names (defaults f1)) <-> In c (names f0))).
      { intros c HCC. rewrite defaults_names. subst f1. rewrite drop_names. split; [|intros K; right; split; [|exact K]; intros ->; intuition discriminate].
        intros [K|K]; [|tauto]. exfalso. destruct HCC as [->|[->|[->| ->]]]; intuition discriminate. }
      unfold fill_sed, assign_sed, axes in F.
      assert (B1 : has "sed_filename" (defaults f1) = false) by (apply has_not; rewrite ND by auto; exact X).
      assert (B2 : has "a" (defaults f1) = false) by (apply has_not; rewrite ND by auto; exact Y).
      assert (B3 : has "q" (defaults f1) = true) by (apply has_in; rewrite ND by auto; exact J).
      rewrite B1, B2, B3 in F. destruct (column (defaults f1) "e") as [l|] eqn:CE; [|destruct (column (defaults f1) "q"); discriminate].
      apply column_ok in CE; [|exact WD]. apply in_names in CE. rewrite ND in CE by auto. contradiction.
  - intros [s [Z [C [[els [EL HC]] [[v [HV OK]] SE]]]]]. assert (R0 : (0 < rows f0)%nat) by lia.
    destruct (chosen_format f0 s els W0 R0 C EL HC) as [fm [S M]]. set (f1 := drop "FORMAT" f0) in *.
    assert (W1 : wf f1) by (apply drop_wf; exact W0). assert (N1 : numeric_elements f1) by (apply numeric_drop; exact N0).
    assert (R1 : (0 < rows f1)%nat) by (unfold f1; rewrite drop_rows; exact R0).
    assert (E : check_epoch f1 = Ok tt).
    { apply epoch_check; [exact W1|exact R1|apply N1; cbn; tauto|]. exists v. split; [|exact OK]. apply drop_holds. split; [discriminate|exact HV]. }
    destruct (defaults_wf f1 W1) as [WD [RD ID]]. assert (ND := numeric_defaults f1 W1 N1).
    assert (HC1 : forall c, In c els -> In c (names f1)).
    { intros c I. apply drop_names. split; [|exact (HC c I)]. intros ->. destruct EL; cbn in I; intuition discriminate. }
    assert (AX : exists f2 k, fill_sed draws (o_draws o) (defaults f1) = Ok (f2, k)).
    { unfold fill_sed. destruct (has "sed_filename" (defaults f1)) eqn:HS; [eexists; eexists; reflexivity|]. unfold assign_sed.
      destruct (axes_ok (defaults f1) WD ND) as [a ->]; [|cbn; eexists; eexists; reflexivity].
      destruct EL as [| |].
      - right; left. split; apply defaults_names; right; apply HC1; cbn; tauto.
      - left. apply defaults_names; right; apply HC1; cbn; tauto.
      - destruct (in_dec string_dec "a"%string (names (defaults f1))) as [A|A]; [left; exact A|right].
        destruct (in_dec string_dec "q"%string (names (defaults f1))) as [B|B].
        + destruct (in_dec string_dec "e"%string (names (defaults f1))) as [D|D]; [left; auto|].
          exfalso. apply D. apply defaults_names. right. apply drop_names. split; [discriminate|]. apply SE.
          * intros K. apply has_not in HS. apply HS. apply defaults_names. right. apply drop_names. split; [discriminate|exact K].
          * intros K. apply A. apply defaults_names. right. apply drop_names. split; [discriminate|exact K].
          * apply defaults_names in B. destruct B as [B|B]; [intuition discriminate|]. apply drop_names in B. tauto.
        + right. repeat split; try (apply defaults_names; right; apply HC1; cbn; tauto). exact B. }
    destruct AX as [f2 [k F]]. destruct (fill_sed_ok draws _ _ _ _ WD F) as [_ [_ [_ [NM _]]]].
    refine (proj1 (set_run draws o g fm f1 (Txt s) f2 k Z S M E F _)). apply required_ok. exists s, els. split; [reflexivity|]. split; [exact EL|].
    intros c I. apply NM. apply in_app_iff in I. destruct I as [I|I]; [right; apply defaults_names; right; exact (HC1 c I)|].
    cbn in I. destruct I as [<-|[<-|[<-|[<-|[<-|[]]]]]]; [right; apply defaults_names; auto| |right; apply defaults_names; auto|right; apply defaults_names; auto|left; reflexivity].
    right. apply defaults_names. right. apply drop_names. split; [discriminate|]. exact (holds_names _ _ _ _ HV).
Qed.

(** ** What is stored *)
(** the table without its format and index, with defaults *)
Definition plain (f : frame) : frame := defaults (drop "FORMAT" (drop "index" f)).
Lemma plain_wf : forall f, wf f -> wf (plain f) /\ rows (plain f) = rows f /\ f_index (plain f) = f_index f.
Proof. intros f W. unfold plain. destruct (defaults_wf (drop "FORMAT" (drop "index" f))) as [A [B C]]; [apply drop_wf, drop_wf, W|]. auto. Qed.
Lemma plain_names : forall f c, In c (names (plain f)) <->
  In c (names f) /\ c <> "FORMAT"%string /\ c <> "index"%string \/ (c = "obj_id" \/ c = "H" \/ c = "g")%string.
Proof. intros f c. unfold plain. rewrite defaults_names, !drop_names. tauto. Qed.
Lemma plain_holds : forall f c i v, wf f -> (holds (plain f) c i v <->
  holds f c i v /\ c <> "FORMAT"%string /\ c <> "index"%string \/ ~ In c (names f) /\ (i < rows f)%nat /\ default_value c i v).
Proof.
  intros f c i v W. unfold plain. rewrite defaults_holds by (apply drop_wf, drop_wf, W). rewrite !drop_holds, !drop_names, !drop_rows. split.
  - intros [H|[A [B C]]]; [left; tauto|right]. split; [|tauto]. intros I. apply A. split; [|split; [|exact I]]; intros ->; destruct C as [[C _]|[[C _]|[C _]]]; discriminate.
  - intros [H|[A [B C]]]; [left; tauto|right]. tauto.
Qed.
Lemma stored : forall draws o g f' fmt, wf (to_frame g) -> accepted (set_orbits draws o g) f' fmt ->
  chosen (to_frame g) fmt /\ holding (u_self (set_orbits draws o g)) f' fmt /\ f_index f' = f_index (to_frame g) /\
  u_given (set_orbits draws o g) = after g (drop "FORMAT" (drop "index" (to_frame g))) /\
  fill_sed draws (o_draws o) (plain (to_frame g)) = Ok (f', o_draws (u_self (set_orbits draws o g))) /\
  (forall c, In c (names f') <-> In c (names (to_frame g)) /\ c <> "FORMAT"%string /\ c <> "index"%string \/
     In c ["obj_id"; "H"; "g"; "sed_filename"]%string) /\
  (forall c i v, holds f' c i v <-> holds (plain (to_frame g)) c i v \/
     ~ In "sed_filename"%string (names (to_frame g)) /\ c = "sed_filename"%string /\
     exists a x, axes (plain (to_frame g)) = Ok a /\ nth_error a i = Some x /\ v = sed_of (draws (o_draws o + i)%nat) x).
Proof.
  intros draws o g f' fmt W [H [HO HF]]. destruct (set_ok draws o g H) as [Z [fm [f1 [fmt' [f2 [k [S [M [E [F [Q [U G]]]]]]]]]]]].
  set (f0 := drop "index" (to_frame g)) in *. assert (W0 : wf f0) by (apply drop_wf; exact W). assert (R0 : (0 < rows f0)%nat) by lia.
  assert (S' := S). apply stated_ok in S'; [|exact W0|exact R0]. destruct S' as [E1 _]. rewrite U in HO, HF. cbn in HO, HF. injection HO as <-. injection HF as ->.
  subst f1. fold (plain (to_frame g)) in F. destruct (plain_wf (to_frame g) W) as [WP [RP IP]].
  destruct (fill_sed_ok draws _ _ _ _ WP F) as [W2 [R2 [I2 [N2 [SP SA]]]]].
  assert (NS : In "sed_filename"%string (names (plain (to_frame g))) <-> In "sed_filename"%string (names (to_frame g))).
  { rewrite plain_names. split; [intros [X|X]; [tauto|]|intros X; left; split; [exact X|split; discriminate]].
    destruct X as [X|[X|X]]; discriminate. }
  split.
  { apply required_ok in Q. destruct Q as [s [els [X [EL HC]]]]. injection X as <-. assert (C := format_chosen f0 fm _ fmt W0 R0 S M).
    exact (proj1 (chosen_drop _ _) C). }
  split.
  { unfold holding. rewrite U. cbn. split; [reflexivity|]. split; [reflexivity|]. split; [exact W2|]. split; [rewrite R2, RP; exact R0|].
    apply required_ok in Q. destruct Q as [s [els [X [EL HC]]]]. injection X as <-. exists els. auto. }
  split; [rewrite I2; exact IP|]. split; [exact G|]. split; [rewrite U; cbn; exact F|]. split.
  - intros c. rewrite N2, plain_names. cbn [In]. split; [intros [<-|[X|[X|[X|X]]]]|intros [X|[X|[X|[X|[X|[]]]]]]]; auto 10.
  - intros c i v. destruct (in_dec string_dec "sed_filename"%string (names (to_frame g))) as [I|I].
    + destruct SP as [-> _]; [apply NS; exact I|]. tauto.
    + destruct SA as [_ [a [A B]]]; [rewrite NS; exact I|]. rewrite B. split.
      * intros [X|[-> [x [X Y]]]]; [left; exact X|right]. split; [exact I|]. split; [reflexivity|]. exists a, x. auto.
      * intros [X|[_ [-> [a' [x [X [Y Z']]]]]]]; [left; exact X|right]. split; [reflexivity|]. exists x. split; [congruence|exact Z'].
Qed.
(** rejected: the table that was there stays *)
Lemma rejected : forall draws o g e, u_result (set_orbits draws o g) = Err e -> o_orbits (u_self (set_orbits draws o g)) = o_orbits o.
Proof.
  intros draws o g e. unfold set_orbits. set (f0 := drop "index" (to_frame g)). destruct (Nat.eqb (rows f0) 0); [reflexivity|].
  destruct (stated f0) as [[fm f1] [x|]]; [reflexivity|]. destruct (match fm with Some c => Ok c | None => guess f1 end) as [fmt|]; [|reflexivity].
  destruct (check_epoch f1); [|reflexivity]. destruct (fill_sed _ _ _) as [[f2 k]|]; [|reflexivity]. destruct (required fmt f2); [discriminate|reflexivity].
Qed.
Lemma given_kept : forall draws o g, (forall f, g <> DataFrame f) -> u_given (set_orbits draws o g) = g.
Proof.
  intros draws o g N. assert (A : forall f, after g f = g) by (intros f; destruct g as [f'| |]; [destruct (N f' eq_refl)|reflexivity|reflexivity]).
  unfold set_orbits. set (f0 := drop "index" (to_frame g)). destruct (Nat.eqb (rows f0) 0); [cbn; apply A|].
  destruct (stated f0) as [[fm f1] [x|]]; [cbn; apply A|]. destruct (match fm with Some c => Ok c | None => guess f1 end) as [fmt|]; [|cbn; apply A].
  destruct (check_epoch f1); [|cbn; apply A]. destruct (fill_sed _ _ _) as [[f2 k]|]; [|cbn; apply A]. destruct (required fmt f2); cbn; apply A.
Qed.
Lemma given_frame : forall draws o f, exists f', u_given (set_orbits draws o (DataFrame f)) = DataFrame f' /\ f_index f' = count (rows f) /\
  (f' = drop "index" (to_frame (DataFrame f)) \/ f' = drop "FORMAT" (drop "index" (to_frame (DataFrame f)))).
Proof.
  intros draws o f. unfold set_orbits. set (f0 := drop "index" (to_frame (DataFrame f))). destruct (Nat.eqb (rows f0) 0); [exists f0; cbn; auto|].
  assert (S : snd (fst (stated f0)) = f0 \/ snd (fst (stated f0)) = drop "FORMAT" f0).
  { unfold stated. destruct (column f0 "FORMAT") as [[|c t]|]; cbn; auto. destruct (_ && _)%bool; cbn; auto. }
  destruct (stated f0) as [[fm f1] e]. cbn in S. exists f1. split.
  - destruct e as [x|]; [reflexivity|]. destruct (match fm with Some c => Ok c | None => guess f1 end) as [fmt|]; [|reflexivity].
    destruct (check_epoch f1); [|reflexivity]. destruct (fill_sed _ _ _) as [[f2 k]|]; [|reflexivity]. destruct (required fmt f2); reflexivity.
  - split; [destruct S as [-> | ->]; reflexivity|exact S].
Qed.
(** ** the semi-major axis *)
Lemma axes_a : forall f a i x, wf f -> axes f = Ok a -> holds f "a" i (Num x) -> nth_error a i = Some (Finite x).
Proof.
  intros f a i x W A H. unfold axes in A. assert (N := holds_names _ _ _ _ H). apply has_in in N. rewrite N in A.
  destruct H as [l [I E]]. apply column_ok in I; [|exact W]. rewrite I in A. cbn [bind] in A. apply (all_ok_nth _ _ A). rewrite nth_error_map, E. reflexivity.
Qed.
Lemma nth_combine : forall {A B} (l : list A) (m : list B) i x y, nth_error l i = Some x -> nth_error m i = Some y -> nth_error (combine l m) i = Some (x, y).
Proof.
  intros A B l. induction l as [|a l IH]; intros m i x y H K; [destruct i; discriminate|]. destruct m as [|b m]; [destruct i; discriminate|].
  destruct i as [|i]; cbn in *; [congruence|]. exact (IH m i x y H K).
Qed.
Lemma axes_q : forall f a i q e, wf f -> axes f = Ok a -> ~ In "a"%string (names f) -> holds f "q" i (Num q) -> holds f "e" i (Num e) ->
  exists x, nth_error a i = Some x /\ axis_q (Num q) (Num e) = Ok x.
Proof.
  intros f a i q e W A NA H H'. unfold axes in A. apply has_not in NA. rewrite NA in A. assert (N := holds_names _ _ _ _ H). apply has_in in N. rewrite N in A.
  destruct H as [l [I E]]. apply column_ok in I; [|exact W]. rewrite I in A. cbn [bind] in A. destruct H' as [l' [I' E']]. apply column_ok in I'; [|exact W].
  rewrite I' in A. cbn [bind] in A. destruct (axis_q (Num q) (Num e)) as [x|] eqn:X; [|cbn in X; discriminate]. exists x. split; [|reflexivity].
  apply (all_ok_nth _ _ A). rewrite nth_error_map, (nth_combine _ _ _ _ _ E E'). cbn [option_map fst snd]. rewrite X. reflexivity.
Qed.
Lemma axes_x : forall f a i x y z, wf f -> axes f = Ok a -> ~ In "a"%string (names f) -> ~ In "q"%string (names f) ->
  holds f "x" i (Num x) -> holds f "y" i (Num y) -> holds f "z" i (Num z) -> nth_error a i = Some (Finite (sqrt (x ^ 2 + y ^ 2 + z ^ 2))).
Proof.
  intros f a i x y z W A NA NQ H H' H''. unfold axes in A. apply has_not in NA. rewrite NA in A. apply has_not in NQ. rewrite NQ in A.
  assert (N := holds_names _ _ _ _ H). apply has_in in N. rewrite N in A.
  destruct H as [l [I E]]. apply column_ok in I; [|exact W]. rewrite I in A. cbn [bind] in A. destruct H' as [l' [I' E']]. apply column_ok in I'; [|exact W].
  rewrite I' in A. cbn [bind] in A. destruct H'' as [l'' [I'' E'']]. apply column_ok in I''; [|exact W]. rewrite I'' in A. cbn [bind] in A.
  apply (all_ok_nth _ _ A). rewrite nth_error_map, (nth_combine _ _ _ _ _ (nth_combine _ _ _ _ _ E E') E''). reflexivity.
Qed.
