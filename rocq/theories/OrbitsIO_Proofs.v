(** Packing and unpacking orbits, and update_orbits. *)
From Coq Require Import Reals Lra Lia FinFun.
From Verif Require Import Base Orbits_Model Orbits_Spec Orbits_Proofs Orbits_Proofs2 Orbits_Proofs3 Orbits_Props Orbits_Props2 OrbitsIO_Model.
Open Scope R_scope.

Definition num_of (c : cell) : num := match c with Num x => Some x | _ => None end.
Definition col_of (f : frame) (c : string) : list cell := match column f c with Ok l => l | Err _ => [] end.
Lemma col_of_in : forall f c, wf f -> In c (names f) -> In (c, col_of f c) (f_cols f) /\ column f c = Ok (col_of f c) /\ length (col_of f c) = rows f.
Proof.
  intros f c W I. destruct (column_has f c I) as [l E]. unfold col_of. rewrite E. assert (J := E). apply column_ok in J; [|exact W].
  split; [exact J|]. split; [reflexivity|exact (proj2 W _ _ J)].
Qed.
Lemma all_ok_nums : forall l, (forall v s, In v l -> v <> Txt s) -> all_ok (map to_num l) = Ok (map num_of l).
Proof. intros l H. apply all_ok_map. intros v I. destruct v as [x|s|]; [reflexivity|destruct (H _ s I eq_refl)|reflexivity]. Qed.
Lemma numeric_col : forall f c, wf f -> In c (names f) -> numeric f c -> forall v s, In v (col_of f c) -> v <> Txt s.
Proof. intros f c W I N v s J. destruct (col_of_in f c W I) as [K _]. exact (col_numeric f c _ W N K v J s). Qed.
Lemma pack_ok : forall f c conv, wf f -> In c (names f) -> numeric f c -> pack f c conv = Ok (map conv (map num_of (col_of f c))).
Proof.
  intros f c conv W I N. destruct (col_of_in f c W I) as [_ [E _]]. unfold pack. rewrite E. cbn [bind]. rewrite all_ok_nums by (apply numeric_col; assumption). reflexivity.
Qed.
Lemma pack_all : forall f (l : list (string * (num -> num))), wf f -> (forall c, In c (map fst l) -> In c (names f) /\ numeric f c) ->
  all_ok (map (fun p => pack f (fst p) (snd p)) l) = Ok (map (fun p => map (snd p) (map num_of (col_of f (fst p)))) l).
Proof.
  intros f l W H. apply all_ok_map. intros p I. destruct (H (fst p)) as [A B]; [apply in_map; exact I|]. apply pack_ok; assumption.
Qed.
Lemma degrees_radians : forall x, degrees (radians x) = x.
Proof. intros [x|]; [|reflexivity]. cbn. f_equal. field. apply PI_neq0. Qed.
Lemma num_back : forall v, (forall s, v <> Txt s) -> of_num (num_of v) = v.
Proof. intros [x|s|] H; [reflexivity|destruct (H s eq_refl)|reflexivity]. Qed.
Lemma back_col : forall (conv back : num -> num) l, (forall x, back (conv x) = x) -> (forall v s, In v l -> v <> Txt s) ->
  map (fun x => of_num (back x)) (map conv (map num_of l)) = l.
Proof.
  intros conv back l B H. rewrite !map_map. rewrite <- (map_id l) at 2. apply map_ext_in. intros v I. rewrite B. apply num_back. intros s. exact (H v s I).
Qed.
(** the columns of a format, as pyoorb's elements come back *)
Definition element_table (f : frame) (cols : list string) : frame := {| f_index := count (rows f); f_cols := map (fun c => (c, col_of f c)) cols |}.
Lemma round_trip : forall f fmt els, wf f -> elements fmt els ->
  (forall c, In c (els ++ ["epoch"; "H"; "g"]%string) -> In c (names f) /\ numeric f c) ->
  exists cols, to_oorb f fmt = Ok cols /\ length cols = 12%nat /\ from_oorb fmt cols = Ok (element_table f (els ++ ["epoch"; "H"; "g"]%string)).
Proof.
  intros f fmt els W E H.
  assert (P : forall c conv, In c (els ++ ["epoch"; "H"; "g"]%string) -> pack f c conv = Ok (map conv (map num_of (col_of f c))))
    by (intros c conv I; apply pack_ok; [exact W|apply H; exact I|apply H; exact I]).
  assert (B : forall c (conv back : num -> num), In c (els ++ ["epoch"; "H"; "g"]%string) -> (forall x, back (conv x) = x) ->
    map (fun x => of_num (back x)) (map conv (map num_of (col_of f c))) = col_of f c).
  { intros c conv back I X. apply back_col; [exact X|]. destruct (H c I) as [A1 A2]. apply numeric_col; assumption. }
  assert (ID : forall x : num, x = x) by reflexivity.
  assert (DR := degrees_radians).
  assert (LE : @length num (@map nat (option R) (fun i => Some (INR i + 1)) (seq 0 (rows f))) = rows f) by (rewrite map_length, seq_length; reflexivity).
  unfold to_oorb. destruct E; cbn [elem_type time_scales oorb_elements String.eqb Ascii.eqb Bool.eqb bind];
    (rewrite pack_all by (first [exact W|intros c I; apply H; cbn in I |- *; tauto]));
    rewrite !P by (cbn; tauto); cbn [bind];
    (eexists; split; [reflexivity|]; split; [reflexivity|]);
    unfold from_oorb; cbn [table_elements String.eqb Ascii.eqb Bool.eqb bind]; cbn [map app nth combine fst snd];
    rewrite LE; unfold element_table; cbn [map app]; repeat rewrite B by (first [assumption|cbn; tauto|reflexivity]); reflexivity.
Qed.
Lemma element_table_names : forall f cols, names (element_table f cols) = cols.
Proof. intros f cols. unfold names, element_table. cbn [f_cols]. rewrite map_map. cbn. apply map_id. Qed.
Lemma element_table_holds : forall f cols c i v, wf f -> (forall d, In d cols -> In d (names f)) ->
  (holds (element_table f cols) c i v <-> In c cols /\ holds f c i v).
Proof.
  intros f cols c i v W H. unfold holds, element_table. cbn [f_cols]. split.
  - intros [l [I N]]. apply in_map_iff in I. destruct I as [d [X I]]. injection X as -> <-. split; [exact I|]. exists (col_of f c).
    split; [apply col_of_in; auto|exact N].
  - intros [I [l [J N]]]. exists (col_of f c). split; [apply in_map_iff; exists c; auto|].
    assert (l = col_of f c) by (apply (unique_col _ _ _ _ (proj1 W) J); apply col_of_in; auto). subst l. exact N.
Qed.
Lemma element_table_wf : forall f cols, wf f -> NoDup cols -> (forall d, In d cols -> In d (names f)) -> wf (element_table f cols).
Proof.
  intros f cols W N H. split; [rewrite element_table_names; exact N|]. intros c l I. unfold element_table in I. cbn [f_cols] in I. apply in_map_iff in I.
  destruct I as [d [X I]]. injection X as -> <-. unfold rows at 1. cbn [element_table f_index]. rewrite count_length. apply col_of_in; auto.
Qed.
Lemma elements_nodup : forall fmt els, elements fmt els -> NoDup (els ++ ["epoch"; "H"; "g"]%string).
Proof. intros fmt els E. destruct E; cbn; repeat constructor; cbn; intuition discriminate. Qed.

(** ** joining by labels *)
Lemma find_label : forall (ix : list Z) (l : list cell) i k v, NoDup ix -> nth_error ix i = Some k -> nth_error l i = Some v ->
  find (fun p => (fst p =? k)%Z) (combine ix l) = Some (k, v).
Proof.
  intros ix. induction ix as [|x ix IH]; intros l i k v N A B; [destruct i; discriminate|]. destruct l as [|y l]; [destruct i; discriminate|].
  inversion N as [|? ? NI N']; subst. destruct i as [|i]; cbn in A, B |- *.
  - injection A as ->. injection B as ->. rewrite Z.eqb_refl. reflexivity.
  - destruct (Z.eqb_spec x k) as [->|_]; [destruct NI; exact (nth_error_In _ _ A)|]. exact (IH l i k v N' A B).
Qed.
Lemma find_label_none : forall (ix : list Z) (l : list cell) k, ~ In k ix -> find (fun p => (fst p =? k)%Z) (combine ix l) = None.
Proof.
  intros ix. induction ix as [|x ix IH]; intros l k N; [reflexivity|]. destruct l as [|y l]; [reflexivity|]. cbn.
  destruct (Z.eqb_spec x k) as [->|_]; [destruct N; left; reflexivity|]. apply IH. intros I. apply N. right. exact I.
Qed.
Lemma join_column : forall f c, wf f -> NoDup (f_index f) -> In c (names f) -> all_ok (map (joined f c) (f_index f)) = Ok (col_of f c).
Proof.
  intros f c W N I. destruct (col_of_in f c W I) as [_ [E L]].
  rewrite (all_ok_map _ (fun k => match find (fun p => (fst p =? k)%Z) (combine (f_index f) (col_of f c)) with Some p => snd p | None => Nan end)).
  2:{ intros k _. unfold joined. rewrite E. reflexivity. }
  f_equal. apply nth_ext with (d := Nan) (d' := Nan).
  - rewrite map_length. symmetry. exact L.
  - intros i Hi. rewrite map_length in Hi. 
    set (h := fun k => match find (fun p => (fst p =? k)%Z) (combine (f_index f) (col_of f c)) with Some p => snd p | None => Nan end).
    rewrite (nth_indep _ Nan (h 0%Z)) by (rewrite map_length; exact Hi). rewrite map_nth. unfold h.
    rewrite (find_label (f_index f) (col_of f c) i (nth i (f_index f) 0%Z) (nth i (col_of f c) Nan) N); [reflexivity| |].
    + apply nth_error_nth'. exact Hi.
    + apply nth_error_nth'. rewrite L. exact Hi.
Qed.
(** the table given to set_orbits *)
Definition merged (f new : frame) : frame :=
  {| f_index := f_index new; f_cols := ("obj_id"%string, col_of f "obj_id") :: f_cols new ++ [("sed_filename"%string, col_of f "sed_filename")] |}.
Lemma join_ok : forall f new, wf f -> NoDup (f_index f) -> In "obj_id"%string (names f) -> In "sed_filename"%string (names f) -> f_index new = f_index f ->
  ~ In "obj_id"%string (names new) -> ~ In "sed_filename"%string (names new) -> join_ids f new = Ok (merged f new).
Proof.
  intros f new W N I J E A B. unfold join_ids. apply has_not in A. apply has_not in B. rewrite A, B. cbn [Datatypes.orb]. rewrite E.
  rewrite !join_column by assumption. cbn [bind]. unfold merged. rewrite E. reflexivity.
Qed.
Lemma join_inv : forall f new j, join_ids f new = Ok j -> ~ In "obj_id"%string (names new) /\ ~ In "sed_filename"%string (names new).
Proof.
  intros f new j. unfold join_ids. destruct (has "obj_id" new) eqn:A; [discriminate|]. destruct (has "sed_filename" new) eqn:B; [discriminate|].
  intros _. split; apply has_not; assumption.
Qed.
Lemma merged_names : forall f new c, In c (names (merged f new)) <-> c = "obj_id"%string \/ In c (names new) \/ c = "sed_filename"%string.
Proof.
  intros f new c. unfold names, merged. cbn [f_cols map fst In]. rewrite map_app, in_app_iff. cbn. firstorder congruence.
Qed.
Lemma merged_holds : forall f new c i v, wf f -> In "obj_id"%string (names f) -> In "sed_filename"%string (names f) ->
  (holds (merged f new) c i v <-> holds new c i v \/ (c = "obj_id" \/ c = "sed_filename")%string /\ holds f c i v).
Proof.
  intros f new c i v W I J. destruct (col_of_in f _ W I) as [KI _]. destruct (col_of_in f _ W J) as [KJ _]. unfold holds, merged. cbn [f_cols]. split.
  - intros [l [K N]]. destruct K as [K|K]; [injection K as <- <-; right; split; [left; reflexivity|]; exists (col_of f "obj_id"); auto|].
    apply in_app_iff in K. destruct K as [K|[K|[]]]; [left; exists l; auto|]. injection K as <- <-. right. split; [right; reflexivity|]. exists (col_of f "sed_filename"). auto.
  - intros [[l [K N]]|[[-> | ->] [l [K N]]]].
    + exists l. split; [right; apply in_app_iff; left; exact K|exact N].
    + assert (l = col_of f "obj_id") by exact (unique_col _ _ _ _ (proj1 W) K KI). subst l. exists (col_of f "obj_id"). split; [left; reflexivity|exact N].
    + assert (l = col_of f "sed_filename") by exact (unique_col _ _ _ _ (proj1 W) K KJ). subst l. exists (col_of f "sed_filename").
      split; [right; apply in_app_iff; right; left; reflexivity|exact N].
Qed.
Lemma merged_wf : forall f new, wf f -> wf new -> rows new = rows f -> In "obj_id"%string (names f) -> In "sed_filename"%string (names f) ->
  ~ In "obj_id"%string (names new) -> ~ In "sed_filename"%string (names new) -> wf (merged f new).
Proof.
  intros f new W WN R I J A B. destruct (col_of_in f _ W I) as [_ [_ LI]]. destruct (col_of_in f _ W J) as [_ [_ LJ]]. split.
  - unfold names, merged. cbn [f_cols map fst]. rewrite map_app. cbn. constructor.
    + rewrite in_app_iff. intros [X|[X|[]]]; [exact (A X)|discriminate].
    + apply (NoDup_Add (a := "sed_filename"%string) (l := map fst (f_cols new))).
      * rewrite <- (app_nil_r (map fst (f_cols new))) at 1. apply Add_app.
      * split; [exact (proj1 WN)|exact B].
  - intros c l K. unfold rows. cbn [merged f_index]. fold (rows new). rewrite R. unfold merged in K. cbn [f_cols] in K. destruct K as [K|K]; [injection K as <- <-; exact LI|].
    apply in_app_iff in K. destruct K as [K|[K|[]]]; [rewrite <- R; exact (proj2 WN _ _ K)|injection K as <- <-; exact LJ].
Qed.
Lemma count_nodup : forall n, NoDup (count n).
Proof. intros n. unfold count. apply Injective_map_NoDup; [intros a b E; lia|apply seq_NoDup]. Qed.
(** what update_orbits leaves *)
Lemma update_stored : forall draws o f fmt new o', holding o f fmt -> NoDup (f_index f) -> wf new -> f_index new = f_index f -> update_orbits draws o new = Ok o' ->
  exists f' fmt', holding o' f' fmt' /\ chosen (merged f new) fmt' /\ rows f' = rows f /\
  (forall c i v, (c = "obj_id" \/ c = "sed_filename")%string -> (holds f' c i v <-> holds f c i v)) /\
  (forall c i v, c <> "FORMAT"%string -> c <> "index"%string -> holds new c i v -> holds f' c i v) /\
  (forall c i v, holds f' c i v -> (c = "obj_id" \/ c = "sed_filename")%string \/ holds new c i v \/
     ~ In c (names new) /\ (c = "H"%string /\ v = Num 20 \/ c = "g"%string /\ v = Num 0.15)).
Proof.
  intros draws o f fmt new o' HO ND WN E U. unfold update_orbits, frame_of in U. rewrite (proj1 HO) in U. cbn [bind] in U.
  destruct (join_ids f new) as [j|] eqn:J; [|discriminate]. cbn [bind] in U. destruct (join_inv _ _ _ J) as [A B].
  destruct HO as [_ [_ [W [R [els [EL HC]]]]]].
  assert (II : In "obj_id"%string (names f)) by (apply HC; apply in_app_iff; right; cbn; tauto).
  assert (IS : In "sed_filename"%string (names f)) by (apply HC; apply in_app_iff; right; cbn; tauto).
  rewrite (join_ok f new W ND II IS E A B) in J. injection J as <-.
  assert (RN : rows new = rows f) by (unfold rows; rewrite E; reflexivity).
  assert (WM := merged_wf f new W WN RN II IS A B).
  destruct (u_result (set_orbits draws o (DataFrame (merged f new)))) as [[]|] eqn:OK; [|discriminate]. cbn [bind] in U. injection U as <-.
  destruct (ok_accepted _ _ _ OK) as [f' [fmt' AC]]. exists f', fmt'.
  destruct (C217_stored draws o (merged f new) f' fmt' WM AC) as [CH [HD [RR [K Q]]]].
  assert (W' := proj1 (proj2 (proj2 HD))).
  split; [exact HD|]. split; [exact CH|]. split; [rewrite RR; exact RN|]. split; [|split].
  - intros c i v C. split.
    + intros X. apply Q in X. destruct X as [[X _]|[X _]].
      * apply merged_holds in X; [|assumption..]. destruct X as [X|[_ X]]; [|exact X]. exfalso. apply holds_names in X. destruct C as [-> | ->]; contradiction.
      * exfalso. apply X. apply merged_names. destruct C as [-> | ->]; auto.
    + intros X. apply K; [apply merged_holds; auto|destruct C as [-> | ->]; discriminate|destruct C as [-> | ->]; discriminate].
  - intros c i v NF NI X. apply K; [apply merged_holds; auto|exact NF|exact NI].
  - intros c i v X. apply Q in X. destruct X as [[X _]|[X D]].
    + apply merged_holds in X; [|assumption..]. tauto.
    + rewrite merged_names in X. right. right. split; [tauto|]. destruct D as [[-> _]|[D|[D|[-> _]]]]; tauto.
Qed.
