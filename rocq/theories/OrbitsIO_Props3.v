(** Property C224, continued: what read_orbits leaves in the object. *)
From Coq Require Import Reals Lra Lia.
From Verif Require Import Base Orbits_Model Orbits_Spec Orbits_Proofs Orbits_Proofs2 Orbits_Proofs3 Orbits_Props Orbits_Props2.
From Verif Require Import OrbitsIO_Model OrbitsIO_Spec OrbitsIO_Proofs OrbitsIO_Proofs2 OrbitsIO_Props2.
Open Scope R_scope.

Lemma fold_nodup : forall t cols, apart t -> NoDup cols -> (forall p, In p t -> unambiguous p cols) -> NoDup (map (std t) cols).
Proof.
  intros t. induction t as [|p t IH]; intros cols A N U; [cbn; rewrite map_id; exact N|]. destruct A as [O [D A]].
  replace (map (std (p :: t)) cols) with (map (std t) (map (std1 p) cols)) by (rewrite map_map; reflexivity).
  apply IH; [exact A|apply std1_nodup; [exact O|exact N|apply U; left; reflexivity]|].
  intros q Q x y I J XQ YQ. apply (U q (or_intror Q)); try assumption; apply (std1_back p q cols); try assumption; intros c C; exact (D q c Q C).
Qed.
Lemma drop_all : forall l f, f_index (fold_left (fun f c => drop c f) l f) = f_index f /\
  forall p, In p (f_cols (fold_left (fun f c => drop c f) l f)) <-> In p (f_cols f) /\ ~ In (fst p) l.
Proof.
  intros l. induction l as [|c l IH]; intros f; [cbn; split; [reflexivity|tauto]|]. cbn [fold_left]. destruct (IH (drop c f)) as [A B]. split; [exact A|].
  intros p. rewrite B. unfold drop. cbn [f_cols In]. rewrite filter_In. destruct (String.eqb_spec (fst p) c) as [E|E]; cbn; intuition congruence.
Qed.
Lemma drop_nodup : forall l f, NoDup (names f) -> NoDup (names (fold_left (fun f c => drop c f) l f)).
Proof.
  intros l. induction l as [|c l IH]; intros f N; [exact N|]. cbn [fold_left]. apply IH. unfold names, drop. cbn [f_cols]. clear IH. unfold names in N.
  induction (f_cols f) as [|p r IHr]; [constructor|]. cbn in N. inversion N as [|? ? NI N']; subst. cbn. destruct (negb (String.eqb (fst p) c)); [|exact (IHr N')].
  cbn. constructor; [|exact (IHr N')]. intros I. apply NI. apply in_map_iff in I. destruct I as [q [E J]]. apply filter_In in J. rewrite <- E. apply in_map. tauto.
Qed.
(** what a column is called *)
Definition meaning (c s : string) : Prop := In (c, s) documented \/ s = c /\ forall t, ~ In (c, t) documented.
Lemma std_meaning : forall c, ~ lost c -> meaning c (std alt_names c).
Proof.
  intros c NL. destruct (in_dec string_dec c (flat_map snd alt_names)) as [Y|Y].
  - apply in_flat_map in Y. destruct Y as [p [P Q]]. left. rewrite (std_own alt_names p c alt_apart P Q). apply alt_doc; assumption.
  - right. split; [apply std_other; intros p P Q; apply Y; apply in_flat_map; exists p; auto|].
    intros t T. destruct (doc_alt c t T NL) as [p [P [Q _]]]. apply Y. apply in_flat_map. exists p. auto.
Qed.
Lemma table_read : forall parse nms data, NoDup nms -> (forall c, In c nms -> ~ lost c) ->
  (forall c d s, In c nms -> In d nms -> In (c, s) documented -> In (d, s) documented -> c = d) ->
  exists f, to_table parse nms data = Ok f /\ wf f /\ rows f = length data /\
  (forall k c, nth_error nms k = Some c -> ~ In c unneeded -> In (std alt_names c, map (fun l => parse (nth k l ""%string)) data) (f_cols f)) /\
  (forall s, In s (names f) -> exists c, In c nms /\ ~ In c unneeded /\ s = std alt_names c).
Proof.
  intros parse nms data ND NL U. unfold to_table. cbv zeta. set (f0 := {| f_index := count (length data); f_cols := _ |}).
  assert (N0 : names f0 = nms).
  { unfold names, f0. cbn [f_cols]. rewrite map_map. cbn [fst]. clear. induction nms as [|c nms IH]; [reflexivity|]. cbn [length seq map nth]. f_equal. rewrite <- seq_shift, map_map. exact IH. }
  destruct (drop_all unneeded f0) as [DI DC]. assert (DN := drop_nodup unneeded f0). rewrite N0 in DN. specialize (DN ND).
  set (f1 := fold_left _ unneeded f0) in *.
  assert (SUB : forall c, In c (map fst (f_cols f1)) <-> In c nms /\ ~ In c unneeded).
  { intros c. rewrite <- N0. unfold names. rewrite !in_map_iff. split.
    - intros [p [E I]]. apply DC in I. destruct I as [I NU]. rewrite <- E. split; [exists p; auto|exact NU].
    - intros [[p [E I]] NU]. exists p. split; [exact E|]. apply DC. rewrite E. auto. }
  assert (AMB : forall p, In p alt_names -> unambiguous p (map fst (f_cols f1))).
  { intros p P c d C D CP DP. apply SUB in C. apply SUB in D. apply (U c d (fst p)); try tauto; apply alt_doc; try assumption; apply NL; tauto. }
  unfold standard_names. change (fun r p => do c <- r; rename p c) with step. rewrite (fold_ok alt_names (map fst (f_cols f1)) alt_apart DN AMB). cbn [bind].
  eexists. split; [reflexivity|].
  assert (FC : combine (map (std alt_names) (map fst (f_cols f1))) (map snd (f_cols f1)) = map (fun p => (std alt_names (fst p), snd p)) (f_cols f1)).
  { clear. induction (f_cols f1) as [|p r IH]; [reflexivity|]. cbn [map combine]. f_equal. exact IH. }
  rewrite FC. assert (NM : map fst (map (fun p : string * list cell => (std alt_names (fst p), snd p)) (f_cols f1)) = map (std alt_names) (map fst (f_cols f1)))
    by (rewrite !map_map; reflexivity).
  assert (RF : length (f_index f1) = length data) by (rewrite DI; unfold f0; cbn [f_index]; apply count_length).
  split; [split|split; [|split]].
  - unfold names. cbn [f_cols]. rewrite NM. apply (fold_nodup alt_names _ alt_apart DN AMB).
  - intros c l I. cbn [f_cols] in I. apply in_map_iff in I. destruct I as [p [E I]]. apply (f_equal snd) in E. cbn [snd] in E. subst l. apply DC in I. destruct I as [I _].
    unfold f0 in I. cbn [f_cols] in I. apply in_map_iff in I. destruct I as [k [<- _]]. cbn [snd]. rewrite map_length. symmetry. exact RF.
  - exact RF.
  - intros k c N NU. cbn [f_cols]. apply in_map_iff. exists (c, map (fun l => parse (nth k l ""%string)) data). split; [reflexivity|]. apply DC. split; [|exact NU].
    unfold f0. cbn [f_cols]. apply in_map_iff. exists k. split; [f_equal; exact (nth_error_nth _ _ _ N)|]. apply in_seq. assert ((k < length nms)%nat) by (apply nth_error_Some; congruence). lia.
  - intros s I. unfold names in I. cbn [f_cols] in I. rewrite NM in I. apply in_map_iff in I. destruct I as [c [<- I]]. apply SUB in I. exists c. tauto.
Qed.
(** Statement: read_orbits leaves one row per line of data, and in it every value of the file under the standard name of its column. *)
Theorem C224_values_partial : forall is_float parse draws o lines fields nms data o', read_table is_float lines fields = Ok (nms, data) ->
  NoDup nms -> (forall c, In c nms -> ~ lost c) ->
  (forall c d s, In c nms -> In d nms -> In (c, s) documented -> In (d, s) documented -> c = d) ->
  read_orbits is_float parse draws o lines fields = Ok o' ->
  exists f' fmt, holding o' f' fmt /\ rows f' = length data /\
  forall k i c l w, nth_error nms k = Some c -> ~ In c ["INDEX"; "N_PAR"; "MOID"; "COMPCODE"; "tmp"; "FORMAT"; "index"]%string ->
    nth_error data i = Some l -> nth_error l k = Some w -> exists s, meaning c s /\ holds f' s i (parse w).
Proof.
  intros is_float parse draws o lines fields nms data o' T ND NL U RO. unfold read_orbits in RO. rewrite T in RO. cbn [bind fst snd] in RO.
  destruct (table_read parse nms data ND NL U) as [f [E [W [R [C _]]]]]. rewrite E in RO. cbn [bind] in RO.
  destruct (u_result (set_orbits draws o (DataFrame f))) as [[]|] eqn:OK; [|discriminate]. cbn [bind] in RO. injection RO as <-.
  destruct (ok_accepted _ _ _ OK) as [f' [fmt AC]]. destruct (C217_stored _ _ _ _ _ W AC) as [_ [HD [RR [K _]]]].
  exists f', fmt. split; [exact HD|]. split; [congruence|]. intros k i c l w N NU D L. exists (std alt_names c).
  assert (M : meaning c (std alt_names c)) by (apply std_meaning; apply NL; exact (nth_error_In _ _ N)).
  assert (NU' : ~ In c unneeded) by (intros X; apply NU; cbn in X |- *; tauto).
  split; [exact M|]. apply K.
  - eexists. split; [exact (C k c N NU')|]. erewrite (map_nth_error (fun l => parse (nth k l ""%string)) i data D). f_equal. f_equal. exact (nth_error_nth _ _ _ L).
  - intros X. rewrite X in M. destruct M as [M|[M _]]; [|apply NU; rewrite <- M; cbn; tauto].
    assert (G : forallb (fun q => negb (String.eqb (snd q) "FORMAT")) documented = true) by (vm_compute; reflexivity). rewrite forallb_forall in G. specialize (G _ M). discriminate.
  - intros X. rewrite X in M. destruct M as [M|[M _]]; [|apply NU; rewrite <- M; cbn; tauto].
    assert (G : forallb (fun q => negb (String.eqb (snd q) "index")) documented = true) by (vm_compute; reflexivity). rewrite forallb_forall in G. specialize (G _ M). discriminate.
Qed.
Print Assumptions C224_values_partial.
(** Statement: negative inclinations are not supported (the code builds a ValueError for them).  They are accepted: the exception is not
    raised *)
Definition words : string -> cell := fun w => if String.eqb w "o1" then Txt "o1" else if String.eqb w "-5" then Num (-5) else if String.eqb w "59000" then Num 59000 else Num 1.
Definition number : string -> bool := fun w => mem w ["1"; "-5"; "59000"]%string.
Definition tilted : list (list string) :=
  [["OID"; "a"; "ecc"; "i"; "node"; "w"; "M"; "t_0"; "COMPCODE"]; ["o1"; "1"; "1"; "-5"; "1"; "1"; "1"; "59000"; "1"]]%string.
Definition tilted_table : frame := {| f_index := [0%Z]; f_cols := [("obj_id", [Txt "o1"]); ("a", [Num 1]); ("e", [Num 1]); ("inc", [Num (-5)]); ("Omega", [Num 1]);
  ("argPeri", [Num 1]); ("meanAnomaly", [Num 1]); ("epoch", [Num 59000])]%string |}.
Lemma tilted_read : read_table number tilted tilted = Ok (["OID"; "a"; "ecc"; "i"; "node"; "w"; "M"; "t_0"; "COMPCODE"]%string, [["o1"; "1"; "1"; "-5"; "1"; "1"; "1"; "59000"; "1"]%string]).
Proof. vm_compute. reflexivity. Qed.
Lemma tilted_to : to_table words ["OID"; "a"; "ecc"; "i"; "node"; "w"; "M"; "t_0"; "COMPCODE"]%string [["o1"; "1"; "1"; "-5"; "1"; "1"; "1"; "59000"; "1"]%string] = Ok tilted_table.
Proof. reflexivity. Qed.
Lemma tilted_ok : forall draws o, exists o', read_orbits number words draws o tilted tilted = Ok o'.
Proof.
  intros draws o. unfold read_orbits. rewrite tilted_read. cbn [bind fst snd]. rewrite tilted_to. cbn [bind].
  assert (OK : u_result (set_orbits draws o (DataFrame tilted_table)) = Ok tt).
  { apply C217_accepts.
    - split; [cbn; repeat constructor; cbn; intuition discriminate|]. intros c l I. cbn in I. repeat (destruct I as [I|I]; [injection I as <- <-; reflexivity|]). destruct I.
    - intros c K i s [l [X Y]]. apply nth_error_In in Y. cbn in X.
      repeat (destruct X as [X|X]; [injection X as <- <-; cbn in Y, K; intuition discriminate|]). destruct X.
    - exists "KEP"%string. split; [discriminate|]. split; [apply ch_kep; cbn; intuition discriminate|]. split; [eexists; split; [constructor|intros c I; cbn in I |- *; tauto]|].
      split; [|cbn; intuition discriminate]. exists (Num 59000). split; [eexists; split; [do 7 right; left; reflexivity|reflexivity]|]. intros x X. injection X as <-. lra. }
  rewrite OK. eexists. reflexivity.
Qed.
Lemma tilted_names : NoDup ["OID"; "a"; "ecc"; "i"; "node"; "w"; "M"; "t_0"; "COMPCODE"]%string /\
  (forall c, In c ["OID"; "a"; "ecc"; "i"; "node"; "w"; "M"; "t_0"; "COMPCODE"]%string -> ~ lost c) /\
  (forall c d s, In c ["OID"; "a"; "ecc"; "i"; "node"; "w"; "M"; "t_0"; "COMPCODE"]%string -> In d ["OID"; "a"; "ecc"; "i"; "node"; "w"; "M"; "t_0"; "COMPCODE"]%string ->
    In (c, s) documented -> In (d, s) documented -> c = d).
Proof.
  split; [repeat (constructor; [cbn [In]; intuition discriminate|]); constructor|]. split.
  - intros c I L. unfold lost in L. destruct L as [->|[->| ->]]; cbn [In] in I; intuition discriminate.
  - assert (G : forallb (fun c => forallb (fun d => String.eqb c d || forallb (fun p => negb (String.eqb (fst p) c) || forallb (fun q => negb (String.eqb (fst q) d) || negb (String.eqb (snd p) (snd q))) documented) documented)
      ["OID"; "a"; "ecc"; "i"; "node"; "w"; "M"; "t_0"; "COMPCODE"]%string) ["OID"; "a"; "ecc"; "i"; "node"; "w"; "M"; "t_0"; "COMPCODE"]%string = true) by (vm_compute; reflexivity).
    intros c d s C D P Q. rewrite forallb_forall in G. specialize (G c C). cbn beta in G. rewrite forallb_forall in G. specialize (G d D). apply orb_prop in G.
    destruct G as [G|G]; [apply String.eqb_eq; exact G|]. exfalso. rewrite forallb_forall in G. specialize (G _ P). cbn [fst snd] in G. rewrite String.eqb_refl in G. cbn [negb Datatypes.orb] in G.
    rewrite forallb_forall in G. specialize (G _ Q). cbn [fst snd] in G. rewrite !String.eqb_refl in G. discriminate.
Qed.
Theorem C224_inclination_refuted : ~ (forall is_float parse draws o lines o' f' fmt, read_orbits is_float parse draws o lines lines = Ok o' -> holding o' f' fmt ->
  forall i x, holds f' "inc" i (Num x) -> 0 <= x).
Proof.
  intros C. destruct (tilted_ok (fun _ => 0) fresh) as [o' RO]. destruct tilted_names as [A [B D]].
  destruct (C224_values_partial number words _ _ _ _ _ _ o' tilted_read A B D RO) as [f' [fmt [HD [_ H]]]].
  destruct (H 3%nat 0%nat "i"%string ["o1"; "1"; "1"; "-5"; "1"; "1"; "1"; "59000"; "1"]%string "-5"%string eq_refl) as [s [M X]];
    [cbn [In]; intuition discriminate|reflexivity|reflexivity|].
  assert (s = "inc"%string).
  { destruct M as [M|[_ M]].
    - assert (G : forallb (fun q => negb (String.eqb (fst q) "i") || String.eqb (snd q) "inc") documented = true) by (vm_compute; reflexivity).
      rewrite forallb_forall in G. specialize (G _ M). cbn [fst snd] in G. apply String.eqb_eq. exact G.
    - destruct (M "inc"%string). unfold documented. do 15 right. left. reflexivity. }
  subst s. change (words "-5") with (Num (-5)) in X. assert (Y := C _ _ _ _ _ _ _ _ RO HD _ _ X). lra.
Qed.
Print Assumptions C224_inclination_refuted.
Example C224_case : read_table number tilted tilted = Ok (["OID"; "a"; "ecc"; "i"; "node"; "w"; "M"; "t_0"; "COMPCODE"]%string, [["o1"; "1"; "1"; "-5"; "1"; "1"; "1"; "59000"; "1"]%string]) /\
  NoDup ["OID"; "a"; "ecc"; "i"; "node"; "w"; "M"; "t_0"; "COMPCODE"]%string /\ (exists o', read_orbits number words (fun _ => 0) fresh tilted tilted = Ok o') /\
  standard_names ["q"; "incl"; "i"]%string = Err ValueError.
Proof. split; [exact tilted_read|]. split; [exact (proj1 tilted_names)|]. split; [apply tilted_ok|]. vm_compute. reflexivity. Qed.
