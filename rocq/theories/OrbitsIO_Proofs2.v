(** Reading orbits: the header and the standard column names. *)
From Coq Require Import Reals Lra Lia.
From Verif Require Import Base Orbits_Model Orbits_Spec OrbitsIO_Model OrbitsIO_Spec.
Open Scope R_scope.

(** ** scan *)
Lemma scan_data : forall is_float l r skip h, data_line is_float l -> scan is_float (l :: r) skip h = (skip, h).
Proof. intros is_float l r skip h [w [E F]]. cbn [scan]. rewrite E, F. reflexivity. Qed.
Lemma scan_other : forall is_float l r skip h, ~ data_line is_float l -> scan is_float (l :: r) skip h = scan is_float r (skip + 1) (Some l).
Proof.
  intros is_float l r skip h N. cbn [scan]. destruct (nth_error l 3) as [w|] eqn:E; [|reflexivity]. destruct (is_float w) eqn:F; [|reflexivity].
  destruct N. exists w. auto.
Qed.
Lemma scan_pre : forall is_float pre hd data skip h, (forall l, In l (pre ++ [hd]) -> ~ data_line is_float l) ->
  (match data with [] => True | l :: _ => data_line is_float l end) ->
  scan is_float (pre ++ [hd] ++ data) skip h = ((skip + Z.of_nat (length pre) + 1)%Z, Some hd).
Proof.
  intros is_float pre. induction pre as [|l pre IH]; intros hd data skip h N D.
  - cbn [app length]. rewrite scan_other by (apply N; left; reflexivity). destruct data as [|d data]; [cbn; f_equal; lia|]. rewrite scan_data by exact D. f_equal. lia.
  - cbn [app length]. rewrite scan_other by (apply N; left; reflexivity). change (pre ++ hd :: data) with (pre ++ [hd] ++ data).
    rewrite IH; [f_equal; lia| |exact D]. intros k I. apply N. right. exact I.
Qed.
Definition blank (l : list string) : bool := Nat.eqb (length l) 0.
Lemma read_csv_ok : forall lines skip names, let data := filter (fun l => negb (blank l)) (skipn skip lines) in
  data <> [] -> (forall l, In l data -> length l = length names) -> read_csv lines skip names = Ok data.
Proof.
  intros lines skip names data N H. unfold read_csv. change (filter (fun l => negb (Nat.eqb (length l) 0)) (skipn skip lines)) with data.
  assert (F : forallb (fun l => Nat.eqb (length l) (length names)) data = true) by (apply forallb_forall; intros l I; apply Nat.eqb_eq; exact (H l I)).
  rewrite F. destruct data; [congruence|reflexivity].
Qed.
Lemma with_header : forall is_float pre hd names data, header_of hd names -> (forall l, In l (pre ++ [hd]) -> ~ data_line is_float l) ->
  (match data with [] => False | l :: _ => data_line is_float l end) -> (forall l, In l data -> l = [] \/ length l = length names) ->
  let lines := pre ++ [hd] ++ data in
  read_table is_float lines lines = Ok (names, filter (fun l => negb (blank l)) data).
Proof.
  intros is_float pre hd names data H N D L lines. unfold read_table, lines. rewrite scan_pre; [|exact N|destruct data; [exact I|exact D]].
  assert (HN : header_names (Some hd) (-1 + Z.of_nat (length pre) + 1) = Ok (Some names, Z.of_nat (length pre + 1))).
  { destruct H as [m r M|w r M]; cbn [header_names].
    - replace (String.eqb m "#" || String.eqb m "!!" || String.eqb m "##")%bool with true; [f_equal; apply f_equal2; [reflexivity|lia]|].
      destruct M as [->|[->| ->]]; reflexivity.
    - destruct M as [A [B C]]. apply String.eqb_neq in A. apply String.eqb_neq in B. apply String.eqb_neq in C. rewrite A, B, C. cbn [Datatypes.orb]. f_equal. apply f_equal2; [reflexivity|lia]. }
  rewrite HN. cbn [bind fst snd]. rewrite Nat2Z.id.
  assert (SK : skipn (length pre + 1) (pre ++ [hd] ++ data) = data).
  { rewrite app_assoc. rewrite skipn_app. rewrite skipn_all2 by (rewrite app_length; cbn; lia).
    rewrite app_length. cbn [length app]. replace (length pre + 1 - (length pre + 1))%nat with 0%nat by lia. reflexivity. }
  rewrite read_csv_ok.
  - cbn [bind]. rewrite SK. reflexivity.
  - rewrite SK. destruct data as [|d data]; [destruct D|]. cbn [filter]. destruct (blank d) eqn:B; [|discriminate].
    exfalso. destruct D as [w [E _]]. unfold blank in B. apply Nat.eqb_eq in B. destruct d; [discriminate|discriminate].
  - rewrite SK. intros l J. apply filter_In in J. destruct J as [J B]. destruct (L l J) as [->|X]; [discriminate|exact X].
Qed.
Lemma no_header : forall is_float d data, data_line is_float d -> (forall l, In l (d :: data) -> l = [] \/ length l = 14%nat) ->
  exists names, des_layout (nth 1 d ""%string) names /\
  read_table is_float (d :: data) (d :: data) = Ok (names, filter (fun l => negb (blank l)) (d :: data)).
Proof.
  intros is_float d data D L. unfold read_table. rewrite scan_data by exact D. cbn [header_names bind fst].
  assert (BD : blank d = false) by (destruct D as [w [E _]]; destruct d; [discriminate|reflexivity]).
  rewrite read_csv_ok.
  - cbn [bind skipn filter]. rewrite BD. cbn [negb nth]. set (w := nth 1 d ""%string).
    destruct (String.eqb_spec w "KEP") as [->|K].
    { eexists. split; [|reflexivity]. eexists. split; [reflexivity|]. left. auto. }
    destruct (String.eqb_spec w "CAR") as [->|C].
    { eexists. split; [|reflexivity]. eexists. split; [reflexivity|]. right; left. auto. }
    eexists. split; [|reflexivity]. eexists. split; [reflexivity|]. right; right. auto.
  - cbn [skipn filter]. rewrite BD. discriminate.
  - intros l J. cbn [skipn] in J. apply filter_In in J. destruct J as [J B]. destruct (L l J) as [->|X]; [discriminate|exact X].
Qed.

(** ** Standard names, for any list of alternatives without overlaps *)
Lemma mem_in : forall c l, mem c l = true <-> In c l.
Proof.
  intros c l. unfold mem. rewrite existsb_exists. split.
  - intros [x [I E]]. apply String.eqb_eq in E. subst. exact I.
  - intros I. exists c. split; [exact I|apply String.eqb_refl].
Qed.
Lemma mem_not : forall c l, mem c l = false <-> ~ In c l.
Proof. intros c l. rewrite <- mem_in. destruct (mem c l); split; intros; try congruence; tauto. Qed.
Definition std1 (p : string * list string) (c : string) : string := if mem c (snd p) then fst p else c.
Definition unambiguous (p : string * list string) (cols : list string) : Prop :=
  forall c d, In c cols -> In d cols -> In c (snd p) -> In d (snd p) -> c = d.
Lemma replace_first_map : forall p x cols, NoDup cols -> In x (snd p) -> (forall c, In c cols -> In c (snd p) -> c = x) ->
  replace_first x (fst p) cols = map (std1 p) cols.
Proof.
  intros p x cols. induction cols as [|c cols IH]; intros N I H; [reflexivity|]. inversion N as [|? ? NI N']; subst. cbn [replace_first map].
  destruct (String.eqb_spec c x) as [->|D].
  - f_equal; [unfold std1; apply mem_in in I; rewrite I; reflexivity|]. rewrite <- (map_id cols) at 1. apply map_ext_in. intros d J. unfold std1.
    destruct (mem d (snd p)) eqn:M; [|reflexivity]. apply mem_in in M. assert (d = x) by (apply H; [right; exact J|exact M]). subst d. contradiction.
  - f_equal.
    + unfold std1. destruct (mem c (snd p)) eqn:M; [|reflexivity]. apply mem_in in M. destruct D. apply H; [left; reflexivity|exact M].
    + apply IH; [exact N'|exact I|]. intros d J. apply H. right. exact J.
Qed.
Lemma rename_ok : forall p cols, NoDup cols -> unambiguous p cols -> rename p cols = Ok (map (std1 p) cols).
Proof.
  intros p cols N U. unfold rename. rewrite nodup_fixed_point by (apply NoDup_filter; exact N).
  destruct (filter (fun c => mem c (snd p)) cols) as [|x l] eqn:F.
  - f_equal. rewrite <- (map_id cols) at 1. apply map_ext_in. intros c I. unfold std1. destruct (mem c (snd p)) eqn:M; [|reflexivity].
    assert (J : In c (filter (fun c => mem c (snd p)) cols)) by (apply filter_In; auto). rewrite F in J. destruct J.
  - assert (FI : forall c, In c (x :: l) -> In c cols /\ In c (snd p)) by (intros c J; rewrite <- F in J; apply filter_In in J; destruct J as [J1 J2]; split; [exact J1|apply mem_in; exact J2]).
    destruct (FI x (or_introl eq_refl)) as [X1 X2]. destruct l as [|y l].
    + f_equal. apply replace_first_map; [exact N|exact X2|]. intros c I J. apply (U c x I X1 J X2).
    + exfalso. assert (ND : NoDup (x :: y :: l)) by (rewrite <- F; apply NoDup_filter; exact N). inversion ND as [|? ? NI _]; subst. apply NI. left.
      destruct (FI y (or_intror (or_introl eq_refl))) as [Y1 Y2]. exact (U y x Y1 X1 Y2 X2).
Qed.
Lemma rename_ambiguous : forall p cols c d, NoDup cols -> In c cols -> In d cols -> In c (snd p) -> In d (snd p) -> c <> d -> rename p cols = Err ValueError.
Proof.
  intros p cols c d N C D CP DP X. unfold rename. rewrite nodup_fixed_point by (apply NoDup_filter; exact N).
  assert (FC : In c (filter (fun c => mem c (snd p)) cols)) by (apply filter_In; split; [exact C|apply mem_in; exact CP]).
  assert (FD : In d (filter (fun c => mem c (snd p)) cols)) by (apply filter_In; split; [exact D|apply mem_in; exact DP]).
  destruct (filter (fun c => mem c (snd p)) cols) as [|x [|y l]]; [destruct FC| |reflexivity].
  exfalso. apply X. destruct FC as [<-|[]], FD as [<-|[]]. reflexivity.
Qed.
(** no overlaps: names belong to their own alternatives, alternatives of different entries differ *)
Fixpoint apart (t : list (string * list string)) : Prop :=
  match t with
  | [] => True
  | p :: r => In (fst p) (snd p) /\ (forall q c, In q r -> In c (snd p) -> ~ In c (snd q)) /\ apart r
  end.
Fixpoint std (t : list (string * list string)) (c : string) : string := match t with [] => c | p :: r => std r (std1 p c) end.
Lemma std1_other : forall p c, ~ In c (snd p) -> std1 p c = c.
Proof. intros p c N. unfold std1. apply mem_not in N. rewrite N. reflexivity. Qed.
Lemma std1_own : forall p c, In c (snd p) -> std1 p c = fst p.
Proof. intros p c N. unfold std1. apply mem_in in N. rewrite N. reflexivity. Qed.
Lemma std1_nodup : forall p cols, In (fst p) (snd p) -> NoDup cols -> unambiguous p cols -> NoDup (map (std1 p) cols).
Proof.
  intros p cols O N U. induction cols as [|c cols IH]; [constructor|]. inversion N as [|? ? NI N']; subst. cbn. constructor.
  - intros I. apply in_map_iff in I. destruct I as [d [E J]]. destruct (in_dec string_dec c (snd p)) as [A|A], (in_dec string_dec d (snd p)) as [B|B].
    + apply NI. rewrite (U c d (or_introl eq_refl) (or_intror J) A B). exact J.
    + rewrite (std1_other p d B), (std1_own p c A) in E. subst d. contradiction.
    + rewrite (std1_own p d B), (std1_other p c A) in E. subst c. contradiction.
    + rewrite (std1_other p d B), (std1_other p c A) in E. subst d. contradiction.
  - apply IH; [exact N'|]. intros x y I J. apply U; right; assumption.
Qed.
Lemma std1_back : forall (p q : string * list string) cols c, In (fst p) (snd p) -> (forall c, In c (snd p) -> ~ In c (snd q)) -> In c (map (std1 p) cols) -> In c (snd q) -> In c cols.
Proof.
  intros p q cols c O A I Q. apply in_map_iff in I. destruct I as [d [E J]]. destruct (in_dec string_dec d (snd p)) as [B|B].
  - rewrite (std1_own p d B) in E. subst c. destruct (A _ O Q).
  - rewrite (std1_other p d B) in E. subst d. exact J.
Qed.
Definition step (r : result (list string)) (p : string * list string) : result (list string) := do c <- r; rename p c.
Lemma fold_err : forall t e, fold_left step t (Err e) = Err e.
Proof. intros t e. induction t as [|p t IH]; [reflexivity|exact IH]. Qed.
Lemma fold_ok : forall t cols, apart t -> NoDup cols -> (forall p, In p t -> unambiguous p cols) -> fold_left step t (Ok cols) = Ok (map (std t) cols).
Proof.
  intros t. induction t as [|p t IH]; intros cols A N U.
  - cbn. rewrite map_id. reflexivity.
  - destruct A as [O [D A]]. cbn [fold_left step bind]. rewrite rename_ok by (try exact N; apply U; left; reflexivity).
    rewrite IH; [rewrite map_map; reflexivity|exact A|apply std1_nodup; [exact O|exact N|apply U; left; reflexivity]|].
    intros q Q x y I J XQ YQ. apply (U q (or_intror Q)); try assumption; apply (std1_back p q cols); try assumption; intros c C; exact (D q c Q C).
Qed.
Lemma fold_ambiguous : forall t cols q c d, apart t -> NoDup cols -> In q t -> In c cols -> In d cols -> In c (snd q) -> In d (snd q) -> c <> d ->
  fold_left step t (Ok cols) = Err ValueError.
Proof.
  intros t. induction t as [|p t IH]; intros cols q c d A N Q C D CQ DQ X; [destruct Q|]. destruct A as [O [DJ A]]. cbn [fold_left step bind].
  destruct Q as [->|Q].
  - rewrite (rename_ambiguous q cols c d) by assumption. apply fold_err.
  - destruct (rename p cols) as [cols'|e] eqn:R.
    + assert (NC : ~ In c (snd p)) by (intros I; exact (DJ q c Q I CQ)). assert (ND : ~ In d (snd p)) by (intros I; exact (DJ q d Q I DQ)).
      assert (U : unambiguous p cols).
      { intros x y X1 Y1 X2 Y2. destruct (string_dec x y) as [E|E]; [exact E|]. rewrite (rename_ambiguous p cols x y) in R by assumption. discriminate. }
      rewrite rename_ok in R by assumption. injection R as <-. apply (IH _ q c d); try assumption.
      * apply std1_nodup; assumption.
      * apply in_map_iff. exists c. split; [apply std1_other; exact NC|exact C].
      * apply in_map_iff. exists d. split; [apply std1_other; exact ND|exact D].
    + rewrite fold_err. f_equal. unfold rename in R. destruct (nodup _ _) as [|x [|y l]]; [discriminate|discriminate|]. congruence.
Qed.
(** the table of the code has no overlaps *)
Fixpoint apart_b (t : list (string * list string)) : bool :=
  match t with
  | [] => true
  | p :: r => mem (fst p) (snd p) && forallb (fun q => forallb (fun c => negb (mem c (snd q))) (snd p)) r && apart_b r
  end.
Lemma apart_dec : forall t, apart_b t = true -> apart t.
Proof.
  intros t. induction t as [|p t IH]; intros H; [exact I|]. cbn in H. apply andb_prop in H. destruct H as [H A]. apply andb_prop in H. destruct H as [O D].
  split; [apply mem_in; exact O|]. split; [|exact (IH A)]. intros q c Q C X. rewrite forallb_forall in D. specialize (D q Q). rewrite forallb_forall in D.
  specialize (D c C). apply mem_in in X. rewrite X in D. discriminate.
Qed.
Lemma alt_apart : apart alt_names.
Proof. apply apart_dec. vm_compute. reflexivity. Qed.
Lemma std_own : forall t p c, apart t -> In p t -> In c (snd p) -> std t c = fst p.
Proof.
  intros t. induction t as [|q t IH]; intros p c A I C; [destruct I|]. destruct A as [O [D A]]. cbn [std]. destruct I as [->|I].
  - rewrite (std1_own p c C). clear IH A. assert (G : forall r, (forall q, In q r -> ~ In (fst p) (snd q)) -> std r (fst p) = fst p).
    { intros r. induction r as [|x r IHr]; intros H; [reflexivity|]. cbn. rewrite std1_other by (apply H; left; reflexivity). apply IHr. intros y Y. apply H. right. exact Y. }
    apply G. intros x X. exact (D x (fst p) X O).
  - rewrite std1_other by (intros X; exact (D p c I X C)). apply IH; assumption.
Qed.
Lemma std_other : forall t c, (forall p, In p t -> ~ In c (snd p)) -> std t c = c.
Proof.
  intros t. induction t as [|q t IH]; intros c H; [reflexivity|]. cbn. rewrite std1_other by (apply H; left; reflexivity). apply IH. intros p I. apply H. right. exact I.
Qed.
