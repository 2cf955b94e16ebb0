(** Theorems about the helpers of the batches and the list of runs: C358-C360. *)
From Coq Require Import String Ascii ZArith List Bool Lia Permutation Sorted.
From Verif Require Import Base Web_Spec Web_Model Web_Proofs Web_Props Web_Props2 Web_Props3.
From Verif Require Maps_Props3 Archive_Proofs.
Import ListNotations.
Open Scope Z_scope.

(** * C358 *)
(** Labels are joined in any grouping, and a missing label changes nothing. *)
Theorem C358_labels : forall a b c, combine_labels (combine_labels a b) c = combine_labels a (combine_labels b c) /\
  combine_labels None a = a /\ combine_labels a None = a /\ (combine_labels a b = None <-> a = None /\ b = None) /\
  forall x y, combine_labels (Some x) (Some y) = Some (x ++ " " ++ y)%string.
Proof.
  intros [x|] [y|] [z|]; cbn; repeat split; auto; try discriminate; try tauto; try (intros [? ?]; discriminate).
  rewrite Pop_Props5.append_assoc'. reflexivity.
Qed.
Print Assumptions C358_labels.
(** What a constraint means for a row of band [v]: [holds] is what the database decides. *)
Definition Decides (holds : string -> bool) (col v : string) : Prop :=
  holds EmptyString = true /\ (forall a b, holds ("(" ++ a ++ ") and (" ++ b ++ ")")%string = holds a && holds b) /\ (forall b, holds (col ++ " = '" ++ b ++ "'")%string = String.eqb v b).
(** The constraint of a band selects the rows of this band that satisfy the extra constraint; that of all bands those that satisfy the extra constraint. *)
Theorem C358_constraints : forall all extra label col holds v b sql text, Decides holds col v -> In (b, (sql, text)) (filter_list all extra label col) ->
  (holds sql = true <-> (b = "all"%string \/ v = b) /\ forall e, extra = Some e -> holds e = true).
Proof.
  intros all extra label col holds v b sql text (H0 & Ha & Hb) I. unfold filter_list in I. apply in_map_iff in I as (b' & E & I). injection E as -> <- _.
  unfold band_constraint, band_sql. destruct (String.eqb_spec b "all") as [->|N].
  - destruct extra as [[|c e]|]; split; intro H; try (split; [left; reflexivity|]); try (intros e' Q; injection Q as <-); auto; try discriminate. destruct H as (_ & H). auto.
  - assert (V : String.eqb v b = true <-> (b = "all"%string \/ v = b)) by (rewrite String.eqb_eq; tauto).
    destruct extra as [[|c e]|]; rewrite ?Ha, ?Hb, ?andb_true_iff, V; split; intro H.
    + split; auto. intros e Q. injection Q as <-. auto.
    + tauto.
    + destruct H as (He & Hv). split; auto. intros e' Q. injection Q as <-. auto.
    + destruct H as (Hv & He). split; auto.
    + split; auto. discriminate.
    + tauto.
Qed.
Print Assumptions C358_constraints.
(** The bands: each once, in the order of their numbers; so each row that satisfies the extra constraint is selected by exactly one band, and by all bands when asked for. *)
Theorem C358_bands : forall all extra label col, map fst (filter_list all extra label col) = (if all : bool then ["all"; "u"; "g"; "r"; "i"; "z"; "y"] else ["u"; "g"; "r"; "i"; "z"; "y"])%string /\
  InOrder (fun x y => exists i j, i < j /\ In (x, i) band_rank /\ In (y, j) band_rank) (map fst (filter_list all extra label col)).
Proof.
  intros all extra label col. assert (E : map fst (filter_list all extra label col) = bands_of all) by (unfold filter_list; rewrite map_map; cbn [fst]; apply map_id).
  rewrite E. split; [destruct all; reflexivity|].
  apply sorted_order. destruct all; cbn; repeat (constructor; [|repeat (constructor; [eexists _, _; split; [|split; [cbn; tauto|cbn; tauto]]; lia|]); constructor]); try constructor.
Qed.
Print Assumptions C358_bands.
Theorem C358_one_band : forall extra label col holds v, Decides holds col v -> In v Bands -> (forall e, extra = Some e -> holds e = true) ->
  exists sql text, Keeps (fun c => holds (fst (snd c)) = true) (filter_list false extra label col) [(v, (sql, text))].
Proof.
  intros extra label col holds v D Iv He. exists (band_constraint extra col v), (band_label extra label v).
  assert (G : forall bs, NoDup bs -> In v bs -> (forall b, In b bs -> In b (bands_of false)) ->
    Keeps (fun c => holds (fst (snd c)) = true) (map (fun b => (b, (band_constraint extra col b, band_label extra label b))) bs) [(v, (band_constraint extra col v, band_label extra label v))]).
  { assert (K : forall b, In b (bands_of false) -> holds (band_constraint extra col b) = true <-> v = b).
    { intros b Ib. rewrite (C358_constraints false extra label col holds v b _ (band_label extra label b) D).
      - split; [intros ([->|H] & _); auto|intros ->; split; auto]. cbn in Ib. repeat (destruct Ib as [Q|Ib]; [discriminate|]). destruct Ib.
      - unfold filter_list. apply in_map_iff. exists b. auto. }
    assert (Z0 : forall bs, ~ In v bs -> (forall b, In b bs -> In b (bands_of false)) -> Keeps (fun c => holds (fst (snd c)) = true) (map (fun b => (b, (band_constraint extra col b, band_label extra label b))) bs) []).
    { induction bs as [|b bs IH]; intros N S; cbn; constructor; [|apply IH; [cbn in N; tauto|intros; apply S; right; auto]]. cbn. rewrite K by (apply S; left; auto). intros ->. apply N. left; auto. }
    induction bs as [|b bs IH]; intros N I S; [destruct I|]. apply NoDup_cons_iff in N as (N & N'). cbn. destruct (string_dec b v) as [->|Q].
    - constructor; [cbn; apply K; auto; apply S; left; auto|]. apply Z0; auto. intros; apply S; right; auto.
    - destruct I as [->|I]; [tauto|]. constructor; [cbn; rewrite K by (apply S; left; auto); congruence|]. apply IH; auto. intros; apply S; right; auto. }
  apply G; auto. unfold bands_of, band_order. repeat (constructor; [cbn; intuition discriminate|]). constructor.
Qed.
Print Assumptions C358_one_band.
Lemma append_same_end : forall a b c : string, (a ++ c)%string = (b ++ c)%string -> a = b.
Proof.
  intros a b c H. assert (L : String.length a = String.length b) by (pose proof (f_equal String.length H) as L; rewrite !length_append in L; lia).
  apply (append_inj_len a c b c H L).
Qed.
(** No two bands have the same label. *)
Theorem C358_labels_differ : forall all extra label col, NoDup (map (fun c => snd (snd c)) (filter_list all extra label col)).
Proof.
  intros. unfold filter_list. rewrite map_map. cbn [snd]. unfold band_label. set (p := label_prefix extra label). clearbody p.
  assert (N : NoDup (bands_of all)) by (destruct all; unfold bands_of, band_order; repeat (constructor; [cbn; intuition discriminate|]); constructor).
  assert (J : forall x y, In x (bands_of all) -> In y (bands_of all) -> (p ++ (if String.eqb x "all" then "all bands" else x ++ " band"))%string = (p ++ (if String.eqb y "all" then "all bands" else y ++ " band"))%string -> x = y).
  { intros x y Ix Iy E. apply append_inj_len in E as (_ & E); auto. destruct (String.eqb_spec x "all") as [->|X], (String.eqb_spec y "all") as [->|Y]; auto.
    - exfalso. destruct all; cbn in Iy; intuition (subst; discriminate).
    - exfalso. destruct all; cbn in Ix; intuition (subst; discriminate).
    - apply (append_same_end x y " band"). exact E. }
  revert N J. generalize (bands_of all). induction l as [|b l IH]; intros N J; cbn; constructor.
  - intro H. apply in_map_iff in H as (b' & E & I). apply NoDup_cons_iff in N as (N & _). apply N. rewrite (J b b'); [exact I|left; auto|right; auto|symmetry; exact E].
  - apply NoDup_cons_iff in N as (_ & N). apply IH; auto. intros x y Ix Iy. apply J; right; auto.
Qed.
Print Assumptions C358_labels_differ.
Example C358_case : filter_list true (Some "night < 5"%string) None "band" =
  [("all", ("night < 5", "night < 5 all bands")); ("u", ("(night < 5) and (band = 'u')", "night < 5 u band")); ("g", ("(night < 5) and (band = 'g')", "night < 5 g band"));
   ("r", ("(night < 5) and (band = 'r')", "night < 5 r band")); ("i", ("(night < 5) and (band = 'i')", "night < 5 i band")); ("z", ("(night < 5) and (band = 'z')", "night < 5 z band"));
   ("y", ("(night < 5) and (band = 'y')", "night < 5 y band"))]%string.
Proof. reflexivity. Qed.

(** * C359 *)
Lemma replace_cons old new c t : replace old new O (String c t) =
  if String.prefix old (String c t) then (new ++ replace old new (String.length old - 1) t)%string else String c (replace old new O t).
Proof. reflexivity. Qed.
Lemma replace_skipped old new : forall t, replace old new (String.length t) t = EmptyString.
Proof. induction t; cbn; auto. Qed.
Lemma append_empty s : (s ++ "")%string = s.
Proof. induction s; cbn; congruence. Qed.
(** Where the column's name occurs only at the end of the metric's name, it is replaced there, *)
Theorem C359_replaced : forall pre col new, col <> EmptyString -> new <> EmptyString -> (forall a b, (pre ++ col)%string = (a ++ col ++ b)%string -> b = EmptyString) ->
  renamed col (Some new) (pre ++ col) = (pre ++ new)%string.
Proof.
  intros pre col new Nc Nn H. unfold renamed. destruct new as [|n new']; [tauto|]. set (new := String n new') in *. clearbody new.
  induction pre as [|c pre IH].
  - cbn [append]. destruct col as [|d col]; [tauto|]. rewrite replace_cons. rewrite <- (append_empty (String d col)) at 2. rewrite Maps_Props3.prefix_app.
    cbn [String.length]. replace (S (String.length col) - 1)%nat with (String.length col) by lia. rewrite replace_skipped. apply append_empty.
  - cbn [append]. rewrite replace_cons. destruct (String.prefix col (String c (pre ++ col))) eqn:E.
    + exfalso. apply Maps_Props3.prefix_true in E as (b & E). assert (b = EmptyString) by (apply (H EmptyString b); exact E). subst b.
      apply (f_equal String.length) in E. cbn in E. rewrite append_empty, length_append in E. lia.
    + f_equal. apply IH. intros a b Q. apply (H (String c a) b). cbn. congruence.
Qed.
Print Assumptions C359_replaced.
Example C359_replaced_case : renamed "seeingFwhmGeom" (Some "seeingGeom"%string) "Median seeingFwhmGeom" = "Median seeingGeom"%string.
Proof. reflexivity. Qed.
(** it is not renamed unless asked for, *)
Theorem C359_kept : forall col name, renamed col None name = name.
Proof. reflexivity. Qed.
Print Assumptions C359_kept.
Definition Among (c : ascii) (s : string) : Prop := In c (list_ascii_of_string s).
Lemma in_text_spec c s : in_text c s = true <-> Among c s.
Proof. unfold Among. induction s as [|d s IH]; cbn; [split; [discriminate|tauto]|]. rewrite orb_true_iff, Ascii.eqb_eq, IH. intuition. Qed.
Lemma rstrip_all chars x : (forall c, Among c x -> Among c chars) -> rstrip chars x = EmptyString.
Proof.
  unfold Among. induction x as [|c x IH]; cbn; auto. intro H. rewrite IH by (intros; apply H; auto). rewrite (proj2 (in_text_spec c chars)); auto. apply H. auto.
Qed.
Lemma rstrip_keep chars x : (forall c, Among c x -> Among c chars) -> forall w c, ~ Among c chars -> rstrip chars (w ++ String c x) = (w ++ String c "")%string.
Proof.
  intros A w c N. assert (E : in_text c chars = false) by (destruct (in_text c chars) eqn:Q; auto; apply in_text_spec in Q; tauto).
  induction w as [|d w IH]; cbn [append rstrip].
  - rewrite rstrip_all by auto. rewrite E. reflexivity.
  - rewrite IH. destruct (w ++ String c "")%string eqn:Q; auto. destruct w; discriminate.
Qed.
(** and when asked to drop the column's name this is done if the last letter before it is not one of its letters, *)
Theorem C359_dropped_partial : forall w c col, ~ Among c col -> c <> " "%char -> renamed col (Some EmptyString) ((w ++ String c "") ++ " " ++ col) = (w ++ String c "")%string.
Proof.
  intros w c col N S. unfold renamed. rewrite Pop_Props5.append_assoc'. cbn [append]. apply rstrip_keep.
  - intros d H. exact H.
  - unfold Among in *. cbn. intros [H|H]; [congruence|tauto].
Qed.
Print Assumptions C359_dropped_partial.
Example C359_dropped_case : renamed "airmass" (Some EmptyString) "Mean airmass" = "Mean"%string.
Proof. reflexivity. Qed.
(** but otherwise letters of the metric's name are lost, *)
Theorem C359_dropped_refuted : ~ (forall w col, renamed col (Some EmptyString) (w ++ " " ++ col) = w).
Proof. intro H. specialize (H "Rms"%string "airmass"%string). discriminate. Qed.
Print Assumptions C359_dropped_refuted.
(** and two metrics may get the same name. *)
Theorem C359_distinct_refuted : exists col w w', w <> w' /\ renamed col (Some EmptyString) (w ++ " " ++ col) = renamed col (Some EmptyString) (w' ++ " " ++ col).
Proof. exists "nightMaxSin"%string, "Min"%string, "Max"%string. split; [discriminate|reflexivity]. Qed.
Print Assumptions C359_distinct_refuted.
Lemma fraction_at {T} (show : T -> string) names : forall thresholds k out, fraction_names show thresholds names k = Ok out ->
  length out = length thresholds /\ forall i x, nth_error thresholds i = Some x -> exists o, nth_error out i = Some (x, "FractionPop " ++ o)%string /\
    match names with None => o = show x | Some l => nth_error l (k + i) = Some o end.
Proof.
  induction thresholds as [|y t IH]; intros k out H; cbn in H.
  - injection H as <-. split; auto. intros [|i] x E; discriminate.
  - destruct (match names with None => Ok (show y) | Some l => arr_get l k end) as [o|e] eqn:E; [|discriminate]. cbn in H.
    destruct (fraction_names show t names (S k)) as [r|e] eqn:E'; [|discriminate]. cbn in H. injection H as <-. destruct (IH _ _ E') as (L & K). split; [cbn; auto|].
    intros [|i] x Q; cbn in Q.
    + injection Q as <-. exists o. split; auto. destruct names as [l|]; [|injection E as <-; auto]. rewrite Nat.add_0_r. unfold arr_get in E. destruct (nth_error l k); congruence.
    + destruct (K i x Q) as (o' & A & B). exists o'. split; auto. destruct names; auto. replace (k + S i)%nat with (S k + i)%nat by lia. exact B.
Qed.
Lemma fraction_ok {T} (show : T -> string) names : forall thresholds k, (match names with None => True | Some l => (k + length thresholds <= length l)%nat end) ->
  exists out, fraction_names show thresholds names k = Ok out.
Proof.
  induction thresholds as [|y t IH]; intros k H; cbn; [eauto|].
  assert (exists o, match names with None => Ok (show y) | Some l => arr_get l k end = Ok o) as (o & ->).
  { destruct names as [l|]; [|eauto]. unfold arr_get. destruct (nth_error l k) eqn:E; [eauto|]. apply nth_error_None in E. cbn in H. lia. }
  destruct (IH (S k)) as (r & ->); [destruct names; auto; cbn in H; lia|]. cbn. eauto.
Qed.
(** The fractions of a population have the names given for them, or their thresholds; too few names are an error. *)
Theorem C359_fractions : forall T (show : T -> string) thresholds names,
  (forall l, names = Some l -> (length l < length thresholds)%nat -> fraction_names show thresholds names 0 = Err IndexError) /\
  ((forall l, names = Some l -> (length thresholds <= length l)%nat) -> exists out, fraction_names show thresholds names 0 = Ok out /\ length out = length thresholds /\
     forall i x, nth_error thresholds i = Some x -> exists o, nth_error out i = Some (x, "FractionPop " ++ o)%string /\ (names = None -> o = show x) /\ forall l, names = Some l -> nth_error l i = Some o).
Proof.
  intros T show thresholds names. split.
  - intros l -> L. assert (G : forall thresholds k, (length l < k + length thresholds)%nat -> (k <= length l)%nat -> fraction_names show thresholds (Some l) k = Err IndexError).
    { clear. induction thresholds as [|y t IH]; intros k A B; cbn in *; [lia|]. unfold arr_get. destruct (nth_error l k) as [o|] eqn:E; [|reflexivity]. cbn.
      assert (k < length l)%nat by (apply nth_error_Some; congruence). rewrite IH by lia. reflexivity. }
    apply G; lia.
  - intro L. destruct (fraction_ok show names thresholds 0) as (out & E); [destruct names; auto; apply L; auto|]. exists out. split; auto.
    destruct (fraction_at show names thresholds 0 out E) as (A & B). split; auto. intros i x Q. destruct (B i x Q) as (o & P & R). exists o. split; auto. destruct names; split; try discriminate; auto. intros l' W. injection W as <-. exact R.
Qed.
Print Assumptions C359_fractions.

(** * C360 *)
Lemma insert_run_perm x l : Permutation (insert_run x l) (x :: l).
Proof. induction l as [|y t IH]; cbn; auto. destruct (Z.leb (r_id x) (r_id y)); auto. rewrite IH. apply perm_swap. Qed.
Lemma sort_runs_perm l : Permutation (sort_runs l) l.
Proof. induction l as [|x t IH]; cbn; auto. rewrite insert_run_perm, IH. auto. Qed.
Lemma insert_run_sorted x l : StronglySorted (fun a b => r_id a <= r_id b) l -> StronglySorted (fun a b => r_id a <= r_id b) (insert_run x l).
Proof.
  induction 1 as [|y t S IH F]; cbn; [repeat constructor|]. destruct (Z.leb_spec (r_id x) (r_id y)) as [L|L].
  - constructor; [constructor; auto|]. constructor; auto. eapply Forall_impl; [|apply F]. cbn. intros; lia.
  - constructor; auto. apply Forall_forall. intros z Iz. apply (Permutation_in _ (insert_run_perm x t)) in Iz as [<-|Iz]; [lia|]. rewrite Forall_forall in F. auto.
Qed.
Lemma sort_runs_sorted l : StronglySorted (fun a b => r_id a <= r_id b) (sort_runs l).
Proof. induction l as [|x t IH]; cbn; [constructor|apply insert_run_sorted, IH]. Qed.
Section Tracking.
  Context {page : Type} (to_int : string -> option Z) (open : string -> option string -> page).
  (** the page of a run *)
  Definition PageOf (r : run) (p : page) : Prop :=
    (r_name r = "NULL"%string -> p = open (r_dir r) None) /\ (r_name r <> "NULL"%string -> p = open (r_dir r) (Some (r_name r))).
  (** requests at times when the database is [fst], and what is left of the state by one that fails *)
  Definition step (t : tracker page) (q : disk * run_id) : tracker page :=
    match get_run to_int open (fst q) (snd q) t with Ok (_, t') => t' | Err _ => check_db (fst q) t end.
  Definition serve (d0 : disk) (qs : list (disk * run_id)) : tracker page := fold_left step qs (load d0 d0 d0).
  Variable rows : Z -> list run.
  Definition Faithful (d : disk) : Prop := d_runs d = rows (d_stamp d) /\ NoDup (map r_id (d_runs d)).
  Definition Inv (t : tracker page) : Prop := t_runs t = sort_runs (rows (t_stamp t)) /\ forall z p, dget Z.eqb (t_pages t) z = Some p -> exists r, In r (rows (t_stamp t)) /\ r_id r = z /\ PageOf r p.
  Lemma inv_load d : Faithful d -> Inv (load d d d).
  Proof. intros (F & _). split; cbn; rewrite Z.eqb_refl; [rewrite F; auto|discriminate]. Qed.
  Lemma inv_check d t : Faithful d -> Inv t -> Inv (check_db d t) /\ t_stamp (check_db d t) = d_stamp d.
  Proof.
    intros F I. unfold check_db. destruct (Z.eqb_spec (d_stamp d) (t_stamp t)) as [E|E]; [auto|]. split; [apply inv_load, F|]. cbn. rewrite Z.eqb_refl. auto.
  Qed.
  Lemma page_of r : PageOf r (open (r_dir r) (if String.eqb (r_name r) "NULL" then None else Some (r_name r))).
  Proof. split; intro H; destruct (String.eqb_spec (r_name r) "NULL"); congruence. Qed.
  Lemma page_unique r p p' : PageOf r p -> PageOf r p' -> p = p'.
  Proof. intros (A & B) (A' & B'). destruct (string_dec (r_name r) "NULL") as [E|E]; [rewrite A, A'|rewrite B, B']; auto. Qed.
  Lemma eqb_spec' a b : Z.eqb a b = true <-> a = b.
  Proof. apply Z.eqb_eq. Qed.
  Lemma get_spec d i t : Faithful d -> Inv t ->
    match get_run to_int open d i t with
    | Ok (p, t') => Inv t' /\ exists z r, id_of to_int i = Ok z /\ In r (d_runs d) /\ r_id r = z /\ PageOf r p
    | Err e => forall z, id_of to_int i = Ok z -> e = IndexError /\ forall r, In r (d_runs d) -> r_id r <> z
    end.
  Proof.
    intros F I. destruct (inv_check d t F I) as (J & Es). destruct F as (F & N). unfold get_run. set (c := check_db d t) in *. clearbody c.
    destruct (id_of to_int i) as [z|e] eqn:E; cbn [bind]; [|discriminate].
    destruct J as (Jr & Jp). rewrite Es, <- F in Jr. rewrite Es, <- F in Jp. destruct (dget Z.eqb (t_pages c) z) as [p|] eqn:G.
    - split; [split; rewrite Es, <- F; auto|]. destruct (Jp z p G) as (r & A & B & C). exists z, r. auto.
    - destruct (filter (fun r => Z.eqb (r_id r) z) (t_runs c)) as [|r l] eqn:Q.
      + intros z' Q'. injection Q' as <-. split; auto. intros r Ir Er. assert (In r []) as []. rewrite <- Q. apply filter_In. rewrite Jr. split; [|apply Z.eqb_eq, Er].
        apply (Permutation_in _ (Permutation_sym (sort_runs_perm (d_runs d))) Ir).
      + assert (H : In r (d_runs d) /\ r_id r = z).
        { assert (H : In r (filter (fun r => Z.eqb (r_id r) z) (t_runs c))) by (rewrite Q; left; auto). apply filter_In in H as (H & H'). rewrite Jr in H.
          split; [apply (Permutation_in _ (sort_runs_perm (d_runs d)) H)|apply Z.eqb_eq, H']. }
        split.
        * split; cbn [t_runs t_stamp t_pages]; rewrite Es, <- F; auto. intros z' p'. rewrite (Archive_Proofs.dget_dset Z.eqb eqb_spec').
          destruct (Z.eqb_spec z' z) as [->|D]; [|apply Jp]. intro W. injection W as <-. exists r. destruct H. repeat split; auto; apply page_of.
        * exists z, r. destruct H. repeat split; auto; apply page_of.
  Qed.
  Lemma inv_serve d0 qs : Faithful d0 -> (forall d i, In (d, i) qs -> Faithful d) -> Inv (serve d0 qs).
  Proof.
    intros F0 H. unfold serve. revert H. generalize (inv_load d0 F0). generalize (@load page d0 d0 d0). induction qs as [|[d i] qs IH]; intros t I H; cbn; auto.
    apply IH; [|intros d' i' Q; apply (H d' i'); right; auto]. unfold step. cbn [fst snd]. assert (F : Faithful d) by (apply (H d i); left; auto).
    pose proof (get_spec d i t F I) as G. destruct (get_run to_int open d i t) as [[p t']|e]; [apply G|]. apply inv_check; auto.
  Qed.
  (** After any requests, also failed ones, and any changes of the database that change its time stamp, a request gives the page of the run that the database now has under this number, or an error if there is none. *)
  Theorem C360_page_partial : forall d0 qs d i z, Faithful d0 -> (forall d i, In (d, i) qs -> Faithful d) -> Faithful d -> id_of to_int i = Ok z ->
    (forall r, In r (d_runs d) -> r_id r = z -> exists p t, get_run to_int open d i (serve d0 qs) = Ok (p, t) /\ PageOf r p) /\
    ((forall r, In r (d_runs d) -> r_id r <> z) -> get_run to_int open d i (serve d0 qs) = Err IndexError).
  Proof.
    intros d0 qs d i z F0 H F E. pose proof (get_spec d i (serve d0 qs) F (inv_serve d0 qs F0 H)) as G.
    destruct (get_run to_int open d i (serve d0 qs)) as [[p t']|e].
    - destruct G as (_ & z' & r & E' & Ir & Er & P). rewrite E in E'. injection E' as <-. split; [|intro Q; exfalso; apply (Q r); auto].
      intros r' Ir' Er'. assert (r' = r); [|subst; eauto]. destruct F as (_ & N). clear - N Ir Er Ir' Er'. induction (d_runs d) as [|a l IH]; [destruct Ir|]. cbn in N. apply NoDup_cons_iff in N as (N & D).
      destruct Ir as [->|Ir], Ir' as [->|Ir']; auto; exfalso; apply N; apply in_map_iff; [exists r'|exists r]; split; auto; congruence.
    - destruct (G z E) as (-> & Q). split; auto. intros r Ir Er. exfalso. apply (Q r); auto.
  Qed.
  (** A page that was given is given again without reading, as long as the time stamp stays. *)
  Theorem C360_cached : forall d d' i t p t' (open' : string -> option string -> page), get_run to_int open d i t = Ok (p, t') -> d_stamp d' = d_stamp d ->
    get_run to_int open' d' i t' = Ok (p, t').
  Proof.
    intros d d' i t p t' open' H E. unfold get_run in H. set (c := check_db d t) in *.
    assert (Ec : t_stamp c = d_stamp d) by (unfold c, check_db; destruct (Z.eqb_spec (d_stamp d) (t_stamp t)); auto; cbn; rewrite Z.eqb_refl; auto). clearbody c.
    destruct (id_of to_int i) as [z|] eqn:Ez; cbn [bind] in H; [|discriminate].
    assert (S : t_stamp t' = d_stamp d' /\ dget Z.eqb (t_pages t') z = Some p).
    { destruct (dget Z.eqb (t_pages c) z) eqn:G; [injection H as <- <-; split; congruence|]. destruct (filter _ (t_runs c)) as [|r l]; [discriminate|]. injection H as <- <-. cbn. split; [congruence|].
      rewrite (Archive_Proofs.dget_dset Z.eqb eqb_spec'), Z.eqb_refl. auto. }
    destruct S as (S & G). unfold get_run, check_db. rewrite S, Z.eqb_refl, Ez. cbn [bind]. rewrite G. auto.
  Qed.
End Tracking.
Print Assumptions C360_page_partial.
Print Assumptions C360_cached.
Definition ru (i : Z) (n d : string) : run := {| r_id := i; r_name := n; r_dir := d |}.
Example C360_case : let rows := fun s => if s =? 1 then [ru 1 "base" "a"] else [ru 2 "new" "b"; ru 1 "base" "c"] in
  let d1 := {| d_stamp := 1; d_runs := rows 1 |} in let d2 := {| d_stamp := 2; d_runs := rows 2 |} in
  Faithful rows d1 /\ Faithful rows d2 /\
  match get_run (fun _ => Some 1) (fun dir _ => dir) d2 (IdTexts ["1"]%string) (serve (fun _ => None) (fun dir _ => dir) d1 [(d1, IdNumber 1); (d1, IdNumber 7)]) with Ok (p, _) => p = "c"%string | Err _ => False end.
Proof.
  cbv zeta. split; [|split].
  - split; [reflexivity|]. cbn. repeat (constructor; [cbn; tauto|]). constructor.
  - split; [reflexivity|]. cbn. repeat (constructor; [cbn; intuition lia|]). constructor.
  - reflexivity.
Qed.
(** If the database changes within the resolution of its time stamp, runs that are gone are still shown. *)
Theorem C360_page_refuted : ~ (forall (page : Type) to_int (open : string -> option string -> page) d0 qs d i z, NoDup (map r_id (d_runs d0)) -> NoDup (map r_id (d_runs d)) -> id_of to_int i = Ok z ->
  (forall r, In r (d_runs d) -> r_id r <> z) -> get_run to_int open d i (serve to_int open d0 qs) = Err IndexError).
Proof.
  intro H. specialize (H string (fun _ => None) (fun dir _ => dir) {| d_stamp := 1; d_runs := [ru 1 "base" "a"] |} [] {| d_stamp := 1; d_runs := [] |} (IdNumber 1) 1).
  assert (get_run (fun _ => None) (fun dir _ => dir) {| d_stamp := 1; d_runs := [] |} (IdNumber 1) (serve (fun _ => None) (fun dir _ => dir) {| d_stamp := 1; d_runs := [ru 1 "base" "a"] |} []) = Err IndexError) as Q.
  { apply H; cbn; auto; try (repeat (constructor; [cbn; tauto|]); constructor). }
  discriminate.
Qed.
Print Assumptions C360_page_refuted.
(** If it changes while it is being read for the first time, the old list is kept under the new stamp: every later request that finds this stamp uses the old list. *)
Theorem C360_start_refuted : forall (page : Type) to_int (open : string -> option string -> page) d0 d1 d2 z, d_stamp d2 <> d_stamp d0 ->
  (forall r, In r (d_runs d1) -> r_id r <> z) -> get_run to_int open d2 (IdNumber z) (load d0 d1 d2) = Err IndexError.
Proof.
  intros page to_int open d0 d1 d2 z N H. unfold get_run, check_db, load. cbn [t_stamp]. destruct (Z.eqb_spec (d_stamp d2) (d_stamp d0)); [tauto|]. rewrite Z.eqb_refl. cbn.
  destruct (filter (fun r => Z.eqb (r_id r) z) (sort_runs (d_runs d1))) as [|r l] eqn:E; auto. exfalso.
  assert (I : In r (filter (fun r => Z.eqb (r_id r) z) (sort_runs (d_runs d1)))) by (rewrite E; left; auto). apply filter_In in I as (I & Q). apply Z.eqb_eq in Q.
  apply (H r); auto. apply (Permutation_in _ (sort_runs_perm (d_runs d1)) I).
Qed.
Print Assumptions C360_start_refuted.
(** The runs are listed by their numbers, each once. *)
Theorem C360_list : forall page d, Permutation (t_runs (@load page d d d)) (d_runs d) /\ InOrder (fun a b => r_id a <= r_id b) (t_runs (@load page d d d)).
Proof. intros. split; [apply sort_runs_perm|apply sorted_order, sort_runs_sorted]. Qed.
Print Assumptions C360_list.
