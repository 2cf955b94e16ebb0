(** C336: choosing runs and metrics from the table of summaries (get_metric_summaries). *)
From Coq Require Import String Reals ZArith List Bool Lia.
From Verif Require Import Base Template_Model Runs_Spec Runs_Model Runs_Props Runs_Props2 Runs_Props3.
Import ListNotations.

Definition posn (s : nat) (x : string) (l : list string) : list nat := map fst (filter (fun p => String.eqb (snd p) x) (combine (seq s (length l)) l)).
Lemma posn_none : forall l s x, ~ In x l -> posn s x l = [].
Proof.
  induction l as [|y t IH]; intros s x N; [reflexivity|]. unfold posn. cbn. destruct (String.eqb_spec y x) as [->|E]; [elim N; left; reflexivity|].
  apply (IH (S s)). intros I. apply N. right. exact I.
Qed.
Lemma posn_one : forall l s x, NoDup l -> In x l -> exists k, posn s x l = [(s + k)%nat] /\ nth_error l k = Some x.
Proof.
  induction l as [|y t IH]; intros s x N I; [contradiction|]. inversion N as [|a b N1 N2]; subst. unfold posn. cbn. destruct (String.eqb_spec y x) as [->|E].
  - exists 0%nat. rewrite Nat.add_0_r. split; [|reflexivity]. cbn. f_equal. apply (posn_none t (S s) x N1).
  - destruct I as [I|I]; [congruence|]. destruct (IH (S s) x N2 I) as [k [A B]]. exists (S k). split; [|exact B]. fold (posn (S s) x t). rewrite A. f_equal. lia.
Qed.
Lemma loc_spec : forall labels axis, NoDup axis ->
  match loc_list labels axis with
  | Ok pos => Forall2 (fun x k => nth_error axis k = Some x) labels pos
  | Err e => e = KeyError /\ exists x, In x labels /\ ~ In x axis
  end.
Proof.
  intros labels axis N. induction labels as [|x t IH]; cbn [loc_list]; [constructor|].
  destruct (in_dec string_dec x axis) as [I|I].
  - destruct (posn_one axis 0 x N I) as [k [A B]]. change (positions x axis) with (posn 0 x axis). rewrite A.
    destruct (loc_list t axis) as [pos|e]; cbn [bind].
    + constructor; [exact B|exact IH].
    + destruct IH as [E [y [Y1 Y2]]]. split; [exact E|]. exists y. split; [right; exact Y1|exact Y2].
  - change (positions x axis) with (posn 0 x axis). rewrite (posn_none axis 0 x I). split; [reflexivity|]. exists x. split; [left; reflexivity|exact I].
Qed.
Lemma loc_labels : forall labels axis pos, Forall2 (fun x k => nth_error axis k = Some x) labels pos -> map (fun i => nth i axis EmptyString) pos = labels.
Proof. intros labels axis pos F. induction F as [|x k t p A F IH]; cbn; [reflexivity|]. f_equal; [apply nth_error_nth; exact A|exact IH]. Qed.
Lemma seq_pos : forall (axis : list string), Forall2 (fun x k => nth_error axis k = Some x) axis (seq 0 (length axis)).
Proof.
  intros axis.
  enough (G : forall pre l, Forall2 (fun x k => nth_error (pre ++ l) k = Some x) l (seq (length pre) (length l))) by exact (G [] axis).
  intros pre l. revert pre. induction l as [|x t IH]; intros pre; cbn; constructor.
  - rewrite nth_error_app2 by lia. rewrite Nat.sub_diag. reflexivity.
  - specialize (IH (pre ++ [x])). rewrite <- app_assoc in IH. rewrite app_length in IH. cbn in IH. rewrite Nat.add_1_r in IH. exact IH.
Qed.

Lemma remove_first_mid : forall x p t, ~ In x p -> remove_first x (p ++ x :: t) = p ++ t.
Proof.
  induction p as [|y p IH]; intros t N; cbn; [rewrite String.eqb_refl; reflexivity|].
  destruct (String.eqb_spec y x) as [->|E]; [elim N; left; reflexivity|]. f_equal. apply IH. intros I. apply N. right. exact I.
Qed.
Lemma skip_filter : forall cols ms, skip_missing cols ms = filter (fun m => mem m cols) ms.
Proof.
  intros cols ms. unfold skip_missing.
  enough (G : forall l p, (forall x, In x p -> mem x cols = true) ->
     fold_left (fun a m => if mem m cols then a else remove_first m a) l (p ++ l) = p ++ filter (fun m => mem m cols) l).
  { apply (G ms []). intros x []. }
  induction l as [|m t IH]; intros p H; cbn [fold_left filter]; [reflexivity|].
  destruct (mem m cols) eqn:E.
  - specialize (IH (p ++ [m])). rewrite <- !app_assoc in IH. cbn in IH. rewrite IH; [reflexivity|].
    intros x X. apply in_app_or in X. destruct X as [X|[<-|[]]]; auto.
  - rewrite remove_first_mid; [apply IH; exact H|]. intros I. specialize (H m I). congruence.
Qed.

Lemma members_spec : forall table names,
  match members table names with
  | Ok l => (forall x, In x l <-> exists n, In n names /\ In (n, x) table) /\ (forall n, In n names -> In n (map fst table))
            /\ l = flat_map (fun n => map snd (filter (fun p => String.eqb (fst p) n) table)) names
  | Err e => e = KeyError /\ exists n, In n names /\ ~ In n (map fst table)
  end.
Proof.
  intros table names. induction names as [|n t IH]; cbn [members].
  - split; [|split; [intros n []|reflexivity]]. intros x. split; [intros []|intros [n [[] _]]].
  - assert (Q : forall x, In x (map snd (filter (fun p => String.eqb (fst p) n) table)) <-> In (n, x) table).
    { intros x. rewrite in_map_iff. split.
      - intros [[a b] [E I]]. apply filter_In in I. cbn in *. destruct I as [I J]. apply String.eqb_eq in J. congruence.
      - intros I. exists (n, x). split; [reflexivity|]. apply filter_In. split; [exact I|apply String.eqb_refl]. }
    destruct (filter (fun p => String.eqb (fst p) n) table) as [|q l] eqn:F.
    + split; [reflexivity|]. exists n. split; [left; reflexivity|]. intros I. apply in_map_iff in I. destruct I as [[a b] [E I]]. cbn in E. subst a.
      apply Q in I. exact I.
    + destruct (members table t) as [r|e]; cbn [bind].
      * destruct IH as [IH1 [IH2 IH3]]. split; [|split].
        -- intros x. rewrite in_app_iff, Q, IH1. split; [intros [I|[m [I J]]]; [exists n; cbn; auto|exists m; cbn; auto]|].
           intros [m [[<-|I] J]]; [left; exact J|right; exists m; auto].
        -- intros m [<-|I]; [|apply IH2; exact I]. assert (In q (filter (fun p => String.eqb (fst p) n) table)) as I by (rewrite F; left; reflexivity).
           apply filter_In in I. destruct I as [I J]. apply String.eqb_eq in J. subst n. apply in_map. exact I.
        -- cbn [flat_map]. rewrite F. rewrite <- IH3. reflexivity.
      * destruct IH as [E [m [I J]]]. split; [exact E|]. exists m. split; [right; exact I|exact J].
Qed.

(** what is asked for: the names given and those of the groups given *)
Definition Asked (names groups : list string) (table : list (string * string)) (x : string) : Prop := In x names \/ exists g, In g groups /\ In (g, x) table.

Lemma axis_summary : forall (l axis : list string), NoDup axis ->
  exists pos, loc_list (filter (fun r => mem r l) axis) axis = Ok pos
    /\ Forall2 (fun x k => nth_error axis k = Some x) (filter (fun r => mem r l) axis) pos.
Proof.
  intros l axis N. pose proof (loc_spec (filter (fun r => mem r l) axis) axis N) as H. destruct (loc_list _ axis) as [pos|e]; [eauto|].
  destruct H as [_ [x [I J]]]. apply filter_In in I. tauto.
Qed.

Section Summaries.
Variables (all : frame) (families subsets : list (string * string)) (run_families metric_subsets runs metrics : list string) (run_order metric_order : string).
Hypothesis Nr : NoDup (f_index all).
Hypothesis Nc : NoDup (f_cols all).
Hypothesis Rt : Rect all.
Let call := get_metric_summaries all families subsets run_families metric_subsets runs metrics run_order metric_order.

(** the outcome in terms of positions *)
Lemma call_ok : forall out, call = Ok out ->
  exists rp cp, Forall2 (fun x k => nth_error (f_index all) k = Some x) (f_index out) rp /\ Forall2 (fun x k => nth_error (f_cols all) k = Some x) (f_cols out) cp
    /\ f_cells out = map (fun i => map (fun j => nth j (nth i (f_cells all) []) None) cp) rp
    /\ (exists fam sub, members families run_families = Ok fam /\ members subsets metric_subsets = Ok sub
        /\ f_index out = (match runs ++ fam with [] => f_index all
                          | l => if String.eqb run_order "summary" then filter (fun r => mem r l) (f_index all) else l end)
        /\ f_cols out = (match metrics ++ sub with [] => f_cols all
                         | l => let ms := filter (fun m => mem m (f_cols all)) l in
                                if String.eqb metric_order "summary" then filter (fun m => mem m ms) (f_cols all) else ms end)).
Proof.
  intros out H. unfold call, get_metric_summaries in H.
  destruct (members families run_families) as [fam|] eqn:Ef; [|discriminate]. cbn [bind] in H.
  destruct (members subsets metric_subsets) as [sub|] eqn:Es; [|discriminate]. cbn [bind] in H.
  set (LR := match runs ++ fam with [] => f_index all | l => if String.eqb run_order "summary" then filter (fun r => mem r l) (f_index all) else l end).
  set (LC := match metrics ++ sub with [] => f_cols all | l => let ms := filter (fun m => mem m (f_cols all)) l in
                                if String.eqb metric_order "summary" then filter (fun m => mem m ms) (f_cols all) else ms end).
  match type of H with (bind ?a _ = _) => destruct a as [rp|e] eqn:Er end; [|discriminate]. cbn [bind] in H.
  match type of H with (bind ?a _ = _) => destruct a as [cp|e] eqn:Ec end; [|discriminate]. cbn [bind] in H.
  assert (FR : Forall2 (fun x k => nth_error (f_index all) k = Some x) LR rp).
  { unfold LR. destruct (runs ++ fam) as [|a l]; [injection Er as <-; apply seq_pos|].
    pose proof (loc_spec (if String.eqb run_order "summary" then filter (fun r => mem r (a :: l)) (f_index all) else a :: l) _ Nr) as Q. rewrite Er in Q. exact Q. }
  assert (FC : Forall2 (fun x k => nth_error (f_cols all) k = Some x) LC cp).
  { unfold LC. destruct (metrics ++ sub) as [|a l]; [injection Ec as <-; apply seq_pos|]. cbv zeta in *. rewrite skip_filter in Ec.
    match goal with |- Forall2 _ ?x _ => pose proof (loc_spec x _ Nc) as Q end. rewrite Ec in Q. exact Q. }
  injection H as <-. cbn [f_index f_cols f_cells]. exists rp, cp.
  rewrite (loc_labels _ _ _ FR), (loc_labels _ _ _ FC). repeat split; auto. exists fam, sub. repeat split; auto.
Qed.

(** C336: every cell returned is the cell of the whole table for its run and metric. *)
Theorem C336_values : forall out, call = Ok out ->
  length (f_cells out) = length (f_index out) /\ (forall row, In row (f_cells out) -> length row = length (f_cols out))
  /\ forall i j r m, nth_error (f_index out) i = Some r -> nth_error (f_cols out) j = Some m ->
       exists i' j' v, nth_error (f_index all) i' = Some r /\ nth_error (f_cols all) j' = Some m /\ At (f_cells all) i' j' v /\ At (f_cells out) i j v.
Proof.
  intros out H. destruct (call_ok out H) as [rp [cp [FR [FC [E _]]]]].
  assert (L2 : forall (l : list string) axis pos, Forall2 (fun x k => nth_error axis k = Some x) l pos -> length pos = length l).
  { intros l axis pos F. induction F; cbn; congruence. }
  assert (P2 : forall (l : list string) axis pos, Forall2 (fun x k => nth_error axis k = Some x) l pos ->
     forall i x, nth_error l i = Some x -> exists k, nth_error pos i = Some k /\ nth_error axis k = Some x).
  { intros l axis pos F. induction F as [|y k t p A F IH]; intros [|i] x X; cbn in X; try discriminate; [injection X as <-; exists k; auto|apply IH; exact X]. }
  rewrite E. split; [rewrite map_length; apply (L2 _ _ _ FR)|]. split.
  { intros row I. apply in_map_iff in I. destruct I as [i [<- _]]. rewrite map_length. apply (L2 _ _ _ FC). }
  intros i j r m A B. destruct (P2 _ _ _ FR i r A) as [i' [A1 A2]]. destruct (P2 _ _ _ FC j m B) as [j' [B1 B2]].
  destruct Rt as [Lt Wt].
  assert (Li : (i' < length (f_cells all))%nat) by (rewrite Lt; apply nth_error_Some; congruence).
  assert (I' : In (nth i' (f_cells all) []) (f_cells all)) by (apply nth_In; exact Li).
  assert (Lj : (j' < length (nth i' (f_cells all) []))%nat) by (rewrite (Wt _ I'); apply nth_error_Some; congruence).
  exists i', j', (nth j' (nth i' (f_cells all) []) None). split; [exact A2|]. split; [exact B2|]. split.
  - exists (nth i' (f_cells all) []). split; [apply nth_error_nth'; exact Li|apply nth_error_nth'; exact Lj].
  - exists (map (fun j0 => nth j0 (nth i' (f_cells all) []) None) cp). split; rewrite nth_error_map'; [rewrite A1|rewrite B1]; reflexivity.
Qed.

(** C336: which runs and metrics.  Nothing asked for: all.  In "summary" order: those asked for that are in the table, in the order of
    the table.  Otherwise those asked for, in the order asked -- for metrics those that the table has. *)
Theorem C336_choice : forall out, call = Ok out ->
  (runs = [] -> run_families = [] -> f_index out = f_index all)
  /\ (metrics = [] -> metric_subsets = [] -> f_cols out = f_cols all)
  /\ (run_order = "summary"%string -> (exists x, Asked runs run_families families x) -> Sub (Asked runs run_families families) (f_index all) (f_index out))
  /\ (metric_order = "summary"%string -> (exists x, Asked metrics metric_subsets subsets x) -> Sub (Asked metrics metric_subsets subsets) (f_cols all) (f_cols out))
  /\ (run_order <> "summary"%string -> (exists x, Asked runs run_families families x) ->
        f_index out = runs ++ flat_map (fun n => map snd (filter (fun p => String.eqb (fst p) n) families)) run_families)
  /\ (metric_order <> "summary"%string -> (exists x, Asked metrics metric_subsets subsets x) ->
        Sub (fun m => In m (f_cols all)) (metrics ++ flat_map (fun n => map snd (filter (fun p => String.eqb (fst p) n) subsets)) metric_subsets) (f_cols out)).
Proof.
  intros out H. destruct (call_ok out H) as [_ [_ [_ [_ [_ [fam [sub [Mf [Ms [ER EC]]]]]]]]]].
  pose proof (members_spec families run_families) as Pf. rewrite Mf in Pf. destruct Pf as [Pf1 [_ Pf2]].
  pose proof (members_spec subsets metric_subsets) as Ps. rewrite Ms in Ps. destruct Ps as [Ps1 [_ Ps2]].
  assert (Ar : forall x, Asked runs run_families families x <-> In x (runs ++ fam)) by (intros x; unfold Asked; rewrite in_app_iff, Pf1; tauto).
  assert (Am : forall x, Asked metrics metric_subsets subsets x <-> In x (metrics ++ sub)) by (intros x; unfold Asked; rewrite in_app_iff, Ps1; tauto).
  assert (NEr : (exists x, Asked runs run_families families x) -> runs ++ fam <> []) by (intros [x X] E; apply Ar in X; rewrite E in X; exact X).
  assert (NEm : (exists x, Asked metrics metric_subsets subsets x) -> metrics ++ sub <> []) by (intros [x X] E; apply Am in X; rewrite E in X; exact X).
  split; [|split; [|split; [|split; [|split]]]].
  - intros E1 E2. subst fam. rewrite E2, E1 in ER. cbn in ER. exact ER.
  - intros E1 E2. subst sub. rewrite E2, E1 in EC. cbn in EC. exact EC.
  - intros E X. specialize (NEr X). destruct (runs ++ fam) as [|a l] eqn:F; [congruence|]. rewrite E in ER. cbn [String.eqb Ascii.eqb Bool.eqb] in ER.
    rewrite ER. apply filter_sub. intros x. rewrite mem_in, Ar. tauto.
  - intros E X. specialize (NEm X). destruct (metrics ++ sub) as [|a l] eqn:F; [congruence|]. rewrite E in EC. cbv zeta in EC. cbn [String.eqb Ascii.eqb Bool.eqb] in EC.
    rewrite EC.
    assert (G : filter (fun m => mem m (filter (fun m0 => mem m0 (f_cols all)) (a :: l))) (f_cols all) = filter (fun m => mem m (a :: l)) (f_cols all)).
    { apply filter_ext_in. intros x I. destruct (mem x (a :: l)) eqn:M.
      - apply mem_in. apply filter_In. split; [apply mem_in; exact M|apply mem_in; exact I].
      - apply mem_not. intros J. apply filter_In in J. apply mem_not in M. tauto. }
    rewrite G. apply filter_sub. intros x. rewrite mem_in, Am. tauto.
  - intros E X. specialize (NEr X). rewrite <- Pf2. destruct (runs ++ fam) as [|a l] eqn:F; [congruence|].
    destruct (String.eqb_spec run_order "summary") as [E'|_]; [contradiction|]. exact ER.
  - intros E X. specialize (NEm X). rewrite <- Ps2. destruct (metrics ++ sub) as [|a l] eqn:F; [congruence|].
    cbv zeta in EC. destruct (String.eqb_spec metric_order "summary") as [E'|_]; [contradiction|]. rewrite EC. apply filter_sub. intros x. apply mem_in.
Qed.

(** C336: what is refused, always with KeyError: a family or a subset that does not exist, and -- unless in "summary" order -- a run that is
    not in the table.  A metric that is not in the table never is. *)
Theorem C336_errors :
  (exists out, call = Ok out) <->
  (forall f, In f run_families -> In f (map fst families)) /\ (forall s, In s metric_subsets -> In s (map fst subsets))
  /\ (run_order <> "summary"%string -> forall r, Asked runs run_families families r -> In r (f_index all)).
Proof.
  unfold call, get_metric_summaries.
  pose proof (members_spec families run_families) as Pf. destruct (members families run_families) as [fam|e]; cbn [bind].
  2:{ split; [intros [out X]; discriminate|]. intros [F _]. destruct Pf as [_ [n [I J]]]. elim J. apply F. exact I. }
  pose proof (members_spec subsets metric_subsets) as Ps. destruct (members subsets metric_subsets) as [sub|e]; cbn [bind].
  2:{ split; [intros [out X]; discriminate|]. intros [_ [F _]]. destruct Ps as [_ [n [I J]]]. elim J. apply F. exact I. }
  destruct Pf as [Pf1 [Pf2 _]], Ps as [Ps1 [Ps2 _]].
  assert (Ar : forall x, Asked runs run_families families x <-> In x (runs ++ fam)) by (intros x; unfold Asked; rewrite in_app_iff, Pf1; tauto).
  assert (C : exists cp, match metrics ++ sub with
             | [] => Ok (seq 0 (length (f_cols all)))
             | _ => let ms := skip_missing (f_cols all) (metrics ++ sub) in
                    loc_list (if String.eqb metric_order "summary" then filter (fun m => mem m ms) (f_cols all) else ms) (f_cols all)
             end = Ok cp).
  { destruct (metrics ++ sub) as [|a l]; [eauto|]. cbv zeta. rewrite skip_filter. destruct (String.eqb metric_order "summary").
    - destruct (axis_summary (filter (fun m => mem m (f_cols all)) (a :: l)) (f_cols all) Nc) as [pos [E _]]. eauto.
    - pose proof (loc_spec (filter (fun m => mem m (f_cols all)) (a :: l)) _ Nc) as Q. destruct (loc_list _ _) as [pos|e]; [eauto|].
      destruct Q as [_ [x [I J]]]. apply filter_In in I. destruct I as [_ I]. apply mem_in in I. contradiction. }
  destruct C as [cp Ec]. cbv zeta in Ec.
  split.
  - intros [out X]. split; [exact Pf2|]. split; [exact Ps2|]. intros E r A. apply Ar in A.
    match type of X with (bind ?a _ = _) => destruct a as [rp|e] eqn:Er end; [|discriminate].
    destruct (runs ++ fam) as [|a l]; [contradiction|]. destruct (String.eqb_spec run_order "summary") as [E'|_]; [contradiction|].
    pose proof (loc_spec (a :: l) _ Nr) as Q. rewrite Er in Q. clear - Q A. induction Q as [|x k t p B Q IH]; [contradiction|].
    destruct A as [<-|A]; [apply nth_error_In in B; exact B|apply IH; exact A].
  - intros [_ [_ E]].
    assert (R1 : exists rp, match runs ++ fam with [] => Ok (seq 0 (length (f_index all)))
       | _ => loc_list (if String.eqb run_order "summary" then filter (fun r => mem r (runs ++ fam)) (f_index all) else runs ++ fam) (f_index all) end = Ok rp).
    { destruct (runs ++ fam) as [|a l] eqn:F; [eauto|]. destruct (String.eqb_spec run_order "summary") as [E'|E'].
      - destruct (axis_summary (a :: l) (f_index all) Nr) as [pos [P _]]. eauto.
      - pose proof (loc_spec (a :: l) _ Nr) as Q. destruct (loc_list (a :: l) (f_index all)) as [pos|e]; [eauto|]. destruct Q as [_ [x [I J]]]. elim J. apply (E E'). apply Ar. exact I. }
    destruct R1 as [rp Er].
    match goal with |- exists out, bind ?a _ = Ok out => replace a with (Ok rp) by (first [exact Er|symmetry; exact Er]) end. cbn [bind].
    match goal with |- exists out, bind ?a _ = Ok out => replace a with (Ok cp) by (first [exact Ec|symmetry; exact Ec]) end. cbn [bind]. eauto.
Qed.
End Summaries.
Print Assumptions C336_values.
Print Assumptions C336_choice.
Print Assumptions C336_errors.

Definition ex_all : frame := {| f_iname := None; f_cname := None; f_index := ["a"; "b"]%string; f_cols := ["m"]%string; f_cells := [[Some 1%R]; [Some 2%R]] |}.
(** C336: a run of two of the families asked for is returned twice (in the default order). *)
Theorem C336_once_refuted : ~ (forall all families subsets rf ms runs metrics mo out, NoDup (f_index all) -> NoDup (f_cols all) -> Rect all -> NoDup rf -> NoDup runs ->
  get_metric_summaries all families subsets rf ms runs metrics "family" mo = Ok out -> NoDup (f_index out)).
Proof.
  intros H.
  assert (E : exists out, get_metric_summaries ex_all [("f1", "a"); ("f2", "a")]%string [] ["f1"; "f2"]%string [] [] [] "family" "summary" = Ok out /\ f_index out = ["a"; "a"]%string)
    by (eexists; split; reflexivity).
  destruct E as [out [E I]].
  assert (R1 : Rect ex_all) by (split; [reflexivity|]; cbn; intros row [<-|[<-|[]]]; reflexivity).
  assert (N1 : NoDup (f_index ex_all)) by (repeat constructor; cbn; intuition congruence).
  assert (N2 : NoDup (f_cols ex_all)) by (repeat constructor; cbn; tauto).
  assert (N3 : NoDup ["f1"; "f2"]%string) by (repeat constructor; cbn; intuition congruence).
  pose proof (H _ _ _ _ _ _ _ _ _ N1 N2 R1 N3 (NoDup_nil _) E) as N. rewrite I in N.
  inversion N as [|x l A B]; subst. apply A. left. reflexivity.
Qed.
Print Assumptions C336_once_refuted.
(** C336: asking only for metrics that are not there gives a table without columns, not the whole table. *)
Example C336_case : exists out, get_metric_summaries ex_all [("f1", "b")]%string [] ["f1"]%string [] [] ["none"]%string "family" "summary" = Ok out
  /\ f_index out = ["b"%string] /\ f_cols out = [] /\ Rect ex_all.
Proof. eexists. split; [reflexivity|]. split; [reflexivity|]. split; [reflexivity|]. split; [reflexivity|]. cbn. intros row [<-|[<-|[]]]; reflexivity. Qed.
