(** Lemmas about the tracking database and sanitised names. *)
From Verif Require Import Base ResultsDb_Model ResultsDb_Proofs TrackingDb_Model TrackingDb_Spec.
From Coq Require Import Lia Permutation Ascii.

Section T.
Variable relpath : string -> string.
Notation add_run := (add_run relpath).
Notation tstep := (tstep relpath).

Definition TInv (t : list run_row) : Prop := NoDup (map r_id t) /\ NoDup (map r_dir t).

Lemma add_cases t info d oi :
  let dir := relpath (null_str d) in
  (exists r, In r t /\ r_dir r = dir /\
     add_run t info d oi = (filter (fun r => negb (String.eqb (r_dir r) dir)) t ++ [mkR (r_id r) dir (map null_str info)], Ok (r_id r))) \/
  ((forall r, In r t -> r_dir r <> dir) /\
   ((exists i r, oi = Some i /\ In r t /\ r_id r = i /\ add_run t info d oi = (t, Err ValueError)) \/
    (exists i, ~ In i (map r_id t) /\ (oi = Some i \/ oi = None /\ i = next_id (map r_id t)) /\
       add_run t info d oi = (t ++ [mkR i dir (map null_str info)], Ok i)))).
Proof.
  cbv zeta. unfold TrackingDb_Model.add_run. set (dir := relpath (null_str d)).
  destruct (filter (fun r => String.eqb (r_dir r) dir) t) as [|r l] eqn:E.
  - right. split.
    + intros r Hr Hd. assert (In r []) as []. rewrite <- E. apply filter_In. split; auto. apply String.eqb_eq; auto.
    + destruct oi as [i|].
      * destruct (existsb (fun r => (r_id r =? i)%nat) t) eqn:X.
        -- left. apply existsb_exists in X as (r & Hr & X). apply Nat.eqb_eq in X. exists i, r. auto.
        -- right. exists i. split; auto. intros Hi. apply in_map_iff in Hi as (r & Er & Hr).
           assert (existsb (fun r => (r_id r =? i)%nat) t = true) as Y by (apply existsb_exists; exists r; split; auto; apply Nat.eqb_eq; auto).
           congruence.
      * right. exists (next_id (map r_id t)). split; auto. apply next_id_notin.
  - left. exists r. assert (In r (filter (fun r => String.eqb (r_dir r) dir) t)) as H by (rewrite E; left; auto).
    apply filter_In in H as [H1 H2]. apply String.eqb_eq in H2. auto.
Qed.

Lemma inj_of {B} (f : run_row -> B) t a b : NoDup (map f t) -> In a t -> In b t -> f a = f b -> a = b.
Proof.
  induction t as [|x t IH]; simpl; [tauto|]. intros Hn. apply NoDup_cons_iff in Hn as [Hx Hn].
  intros [->|Ha] [->|Hb] E; auto.
  - elim Hx. rewrite E. apply in_map; auto.
  - elim Hx. rewrite <- E. apply in_map; auto.
Qed.

Lemma add_inv t info d oi : TInv t -> TInv (fst (add_run t info d oi)).
Proof.
  intros [H1 H2]. destruct (add_cases t info d oi) as [(r & Hr & Hd & ->)|(Hn & [(i & r & _ & _ & _ & ->)|(i & Hi & _ & ->)])]; cbn [fst].
  - split; rewrite map_app; simpl; apply NoDup_snoc; try (apply NoDup_map_filter; auto).
    + intros H. apply in_map_iff in H as (x & E & Hx). apply filter_In in Hx as [Hx1 Hx2].
      assert (x = r) as -> by (apply (inj_of r_id t); auto). rewrite Hd, String.eqb_refl in Hx2. discriminate.
    + intros H. apply in_map_iff in H as (x & E & Hx). apply filter_In in Hx as [Hx1 Hx2].
      rewrite E, String.eqb_refl in Hx2. discriminate.
  - split; auto.
  - split; rewrite map_app; simpl; apply NoDup_snoc; auto.
    intros H. apply in_map_iff in H as (x & E & Hx). apply (Hn x Hx E).
Qed.
Lemma del_cases t i : TInv t ->
  (exists r, In r t /\ r_id r = i /\ del_run t i = (filter (fun r => negb (r_id r =? i)%nat) t, Ok tt)) \/
  ((forall r, In r t -> r_id r <> i) /\ del_run t i = (t, Err ValueError)).
Proof.
  intros [H1 H2]. unfold del_run. destruct (filter (fun r => (r_id r =? i)%nat) t) as [|r [|r' l]] eqn:E.
  - right. split; auto. intros r Hr Hi. assert (In r []) as []. rewrite <- E. apply filter_In. split; auto. apply Nat.eqb_eq; auto.
  - left. exists r. assert (In r (filter (fun r => (r_id r =? i)%nat) t)) as H by (rewrite E; left; auto).
    apply filter_In in H as [Ha Hb]. apply Nat.eqb_eq in Hb. auto.
  - exfalso. assert (NoDup (map r_id (filter (fun r => (r_id r =? i)%nat) t))) as Hn by (apply NoDup_map_filter; auto).
    assert (forall x, In x (filter (fun r => (r_id r =? i)%nat) t) -> r_id x = i) as Hx
      by (intros x Hx; apply filter_In in Hx as [_ Hx]; apply Nat.eqb_eq; auto).
    rewrite E in Hn, Hx. simpl in Hn. apply NoDup_cons_iff in Hn as [Hn _]. apply Hn. simpl. left.
    rewrite (Hx r), (Hx r'); simpl; auto.
Qed.
Lemma del_inv t i : TInv t -> TInv (fst (del_run t i)).
Proof.
  intros H. destruct (del_cases t i H) as [(r & _ & _ & ->)|(_ & ->)]; cbn [fst]; auto.
  destruct H. split; apply NoDup_map_filter; auto.
Qed.
Lemma trun_inv h : TInv (trun relpath h).
Proof.
  unfold trun. assert (forall t, TInv t -> TInv (fold_left tstep h t)) as H.
  { induction h as [|o l IH]; intros t Ht; simpl; auto. apply IH. destruct o as [info d oi|i]; [apply add_inv|apply del_inv]; auto. }
  apply H. split; constructor.
Qed.
End T.

(** * names *)
Lemma in_replace x c b s : In x (replace_char c b s) -> In x b \/ (In x s /\ x <> c).
Proof.
  unfold replace_char. intros H. apply in_flat_map in H as (y & Hy & H).
  destruct (N.eqb_spec y c) as [E|E]; auto. destruct H as [<-|[]]. auto.
Qed.
Lemma replace_id c b s : ~ In c s -> replace_char c b s = s.
Proof.
  unfold replace_char. induction s as [|x t IH]; simpl; auto. intros H.
  destruct (N.eqb_spec x c) as [->|E]; [tauto|]. simpl. f_equal. auto.
Qed.
Definition rules : list (char * list char) :=
  [(chr ">", [chr "g"; chr "t"]); (chr "<", [chr "l"; chr "t"]); (chr "=", [chr "e"; chr "q"]); (chr " ", [us]);
   (chr ".", [us]); (chr ",", []); (chr "/", [us]); (chr "\", [us]); (chr "(", []); (chr ")", []); (chr ":", [us]);
   (chr ";", [us]); (chr "%", [us]); (chr "#", [us])]%char.
Definition apply_rules (l : list (char * list char)) (s : list char) : list char :=
  fold_left (fun s r => replace_char (fst r) (snd r) s) l s.
Lemma sanitize_rules s : sanitize_chars s = apply_rules rules s.
Proof. reflexivity. Qed.
Lemma apply_rules_in x l : (forall r, In r l -> ~ In x (snd r)) -> forall s, In x (apply_rules l s) ->
  In x s /\ forall r, In r l -> x <> fst r.
Proof.
  induction l as [|r t IH]; intros Hr s H; simpl in H; [split; auto; intros ? []|].
  apply IH in H as [H1 H2]; [|intros; apply Hr; right; auto].
  apply in_replace in H1 as [H1|[H1 H3]]; [elim (Hr r); simpl; auto|].
  split; auto. intros r' [<-|Hr']; auto.
Qed.
Lemma apply_rules_id l : forall s, (forall r, In r l -> ~ In (fst r) s) -> apply_rules l s = s.
Proof.
  induction l as [|r t IH]; intros s H; simpl; auto. rewrite replace_id by (apply H; left; auto).
  apply IH. intros; apply H; right; auto.
Qed.
Lemma unsafe_rules c : In c unsafe <-> exists r, In r rules /\ fst r = c.
Proof.
  change unsafe with (map fst rules). rewrite in_map_iff. split; intros (r & H1 & H2); exists r; auto.
Qed.
Lemma by_safe : forallb (fun r => forallb (fun c => negb (existsb (N.eqb c) unsafe)) (snd r)) rules = true.
Proof. reflexivity. Qed.
Lemma by_safe' c r : In c unsafe -> In r rules -> ~ In c (snd r).
Proof.
  intros Hc Hr Hi. pose proof by_safe as H. rewrite forallb_forall in H. specialize (H r Hr). rewrite forallb_forall in H.
  specialize (H c Hi). apply negb_true_iff in H.
  assert (existsb (N.eqb c) unsafe = true) as X by (apply existsb_exists; exists c; split; auto; apply N.eqb_refl). congruence.
Qed.
Lemma sanitize_safe c s : In c unsafe -> ~ In c (sanitize_chars s).
Proof.
  intros Hc H. rewrite sanitize_rules in H. apply apply_rules_in in H as [_ H]; [|intros r Hr; apply by_safe'; auto].
  apply unsafe_rules in Hc as (r & Hr & E). apply (H r Hr). auto.
Qed.
Lemma sanitize_id s : (forall c, In c unsafe -> ~ In c s) -> sanitize_chars s = s.
Proof. intros H. rewrite sanitize_rules. apply apply_rules_id. intros r Hr. apply H, unsafe_rules. eauto. Qed.

Lemma double_ind (P : list char -> Prop) : P [] -> (forall a, P [a]) ->
  (forall a b t, P t -> P (b :: t) -> P (a :: b :: t)) -> forall s, P s.
Proof.
  intros H0 H1 H2. assert (forall s, P s /\ forall a, P (a :: s)) as H; [|intros s; apply H].
  induction s as [|b t [IH1 IH2]]; auto.
Qed.
Lemma replace_double_in x : forall s, In x (replace_double s) -> In x s.
Proof.
  apply (double_ind (fun s => In x (replace_double s) -> In x s)); auto. intros a b t IH1 IH2.
  change (replace_double (a :: b :: t)) with (if N.eqb a us && N.eqb b us then us :: replace_double t else a :: replace_double (b :: t)).
  destruct (N.eqb a us && N.eqb b us) eqn:E.
  - apply andb_true_iff in E as [E1 E2]. apply N.eqb_eq in E1. intros [H|H]; [left; congruence|right; right; auto].
  - intros [H|H]; [left; auto|right; auto].
Qed.
Lemma replace_double_length : forall s, length (replace_double s) <= length s /\
  (has_double s = true -> length (replace_double s) < length s).
Proof.
  apply (double_ind (fun s => length (replace_double s) <= length s /\ (has_double s = true -> length (replace_double s) < length s))).
  - split; auto. discriminate.
  - split; auto. discriminate.
  - intros a b t [IH1 IH2] [IH3 IH4]. 
    change (replace_double (a :: b :: t)) with (if N.eqb a us && N.eqb b us then us :: replace_double t else a :: replace_double (b :: t)).
    change (has_double (a :: b :: t)) with ((N.eqb a us && N.eqb b us) || has_double (b :: t)).
    destruct (N.eqb a us && N.eqb b us); cbn [orb].
    + cbn [length]. lia.
    + remember (b :: t) as u. cbn [length]. split; [lia|]. intros H. specialize (IH4 H). lia.
Qed.
Lemma has_double_iff : forall s, has_double s = true <-> exists p q, s = p ++ [us; us] ++ q.
Proof.
  apply (double_ind (fun s => has_double s = true <-> exists p q, s = p ++ [us; us] ++ q)).
  - split; [discriminate|]. intros (p & q & E). destruct p; discriminate.
  - intros a. split; [discriminate|]. intros (p & q & E). destruct p as [|x [|y p]]; discriminate.
  - intros a b t _ IH. cbn [has_double]. rewrite orb_true_iff. split.
    + intros [H|H].
      * apply andb_true_iff in H as [H1 H2]. apply N.eqb_eq in H1, H2. subst. exists [], t. auto.
      * apply IH in H as (p & q & E). exists (a :: p), q. simpl in *. congruence.
    + intros (p & q & E). destruct p as [|x p]; simpl in E.
      * injection E as -> -> E. left. rewrite N.eqb_refl. auto.
      * injection E as -> E. right. apply IH. exists p, q. auto.
Qed.
Lemma collapse_spec : forall fuel s, length s <= fuel -> exists r, collapse fuel s = Some r /\ has_double r = false /\
  forall x, In x r -> In x s.
Proof.
  induction fuel as [|f IH]; intros s Hs; simpl.
  - destruct s; [|simpl in Hs; lia]. simpl. exists []. auto.
  - destruct (has_double s) eqn:E; [|exists s; auto]. destruct (replace_double_length s) as [_ H]. specialize (H E).
    destruct (IH (replace_double s) ltac:(lia)) as (r & Er & Hr & Hi). exists r. split; auto. split; auto.
    intros x Hx. apply replace_double_in; auto.
Qed.
Lemma collapse_id fuel s : has_double s = false -> collapse fuel s = Some s.
Proof. intros H. destruct fuel; simpl; rewrite H; auto. Qed.
Lemma safe_fix s : safe_name s -> name_sanitize s = Some s.
Proof.
  intros [H1 H2]. unfold name_sanitize. rewrite sanitize_id by auto. apply collapse_id.
  destruct (has_double s) eqn:E; auto. apply has_double_iff in E as (p & q & E). elim (H2 p q E).
Qed.
Lemma sanitize_spec s : exists r, name_sanitize s = Some r /\ safe_name r.
Proof.
  unfold name_sanitize. destruct (collapse_spec (length (sanitize_chars s)) (sanitize_chars s) (le_n _)) as (r & Er & Hr & Hi).
  exists r. split; auto. split.
  - intros c Hc H. apply (sanitize_safe c s Hc). auto.
  - intros p q E. assert (has_double r = true) as X by (apply has_double_iff; exists p, q; exact E). congruence.
Qed.

(** the other characters stay, in order *)
Lemma filter_replace keep c b s : keep c = false -> filter keep b = [] -> filter keep (replace_char c b s) = filter keep s.
Proof.
  intros Hc Hb. unfold replace_char. induction s as [|x t IH]; simpl; auto. rewrite filter_app, IH.
  destruct (N.eqb_spec x c) as [->|E].
  - rewrite Hb, Hc. auto.
  - simpl. destruct (keep x); auto.
Qed.
Lemma filter_double keep : keep us = false -> forall s, filter keep (replace_double s) = filter keep s.
Proof.
  intros Hu. apply (double_ind (fun s => filter keep (replace_double s) = filter keep s)); auto. intros a b t IH1 IH2.
  change (replace_double (a :: b :: t)) with (if N.eqb a us && N.eqb b us then us :: replace_double t else a :: replace_double (b :: t)).
  destruct (N.eqb a us && N.eqb b us) eqn:E.
  - apply andb_true_iff in E as [E1 E2]. apply N.eqb_eq in E1, E2. subst. simpl. rewrite Hu. auto.
  - remember (b :: t) as u. simpl. rewrite IH2. auto.
Qed.
Lemma filter_collapse keep : keep us = false -> forall fuel s r, collapse fuel s = Some r -> filter keep r = filter keep s.
Proof.
  intros Hu. induction fuel as [|f IH]; intros s r; simpl; destruct (has_double s); try discriminate; try congruence.
  intros H. rewrite (IH _ _ H). apply filter_double; auto.
Qed.
Lemma filter_rules keep l : forall s,
  (forall r, In r l -> keep (fst r) = false /\ (filter keep (snd r) = [] \/ ~ In (fst r) s /\ forall r', In r' l -> ~ In (fst r) (snd r'))) ->
  filter keep (apply_rules l s) = filter keep s.
Proof.
  induction l as [|r t IH]; intros s H; simpl; auto.
  destruct (H r ltac:(left; auto)) as [H1 [H2|[H2 _]]].
  - rewrite IH; auto; [apply filter_replace; auto|]. intros r' Hr'. destruct (H r' ltac:(right; auto)) as [H3 [H4|[H4 H5]]]; split; auto.
    right. split; [|intros; apply H5; right; auto]. intros Hi. apply in_replace in Hi as [Hi|[Hi _]]; [|auto]. apply (H5 r); simpl; auto.
  - rewrite replace_id by auto. apply IH; auto. intros r' Hr'. destruct (H r' ltac:(right; auto)) as [H3 [H4|[H4 H5]]]; split; auto.
    right. split; auto. intros; apply H5; right; auto.
Qed.
Definition kept (c : char) : bool := negb (existsb (N.eqb c) (us :: unsafe)).
Lemma sanitize_keeps s r : (forall c, In c (map N_of_ascii [">"; "<"; "="]%char) -> ~ In c s) ->
  name_sanitize s = Some r -> filter kept r = filter kept s.
Proof.
  intros H E. unfold name_sanitize in E. apply (filter_collapse kept) in E; [|reflexivity]. rewrite E, sanitize_rules.
  apply filter_rules; auto. intros x Hx. split.
  - destruct Hx as [<-|[<-|[<-|[<-|[<-|[<-|[<-|[<-|[<-|[<-|[<-|[<-|[<-|[<-|[]]]]]]]]]]]]]]]; reflexivity.
  - assert (In (fst x) unsafe) as Hu by (apply unsafe_rules; eauto).
    destruct Hx as [<-|[<-|[<-|Hx]]].
    1-3: right; split; [apply H; simpl; auto|intros r' Hr'; apply by_safe'; auto].
    left. destruct Hx as [<-|[<-|[<-|[<-|[<-|[<-|[<-|[<-|[<-|[<-|[<-|[]]]]]]]]]]]]; reflexivity.
Qed.
