(** Lemmas about the prenight model. *)
From Verif Require Import Base Calendar_Model Calendar_Spec Calendar_Proofs Prenight_Model Prenight_Spec.
From Coq Require Import Lia QArith Lqa.
Open Scope Z_scope.

Lemma has_tags_spec w h : has_tags w h = true <-> tagged_all w h.
Proof.
  unfold has_tags, tagged_all. rewrite forallb_forall. split; intros H g Hg.
  - apply H in Hg. apply existsb_exists in Hg as (x & Hx & E). apply String.eqb_eq in E. subst. auto.
  - apply existsb_exists. exists g. split; auto. apply String.eqb_refl.
Qed.
Lemma age_spec now c m : (m <? age_days now c) = false <-> now - c < (m + 1) * 86400000000.
Proof.
  rewrite Z.ltb_ge. unfold age_days, day_us. pose proof (Z.div_mod (now - c) 86400000000 ltac:(lia)).
  pose proof (Z.mod_pos_bound (now - c) 86400000000 ltac:(lia)). lia.
Qed.
(** the best of the rows seen so far *)
Definition best_so_far (now : nat -> Z) tags m (rows : list psim) (best : option psim) : Prop :=
  match best with
  | None => forall j r, nth_error rows j = Some r -> ~ eligible (now j) tags m r
  | Some s => exists i, nth_error rows i = Some s /\ eligible (now i) tags m s /\
      forall j r, nth_error rows j = Some r -> eligible (now j) tags m r ->
        ps_created r < ps_created s \/ (ps_created r = ps_created s /\ (j <= i)%nat)
  end.
Lemma nth_snoc {A} (l : list A) x j r : nth_error (l ++ [x]) j = Some r -> nth_error l j = Some r \/ (j = length l /\ r = x).
Proof.
  intros H. destruct (Nat.lt_ge_cases j (length l)) as [L|L].
  - rewrite nth_error_app1 in H by auto. auto.
  - rewrite nth_error_app2 in H by auto. destruct (j - length l)%nat as [|k] eqn:E.
    + simpl in H. injection H as <-. right. split; auto. lia.
    + simpl in H. destruct k; discriminate.
Qed.
Lemma nth_snoc_l {A} (l : list A) x j r : nth_error l j = Some r -> nth_error (l ++ [x]) j = Some r.
Proof. intros H. rewrite nth_error_app1; auto. apply nth_error_Some. congruence. Qed.
Lemma nth_snoc_r {A} (l : list A) x : nth_error (l ++ [x]) (length l) = Some x.
Proof. rewrite nth_error_app2, Nat.sub_diag by auto. reflexivity. Qed.
Lemma select_from_inv now tags m : forall rows pre best, best_so_far now tags m pre best ->
  best_so_far now tags m (pre ++ rows) (select_from now tags m (length pre) best rows).
Proof.
  induction rows as [|s rest IH]; intros pre best H; cbn [select_from].
  - rewrite app_nil_r. auto.
  - replace (pre ++ s :: rest) with ((pre ++ [s]) ++ rest) by (rewrite <- app_assoc; reflexivity).
    replace (S (length pre)) with (length (pre ++ [s])) by (rewrite app_length; simpl; lia).
    apply IH. clear IH rest.
    assert (forall b, best_so_far now tags m pre b -> ~ eligible (now (length pre)) tags m s -> best_so_far now tags m (pre ++ [s]) b) as Keep.
    { intros [b|] Hb N; simpl in *.
      - destruct Hb as (i & Hi & Ei & Hm). exists i. split; [apply nth_snoc_l; auto|]. split; auto.
        intros j r Hj Er. apply nth_snoc in Hj as [Hj|[-> ->]]; eauto. contradiction.
      - intros j r Hj. apply nth_snoc in Hj as [Hj|[-> ->]]; eauto. }
    destruct (has_tags tags (ps_tags s)) eqn:Ht; cbn [negb].
    2:{ apply Keep; auto. intros [T _]. apply has_tags_spec in T. congruence. }
    apply has_tags_spec in Ht.
    assert (match best with Some b => ps_created b <= ps_created s | None => True end ->
      (m <? age_days (now (length pre)) (ps_created s)) = false -> best_so_far now tags m (pre ++ [s]) (Some s)) as Take.
    { intros Hb Ha. apply age_spec in Ha. exists (length pre). split; [apply nth_snoc_r|]. split; [split; auto|].
      intros j r Hj Er. apply nth_snoc in Hj as [Hj|[-> ->]]; [|right; auto].
      assert (j < length pre)%nat by (apply nth_error_Some; congruence).
      destruct best as [b|]; [|exfalso; exact (H j r Hj Er)]. destruct H as (i & Hi & Ei & Hm).
      specialize (Hm j r Hj Er). destruct (Z.eq_dec (ps_created r) (ps_created s)); [right; split; [auto|lia]|left; lia]. }
    destruct (match best with Some b => ps_created s <? ps_created b | None => false end) eqn:Eb.
    + destruct best as [b|]; [|discriminate]. apply Z.ltb_lt in Eb. destruct H as (i & Hi & Ei & Hm). exists i.
      split; [apply nth_snoc_l; auto|]. split; auto. intros j r Hj Er. apply nth_snoc in Hj as [Hj|[-> ->]]; eauto.
    + destruct (m <? age_days (now (length pre)) (ps_created s)) eqn:Ea.
      * apply Keep; auto. intros [_ A]. apply age_spec in A. congruence.
      * apply Take; auto. destruct best; auto. apply Z.ltb_ge in Eb. auto.
Qed.
Lemma select_latest_best now tags m rows : best_so_far now tags m rows (select_latest now rows tags m).
Proof. unfold select_latest. apply (select_from_inv now tags m rows [] None). intros j r H. destruct j; discriminate. Qed.

(** prototype *)
Lemma proto_match_spec lower first last tel tags s :
  proto_match lower first last tel tags s = true <-> covers lower first last tel tags s.
Proof.
  unfold proto_match, covers. rewrite !andb_true_iff, !negb_true_iff, !Z.ltb_ge, has_tags_spec.
  destruct (os_tel s) as [t|].
  - rewrite String.eqb_eq. split; [intros [[[A B] C] D]; split; [|split; [|split]]; auto; intros t' E; congruence|].
    intros (A & B & C & D). split; auto.
  - split; [intros [[[A B] C] D]; split; [|split; [|split]]; auto; discriminate|tauto].
Qed.
Definition at_least (a b : osim) : Prop := os_exec b <= os_exec a /\ os_index b <= os_index a.
Definition proto_inv lower first last tel tags (seen : list osim) (best : option osim) : Prop :=
  match best with
  | None => forall s, In s seen -> ~ covers lower first last tel tags s
  | Some b => In b seen /\ covers lower first last tel tags b /\
      forall s, In s seen -> covers lower first last tel tags s -> at_least s b -> at_least b s
  end.
Lemma proto_find_inv lower first last tel tags : forall sims seen best,
  proto_inv lower first last tel tags seen best ->
  proto_inv lower first last tel tags (seen ++ sims) (fold_left (proto_step lower first last tel tags) sims best).
Proof.
  induction sims as [|s rest IH]; intros seen best H; cbn [fold_left].
  - rewrite app_nil_r. auto.
  - replace (seen ++ s :: rest) with ((seen ++ [s]) ++ rest) by (rewrite <- app_assoc; reflexivity). apply IH. clear IH rest.
    unfold proto_step. destruct (proto_match lower first last tel tags s) eqn:M; cbn [negb].
    + apply proto_match_spec in M. destruct best as [b|].
      * destruct H as (Hi & Hc & Hm).
        assert (In b (seen ++ [s])) as Hi' by (apply in_or_app; auto).
        destruct (Z.ltb_spec (os_exec s) (os_exec b)); [|destruct (Z.ltb_spec (os_index s) (os_index b))].
        -- split; auto. split; auto. intros x Hx Cx Ax. apply in_app_or in Hx as [Hx|[<-|[]]]; auto. unfold at_least in *. lia.
        -- split; auto. split; auto. intros x Hx Cx Ax. apply in_app_or in Hx as [Hx|[<-|[]]]; auto. unfold at_least in *. lia.
        -- split; [apply in_or_app; right; left; auto|]. split; auto.
           intros x Hx Cx Ax. apply in_app_or in Hx as [Hx|[<-|[]]]; [|unfold at_least; lia].
           assert (at_least x b) by (unfold at_least in *; lia). specialize (Hm x Hx Cx H1). unfold at_least in *. lia.
      * split; [apply in_or_app; right; left; auto|]. split; auto.
        intros x Hx Cx Ax. apply in_app_or in Hx as [Hx|[<-|[]]]; [exfalso; exact (H x Hx Cx)|unfold at_least; lia].
    + assert (~ covers lower first last tel tags s) as N by (intros C; apply proto_match_spec in C; congruence).
      destruct best as [b|]; simpl in *.
      * destruct H as (Hi & Hc & Hm). split; [apply in_or_app; auto|]. split; auto.
        intros x Hx Cx. apply in_app_or in Hx as [Hx|[<-|[]]]; [auto|contradiction].
      * intros x Hx. apply in_app_or in Hx as [Hx|[<-|[]]]; auto.
Qed.
Lemma proto_find_best lower first last tel tags sims :
  proto_inv lower first last tel tags sims (proto_find lower first last tel tags sims).
Proof. apply (proto_find_inv lower first last tel tags sims [] None). intros s []. Qed.

(** overhead *)
Lemma qltb_spec a b : qltb a b = true <-> (a < b)%Q.
Proof.
  unfold qltb. rewrite negb_true_iff. split; intros H.
  - apply Qnot_le_lt. intros L. apply Qle_bool_iff in L. congruence.
  - destruct (Qle_bool b a) eqn:E; auto. apply Qle_bool_iff in E. exfalso. lra.
Qed.
Lemma qltb_false a b : qltb a b = false <-> (b <= a)%Q.
Proof.
  split; intros H.
  - apply Qnot_lt_le. intros L. apply qltb_spec in L. congruence.
  - destruct (qltb a b) eqn:E; auto. apply qltb_spec in E. exfalso. lra.
Qed.

(** almanac *)
Lemma py_get_pos {A} (l : list A) i : 0 <= i < Z.of_nat (length l) -> exists x, py_get l i = Ok x /\ nth_error l (Z.to_nat i) = Some x.
Proof.
  intros H. unfold py_get. destruct (Z.ltb_spec i 0); [lia|].
  destruct (Z.leb_spec 0 i); [|lia]. destruct (Z.ltb_spec i (Z.of_nat (length l))); [|lia]. simpl.
  unfold arr_get. destruct (nth_error l (Z.to_nat i)) as [x|] eqn:E; [exists x; auto|].
  apply nth_error_None in E. lia.
Qed.
Lemma ymd2ord_real d n : counted n d -> ymd2ord d = Z.of_nat n + 1.
Proof. intros C. apply counted_iff in C. subst. apply ord_facts. lia. Qed.
Lemma ceil_days_spec t k : (k - 1) * 86400000000 < t <= k * 86400000000 <-> ceil_days t = k.
Proof.
  unfold ceil_days, day_us. pose proof (Z.div_mod (- t) 86400000000 ltac:(lia)).
  pose proof (Z.mod_pos_bound (- t) 86400000000 ltac:(lia)). lia.
Qed.
