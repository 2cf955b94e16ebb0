(** Lemmas about the technical metrics: open time, string counts. *)
From Verif Require Import Base Technical_Model Technical_Spec Technical_Proofs Archive_Proofs.
From Coq Require Import Lia QArith Qround Lqa Permutation Sorted Ascii.
Open Scope Z_scope.

Lemma followed_open maxgap l : (forall v w, successive v w l -> o_exp v <= o_mjd w - o_mjd v) ->
  zsum (map o_exp (followed maxgap l)) <= zsum (filter (fun d => d <? maxgap) (diff_z (map o_mjd l))).
Proof.
  induction l as [|a [|b t] IH]; intros H; [apply Z.le_refl | apply Z.le_refl|].
  assert (zsum (map o_exp (followed maxgap (b :: t))) <= zsum (filter (fun d => d <? maxgap) (diff_z (map o_mjd (b :: t))))) as IH'.
  { apply IH. intros v w (i & E1 & E2). apply H. exists (S i). split; assumption. }
  assert (o_exp a <= o_mjd b - o_mjd a) as Ha by (apply H; exists 0%nat; split; reflexivity).
  change (followed maxgap (a :: b :: t)) with (if o_mjd b - o_mjd a <? maxgap then a :: followed maxgap (b :: t) else followed maxgap (b :: t)).
  change (diff_z (map o_mjd (a :: b :: t))) with ((o_mjd b - o_mjd a) :: diff_z (map o_mjd (b :: t))). cbn [filter].
  destruct (o_mjd b - o_mjd a <? maxgap); [|exact IH']. cbn [map zsum fold_right] in *. unfold zsum in *. lia.
Qed.

(** * counters *)
Lemma occurrences_snoc s l x : occurrences s (l ++ [x]) = occurrences s l + (if String.eqb s x then 1 else 0).
Proof. unfold occurrences, count. rewrite filter_app, app_length. cbn [filter]. destruct (String.eqb s x); cbn [length]; lia. Qed.
Lemma counter_snoc l x : counter (l ++ [x]) = dset String.eqb (counter l) x (match dget String.eqb (counter l) x with Some n => n + 1 | None => 1 end).
Proof. unfold counter. rewrite fold_left_app. reflexivity. Qed.
Lemma counter_get l s : dget String.eqb (counter l) s = (let n := occurrences s l in if n =? 0 then None else Some n).
Proof.
  revert s. induction l as [|x t IH] using rev_ind; intros s; [reflexivity|]. cbv zeta in *. rewrite counter_snoc, (dget_dset String.eqb String.eqb_eq), occurrences_snoc.
  destruct (String.eqb_spec s x) as [->|N].
  - rewrite IH. pose proof (Nat2Z.is_nonneg (count (String.eqb x) t)) as Hn. fold (occurrences x t) in Hn.
    destruct (Z.eqb_spec (occurrences x t) 0) as [E|E].
    + rewrite E. reflexivity.
    + destruct (Z.eqb_spec (occurrences x t + 1) 0); [lia | reflexivity].
  - rewrite IH, Z.add_0_r. reflexivity.
Qed.
Lemma dset_keys {V} (d : list (string * V)) k v : NoDup (map fst d) -> NoDup (map fst (dset String.eqb d k v)).
Proof.
  induction d as [|[a b] t IH]; intros H; cbn; [repeat constructor; intros []|]. cbn in H. inversion H as [|? ? H1 H2]; subst.
  destruct (String.eqb_spec k a) as [->|N]; cbn; [exact H|]. constructor; [|apply IH; exact H2].
  intros Hi. apply in_map_iff in Hi. destruct Hi as ([x y] & E & Hi). cbn in E. subst x.
  assert (forall d : list (string * V), In (a, y) (dset String.eqb d k v) -> a = k \/ In (a, y) d) as Hd.
  { clear. induction d as [|[p q] d IH]; intros H; cbn in H; [destruct H as [H|[]]; injection H as -> _; left; reflexivity|].
    destruct (String.eqb_spec k p) as [->|N]; cbn in H.
    - destruct H as [H|H]; [injection H as -> _; left; reflexivity | right; right; exact H].
    - destruct H as [H|H]; [right; left; exact H | destruct (IH H); [left; assumption | right; right; assumption]]. }
  destruct (Hd t Hi) as [E|Hi']; [congruence|]. apply H1. apply in_map with (f := fst) in Hi'. exact Hi'.
Qed.
Lemma counter_keys l : NoDup (map fst (counter l)).
Proof. induction l as [|x t IH] using rev_ind; [constructor|]. rewrite counter_snoc. apply dset_keys. exact IH. Qed.
Lemma counter_in l s n : In (s, n) (counter l) <-> n = occurrences s l /\ In s l.
Proof.
  assert (In s l <-> occurrences s l <> 0) as Hin.
  { unfold occurrences, count. split.
    - intros H E. assert (In s (filter (String.eqb s) l)) as Hf by (apply filter_In; split; [exact H | apply String.eqb_refl]). destruct (filter (String.eqb s) l); [destruct Hf | cbn in E; lia].
    - intros H. destruct (filter (String.eqb s) l) as [|x f] eqn:E; [cbn in H; lia|]. assert (In x (filter (String.eqb s) l)) as Hx by (rewrite E; left; reflexivity). apply filter_In in Hx. destruct Hx as [Hx Ex]. apply String.eqb_eq in Ex. subst x. exact Hx. }
  split.
  - intros H. pose proof (dget_some_in String.eqb String.eqb_eq _ _ _ (counter_keys l) H) as E. rewrite counter_get in E. cbv zeta in E. destruct (Z.eqb_spec (occurrences s l) 0) as [E0|E0]; [discriminate|]. injection E as <-. split; [reflexivity | apply Hin; exact E0].
  - intros [-> H]. apply (dget_in_spec String.eqb String.eqb_eq). rewrite counter_get. cbv zeta. destruct (Z.eqb_spec (occurrences s l) 0) as [E|E]; [exfalso; apply Hin in H; contradiction | reflexivity].
Qed.
Lemma counter_key l s : In s (map fst (counter l)) <-> In s l.
Proof.
  rewrite in_map_iff. split.
  - intros ([x n] & E & H). cbn in E. subst x. apply counter_in in H. apply H.
  - intros H. exists (s, occurrences s l). split; [reflexivity|]. apply counter_in. split; [reflexivity | exact H].
Qed.
Lemma counter_total l : zsum (map snd (counter l)) = Z.of_nat (length l).
Proof.
  assert (forall d s n, NoDup (map fst d) -> zsum (map snd (dset String.eqb d s n)) = zsum (map snd d) + n - match dget String.eqb d s with Some m => m | None => 0 end) as Hs.
  { clear. induction d as [|[a b] t IH]; intros s n H; cbn; [lia|]. inversion H as [|? ? H1 H2]; subst. destruct (String.eqb s a); cbn; [lia|]. specialize (IH s n H2). unfold zsum in IH. lia. }
  induction l as [|x t IH] using rev_ind; [reflexivity|]. rewrite counter_snoc, Hs by apply counter_keys. rewrite IH, app_length. cbn [length]. destruct (dget _ _ x); lia.
Qed.
Lemma has_dup_iff l : has_dup l = false <-> NoDup l.
Proof.
  induction l as [|x t IH]; cbn; [split; [constructor | reflexivity]|]. rewrite orb_false_iff, IH. split.
  - intros [H1 H2]. constructor; [|exact H2]. intros Hi. assert (existsb (String.eqb x) t = true) as E by (apply existsb_exists; exists x; split; [exact Hi | apply String.eqb_refl]). congruence.
  - intros H. inversion H as [|? ? H1 H2]; subst. split; [|exact H2]. destruct (existsb (String.eqb x) t) eqn:E; [|reflexivity]. apply existsb_exists in E. destruct E as (y & Hy & Ey). apply String.eqb_eq in Ey. subst y. contradiction.
Qed.
Lemma label_nodup l : NoDup l -> ~ (In ""%string l /\ In "blank"%string l) -> NoDup (map label l).
Proof.
  intros Hn H. induction l as [|x t IH]; [constructor|]. inversion Hn as [|? ? H1 H2]; subst. cbn. constructor.
  - intros Hi. apply in_map_iff in Hi. destruct Hi as (y & E & Hy). unfold label in E.
    destruct (String.eqb_spec y ""), (String.eqb_spec x ""); subst.
    + contradiction.
    + apply H. split; [right; exact Hy | left; reflexivity].
    + apply H. split; [left; reflexivity | right; exact Hy].
    + contradiction.
  - apply IH; [exact H2|]. intros [Ha Hb]. apply H. split; right; assumption.
Qed.
Lemma qsum_inject l : (fold_right Qplus 0 (map inject_Z l) == inject_Z (zsum l))%Q.
Proof. induction l as [|x t IH]; [reflexivity|]. cbn [map fold_right zsum]. rewrite IH. unfold zsum. rewrite inject_Z_plus. reflexivity. Qed.

(** * clipping *)
Lemma prefix_comma s : String.prefix ", " s = true -> exists t, s = (", " ++ t)%string.
Proof.
  destruct s as [|a [|b t]]; intros H.
  - discriminate.
  - unfold String.prefix in H. destruct (ascii_dec "," a); discriminate.
  - unfold String.prefix in H. destruct (ascii_dec "," a) as [<-|]; [|discriminate]. destruct (ascii_dec " " b) as [<-|]; [|discriminate]. exists t. reflexivity.
Qed.
Lemma split_last_none s : split_last s = None <-> forall p q, s <> (p ++ ", " ++ q)%string.
Proof.
  induction s as [|a t IH].
  - split; [intros _ p q H; destruct p; discriminate | reflexivity].
  - cbn [split_last]. destruct (split_last t) as [[p q]|] eqn:E.
    + split; [discriminate|]. intros H. exfalso.
      assert (forall t, split_last t = None \/ exists p q, t = (p ++ ", " ++ q)%string) as Hs.
      { clear. induction t as [|a t IH]; [left; reflexivity|]. cbn [split_last]. destruct IH as [->|(p & q & ->)].
        - destruct (String.prefix ", " (String a t)) eqn:E; [|left; reflexivity]. right. destruct (prefix_comma _ E) as (u & ->). exists ""%string, u. reflexivity.
        - right. exists (String a p), q. reflexivity. }
      destruct (Hs t) as [E'|(p' & q' & ->)]; [congruence|]. apply (H (String a p') q'). reflexivity.
    + destruct (String.prefix ", " (String a t)) eqn:Ep.
      * split; [discriminate|]. intros H. exfalso. destruct (prefix_comma _ Ep) as (u & Eu). apply (H ""%string u). exact Eu.
      * split; [|reflexivity]. intros _ p q H. destruct p as [|c p]; cbn in H.
        -- injection H as -> ->. cbn in Ep. destruct q; discriminate.
        -- injection H as -> ->. exact (proj1 IH eq_refl p q eq_refl).
Qed.
Lemma substring_all s : String.substring 0 (String.length s) s = s.
Proof. induction s as [|a t IH]; cbn; [reflexivity | rewrite IH; reflexivity]. Qed.
Lemma split_last_app p q : (forall x y, q <> (x ++ ", " ++ y)%string) -> split_last (p ++ ", " ++ q)%string = Some (p, q).
Proof.
  intros H. induction p as [|a p IH].
  - cbn [append split_last]. assert (split_last q = None) as -> by (apply split_last_none; exact H).
    assert (String.prefix ", " (String " " q) = false) as -> by reflexivity.
    assert (String.prefix ", " (String "," (String " " q)) = true) as -> by (destruct q; reflexivity). f_equal. f_equal. cbn. rewrite Nat.sub_0_r. apply substring_all.
  - change (String a p ++ ", " ++ q)%string with (String a (p ++ ", " ++ q)%string). cbn [split_last]. rewrite IH. reflexivity.
Qed.
Lemma split_last_inv : forall s p q, split_last s = Some (p, q) -> s = (p ++ ", " ++ q)%string.
Proof.
  induction s as [|a t IH]; intros p q H; [discriminate|]. cbn [split_last] in H. destruct (split_last t) as [[p' q']|].
  - injection H as <- <-. cbn. f_equal. apply IH. reflexivity.
  - destruct (String.prefix ", " (String a t)) eqn:E; [|discriminate]. destruct (prefix_comma _ E) as (u & Eu). rewrite Eu in *. injection H as <- <-. cbn. rewrite Nat.sub_0_r, substring_all. reflexivity.
Qed.
Lemma all_digits_iff q : all_digits q = true <-> forall i c, String.get i q = Some c -> (48 <= nat_of_ascii c <= 57)%nat.
Proof.
  induction q as [|a t IH]; cbn [all_digits].
  - split; [intros _ i c H; destruct i; discriminate | reflexivity].
  - rewrite andb_true_iff, IH. unfold is_digit. rewrite andb_true_iff, !Nat.leb_le. split.
    + intros [H1 H2] [|i] c E; [cbn in E; injection E as <-; exact H1 | exact (H2 i c E)].
    + intros H. split; [apply (H 0%nat a); reflexivity | intros i c E; apply (H (S i) c); exact E].
Qed.
Lemma isdigit_iff q : isdigit q = true <-> digit_text q.
Proof.
  unfold digit_text. destruct q as [|a t]; [split; [discriminate | intros [H _]; contradiction]|]. unfold isdigit. rewrite all_digits_iff. split; [intros H; split; [discriminate | exact H] | intros [_ H]; exact H].
Qed.
Lemma digit_no_comma q : digit_text q -> forall x y, q <> (x ++ ", " ++ y)%string.
Proof.
  intros [_ H] x y ->. specialize (H (String.length x) ","%char). assert (forall z, String.get (String.length x) (x ++ String "," z)%string = Some ","%char) as E by (intros z; induction x as [|a x IH]; [reflexivity | cbn; apply IH; intros E; specialize (H E); exact H]).
  specialize (H (E _)). cbn in H. lia.
Qed.
Lemma clip_spec s : (forall p q, s = (p ++ ", " ++ q)%string -> digit_text q -> clip s = p) /\
  ((forall p q, s = (p ++ ", " ++ q)%string -> ~ digit_text q) -> clip s = s).
Proof.
  split.
  - intros p q -> Hq. unfold clip. rewrite (split_last_app p q (digit_no_comma q Hq)), (proj2 (isdigit_iff q) Hq). reflexivity.
  - intros H. unfold clip. destruct (split_last s) as [[p q]|] eqn:E; [|reflexivity]. apply split_last_inv in E. destruct (isdigit q) eqn:Ed; [|reflexivity]. apply isdigit_iff in Ed. exfalso. exact (H p q E Ed).
Qed.
