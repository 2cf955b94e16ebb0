(** Lemmas about the technical metrics. *)
From Verif Require Import Base Technical_Model Technical_Spec.
From Coq Require Import Lia QArith Qround Lqa Permutation Sorted Ascii.
Open Scope Z_scope.

(** * changes *)
Lemma seq_filter_shift (p : nat -> bool) n k : filter p (seq (S k) n) = map S (filter (fun i => p (S i)) (seq k n)).
Proof.
  revert k. induction n as [|n IH]; intros k; [reflexivity|]. cbn [seq filter]. rewrite IH. destruct (p (S k)); reflexivity.
Qed.
Lemma change_times_spec l : change_times l = changes l.
Proof.
  unfold changes, change_positions. induction l as [|a [|b t] IH]; [reflexivity | reflexivity|].
  replace (length (a :: b :: t) - 1)%nat with (S (length (b :: t) - 1)) by (cbn; lia). cbn [seq filter].
  rewrite seq_filter_shift. change (change_times (a :: b :: t)) with (if String.eqb (s_state a) (s_state b) then change_times (b :: t) else s_time b :: change_times (b :: t)).
  rewrite IH. cbn [nth]. destruct (String.eqb (s_state a) (s_state b)); cbn [negb map]; rewrite map_map; reflexivity.
Qed.
Lemma n_changes_length l : length (change_times l) = length (change_positions l).
Proof. rewrite change_times_spec. unfold changes. apply map_length. Qed.
Lemma change_in l : forall y, In y (change_times l) -> exists v, In v l /\ s_time v = y.
Proof.
  induction l as [|a [|b t] IH]; intros y H; [destruct H | destruct H|].
  change (change_times (a :: b :: t)) with (if String.eqb (s_state a) (s_state b) then change_times (b :: t) else s_time b :: change_times (b :: t)) in H.
  destruct (String.eqb (s_state a) (s_state b)).
  - destruct (IH y H) as (v & Hv & E). exists v. split; [right; exact Hv | exact E].
  - destruct H as [<-|H]; [exists b; split; [right; left; reflexivity | reflexivity]|]. destruct (IH y H) as (v & Hv & E). exists v. split; [right; exact Hv | exact E].
Qed.
Lemma change_sorted l : StronglySorted by_time l -> StronglySorted Z.le (change_times l).
Proof.
  induction l as [|a [|b t] IH]; intros H; [constructor | constructor|]. inversion H as [|? ? H1 H2]; subst.
  change (change_times (a :: b :: t)) with (if String.eqb (s_state a) (s_state b) then change_times (b :: t) else s_time b :: change_times (b :: t)).
  destruct (String.eqb (s_state a) (s_state b)); [apply IH; exact H1|]. constructor; [apply IH; exact H1|].
  rewrite Forall_forall. intros y Hy. apply change_in in Hy. destruct Hy as (v & [<-|Hv] & <-); [lia|].
  inversion H1 as [|? ? _ Hf]; subst. rewrite Forall_forall in Hf. exact (Hf v Hv).
Qed.
Lemma change_none_iff l : change_times l = [] <-> forall a b, In a l -> In b l -> s_state a = s_state b.
Proof.
  induction l as [|a [|b t] IH].
  - split; [intros _ a b [] | reflexivity].
  - split; [intros _ x y [<-|[]] [<-|[]]; reflexivity | reflexivity].
  - change (change_times (a :: b :: t)) with (if String.eqb (s_state a) (s_state b) then change_times (b :: t) else s_time b :: change_times (b :: t)).
    destruct (String.eqb_spec (s_state a) (s_state b)) as [E|E].
    + rewrite IH. split.
      * intros H x y [<-|Hx] [<-|Hy]; [reflexivity | rewrite E; apply H; [left; reflexivity | exact Hy] | rewrite E; apply H; [exact Hx | left; reflexivity] | apply H; assumption].
      * intros H x y Hx Hy. apply H; right; assumption.
    + split; [discriminate|]. intros H. exfalso. apply E. apply H; [left; reflexivity | right; left; reflexivity].
Qed.
Lemma distinct_bound l : forall states, NoDup states -> (forall s, In s states -> exists v, In v l /\ s_state v = s) ->
  (length states <= S (length (change_times l)))%nat.
Proof.
  intros states Hn Hs.
  enough (forall s, In s (map s_state l) -> In s (match l with [] => [] | v :: _ => s_state v :: map (fun i => s_state (nth (S i) l no_visit)) (change_positions l) end)) as H.
  { rewrite n_changes_length. etransitivity; [apply (NoDup_incl_length Hn (l' := match l with [] => [] | v :: _ => s_state v :: map (fun i => s_state (nth (S i) l no_visit)) (change_positions l) end))|].
    - intros s Hi. apply H. destruct (Hs s Hi) as (v & Hv & <-). apply in_map. exact Hv.
    - destruct l; cbn; [lia | rewrite map_length; lia]. }
  clear. unfold change_positions. induction l as [|a [|b t] IH]; intros s H; [destruct H | destruct H as [<-|[]]; left; reflexivity|].
  destruct H as [<-|H]; [left; reflexivity|]. specialize (IH s H).
  replace (length (a :: b :: t) - 1)%nat with (S (length (b :: t) - 1)) by (cbn; lia). cbn [seq filter]. rewrite seq_filter_shift. cbn [nth].
  destruct IH as [<-|IH].
  - destruct (String.eqb_spec (s_state a) (s_state b)) as [->|E]; [left; reflexivity|]. right. left. reflexivity.
  - right. destruct (String.eqb (s_state a) (s_state b)); cbn [negb map]; rewrite map_map; [exact IH | right; exact IH].
Qed.
(** sorting with distinct times *)
Lemma sorted_unique : forall l l', StronglySorted by_time l -> StronglySorted by_time l' -> Permutation l l' -> NoDup (map s_time l) -> l = l'.
Proof.
  induction l as [|a t IH]; intros l' H1 H2 Hp Hn; [symmetry; apply Permutation_nil; exact Hp|].
  destruct l' as [|b t']; [apply Permutation_sym, Permutation_nil in Hp; discriminate|].
  inversion H1 as [|? ? H1' F1]; inversion H2 as [|? ? H2' F2]; subst. rewrite Forall_forall in F1, F2. cbn in Hn. inversion Hn as [|? ? Hnt Hn']; subst.
  assert (In a (b :: t')) as Ha by (apply (Permutation_in _ Hp); left; reflexivity).
  assert (In b (a :: t)) as Hb by (apply (Permutation_in _ (Permutation_sym Hp)); left; reflexivity).
  assert (a = b) as ->.
  { destruct Ha as [<-|Ha]; [reflexivity|]. destruct Hb as [<-|Hb]; [reflexivity|]. pose proof (F1 b Hb) as Q1. pose proof (F2 a Ha) as Q2. unfold by_time in *.
    assert (s_time a = s_time b) as E by lia. exfalso. apply Hnt. rewrite E. apply in_map. exact Hb. }
  f_equal. apply IH; [exact H1' | exact H2' | apply (Permutation_cons_inv Hp) | exact Hn'].
Qed.
(** * dtimes *)
Lemma dtimes_cons t0 c cts : dtimes t0 (c :: cts) = (c - t0) :: dtimes c cts.
Proof. unfold dtimes. destruct cts as [|d l]; [reflexivity|]. change (removelast (c :: d :: l)) with (c :: removelast (d :: l)). cbn [combine map fst snd]. reflexivity. Qed.
Lemma dtimes_nil t0 : dtimes t0 [] = []. Proof. reflexivity. Qed.
Lemma dtimes_in : forall cts t0 d, In d (dtimes t0 cts) <-> (exists c, hd_error cts = Some c /\ d = c - t0) \/ exists x y, successive x y cts /\ d = y - x.
Proof.
  induction cts as [|c l IH]; intros t0 d.
  - rewrite dtimes_nil. split; [intros [] | intros [(c & E & _)|(x & y & (i & E & _) & _)]; [discriminate | destruct i; discriminate]].
  - rewrite dtimes_cons. split.
    + intros [<-|H]; [left; exists c; split; reflexivity|]. apply IH in H. right. destruct H as [(e & E & ->)|(x & y & (i & E1 & E2) & ->)].
      * exists c, e. split; [|reflexivity]. exists 0%nat. split; [reflexivity|]. destruct l; [discriminate|]. exact E.
      * exists x, y. split; [|reflexivity]. exists (S i). split; assumption.
    + intros [(e & E & ->)|(x & y & (i & E1 & E2) & ->)]; [injection E as ->; left; reflexivity|]. right. apply IH. destruct i as [|i].
      * cbn in E1, E2. injection E1 as <-. left. exists y. split; [destruct l; [discriminate | exact E2] | reflexivity].
      * right. exists x, y. split; [|reflexivity]. exists i. split; assumption.
Qed.
Lemma dtimes_count cutoff : forall cts t0, length (filter (fun d => d <? cutoff) (dtimes t0 cts)) =
  (match cts with c :: _ => if (c - t0 <? cutoff)%Z then 1 else 0 | [] => 0 end + count_pairs (fun x y => (y - x <? cutoff)%Z) cts)%nat.
Proof.
  induction cts as [|c l IH]; intros t0; [reflexivity|]. rewrite dtimes_cons. cbn [filter].
  replace (count_pairs (fun x y => (y - x <? cutoff)%Z) (c :: l)) with (match l with d :: _ => if (d - c <? cutoff)%Z then 1 else 0 | [] => 0 end + count_pairs (fun x y => (y - x <? cutoff)%Z) l)%nat by (destruct l; reflexivity).
  rewrite <- (IH c). destruct (c - t0 <? cutoff); cbn [length]; lia.
Qed.
Lemma fold_min_le l : forall x, fold_left Z.min l x <= x /\ (forall y, In y l -> fold_left Z.min l x <= y) /\ (fold_left Z.min l x = x \/ In (fold_left Z.min l x) l).
Proof.
  induction l as [|a t IH]; intros x; cbn; [split; [lia | split; [intros y [] | left; reflexivity]]|]. destruct (IH (Z.min x a)) as (H1 & H2 & H3). split; [lia|]. split.
  - intros y [<-|Hy]; [lia | exact (H2 y Hy)].
  - destruct H3 as [H3|H3]; [|right; right; exact H3]. rewrite H3. destruct (Z.min_spec x a) as [[_ ->]|[_ ->]]; [left | right; left]; reflexivity.
Qed.
Lemma fold_max_ge l : forall x, x <= fold_left Z.max l x /\ (forall y, In y l -> y <= fold_left Z.max l x) /\ (fold_left Z.max l x = x \/ In (fold_left Z.max l x) l).
Proof.
  induction l as [|a t IH]; intros x; cbn; [split; [lia | split; [intros y [] | left; reflexivity]]|]. destruct (IH (Z.max x a)) as (H1 & H2 & H3). split; [lia|]. split.
  - intros y [<-|Hy]; [lia | exact (H2 y Hy)].
  - destruct H3 as [H3|H3]; [|right; right; exact H3]. rewrite H3. destruct (Z.max_spec x a) as [[_ ->]|[_ ->]]; [right; left | left]; reflexivity.
Qed.
Lemma zmin_spec l m : zmin_list l = Some m -> In m l /\ forall y, In y l -> m <= y.
Proof.
  destruct l as [|x t]; [discriminate|]. cbn [zmin_list]. intros E. injection E as <-. destruct (fold_min_le t x) as (H1 & H2 & H3). split.
  - destruct H3 as [->|H3]; [left; reflexivity | right; exact H3].
  - intros y [<-|Hy]; [exact H1 | exact (H2 y Hy)].
Qed.
Lemma zmax_spec l m : zmax_list l = Some m -> In m l /\ forall y, In y l -> y <= m.
Proof.
  destruct l as [|x t]; [discriminate|]. cbn [zmax_list]. intros E. injection E as <-. destruct (fold_max_ge t x) as (H1 & H2 & H3). split.
  - destruct H3 as [->|H3]; [left; reflexivity | right; exact H3].
  - intros y [<-|Hy]; [exact H1 | exact (H2 y Hy)].
Qed.

(** * windows *)
Lemma count_split a b l : a <= b + 1 -> count (fun y => y <=? b) l = (count (fun y => (a <=? y) && (y <=? b))%Z l + count (fun y => (y <? a)%Z) l)%nat.
Proof.
  intros H. unfold count. induction l as [|x t IH]; [reflexivity|]. cbn [filter].
  destruct (Z.leb_spec x b), (Z.leb_spec a x), (Z.ltb_spec x a); cbn [andb length]; lia.
Qed.
Lemma sorted_nth_lt l : StronglySorted Z.le l -> forall a x, nth_error l (count (fun y => y <? a) l) = Some x -> a <= x.
Proof.
  induction l as [|y t IH]; intros H a x E; [destruct (count _ []); discriminate|]. inversion H as [|? ? H1 Hf]; subst. rewrite Forall_forall in Hf.
  unfold count in *. cbn [filter] in E. destruct (Z.ltb_spec y a).
  - cbn in E. apply (IH H1 a x E).
  - assert (filter (fun z => z <? a) t = []) as E0.
    { clear - Hf H0. induction t as [|z t IH]; [reflexivity|]. cbn. pose proof (Hf z (or_introl eq_refl)). destruct (Z.ltb_spec z a); [lia|]. apply IH. intros w Hw. apply Hf. right. exact Hw. }
    rewrite E0 in E. cbn in E. injection E as <-. exact H0.
Qed.
Lemma sorted_count_lt l : StronglySorted Z.le l -> forall i x, nth_error l i = Some x -> (count (fun y => (y <? x)%Z) l <= i)%nat.
Proof.
  induction l as [|y t IH]; intros H i x E; [destruct i; discriminate|]. inversion H as [|? ? H1 Hf]; subst. rewrite Forall_forall in Hf. unfold count in *. cbn [filter].
  destruct i as [|i]; cbn in E.
  - injection E as <-. assert (filter (fun z => (z <? y)%Z) t = []) as E0.
    { clear - Hf. induction t as [|z t IH]; [reflexivity|]. cbn. pose proof (Hf z (or_introl eq_refl)). destruct (Z.ltb_spec z y); [lia|]. apply IH. intros w Hw. apply Hf. right. exact Hw. }
    rewrite Z.ltb_irrefl, E0. cbn. lia.
  - specialize (IH H1 i x E). destruct (y <? x)%Z; cbn; lia.
Qed.
Lemma count_mono {A} (p q : A -> bool) l : (forall x, p x = true -> q x = true) -> (count p l <= count q l)%nat.
Proof.
  intros H. unfold count. induction l as [|x t IH]; [apply le_n|]. cbn. destruct (p x) eqn:E; [rewrite (H x E); cbn; lia | destruct (q x); cbn; lia].
Qed.
Lemma in_combine_seq {A} (l : list A) i x : In (i, x) (combine (seq 0 (length l)) l) <-> nth_error l i = Some x.
Proof.
  assert (forall k, In (i, x) (combine (seq k (length l)) l) <-> exists j, i = (k + j)%nat /\ nth_error l j = Some x) as H.
  { induction l as [|a t IH]; intros k; cbn.
    - split; [intros [] | intros (j & _ & E); destruct j; discriminate].
    - rewrite IH. split.
      + intros [E|(j & -> & E)]; [injection E as <- <-; exists 0%nat; split; [lia | reflexivity] | exists (S j); split; [lia | exact E]].
      + intros (j & -> & E). destruct j as [|j]; [left; cbn in E; injection E as <-; f_equal; lia | right; exists j; split; [lia | exact E]]. }
  rewrite H. split; [intros (j & -> & E); exact E | intros E; exists i; split; [lia | exact E]].
Qed.
Lemma max_windows cts span N : StronglySorted Z.le cts -> 0 <= span ->
  match zmax_list (map (fun p => Z.of_nat (length (filter (fun y => y <=? snd p + span) cts)) - Z.of_nat (fst p)) (combine (seq 0 (length cts)) cts)) with None => 0 | Some m => m end = N ->
  (forall a, Z.of_nat (count (fun y => (a <=? y) && (y <=? a + span)) cts) <= N) /\ (exists a, Z.of_nat (count (fun y => (a <=? y) && (y <=? a + span)) cts) = N).
Proof.
  intros Hs Hsp. set (vals := map _ (combine (seq 0 (length cts)) cts)).
  assert (forall v, In v vals <-> exists i x, nth_error cts i = Some x /\ v = Z.of_nat (count (fun y => y <=? x + span) cts) - Z.of_nat i) as Hv.
  { intros v. unfold vals. rewrite in_map_iff. split.
    - intros ([i x] & <- & H). apply in_combine_seq in H. exists i, x. split; [exact H | reflexivity].
    - intros (i & x & E & ->). exists (i, x). split; [reflexivity | apply in_combine_seq; exact E]. }
  destruct (zmax_list vals) as [m|] eqn:Em; intros <-.
  - apply zmax_spec in Em. destruct Em as [Hm Hmax].
    assert (forall a, Z.of_nat (count (fun y => (a <=? y) && (y <=? a + span)) cts) <= m) as Hall.
    { intros a. set (i := count (fun y => y <? a) cts). destruct (nth_error cts i) as [x|] eqn:E.
      - pose proof (sorted_nth_lt cts Hs a x E) as Hx. assert (In (Z.of_nat (count (fun y => y <=? x + span) cts) - Z.of_nat i) vals) as Hin by (apply Hv; exists i, x; auto).
        apply Hmax in Hin. pose proof (count_split a (a + span) cts ltac:(lia)) as Hc. fold i in Hc.
        pose proof (count_mono (fun y => y <=? a + span) (fun y => y <=? x + span) cts (fun y => ltac:(rewrite !Z.leb_le; lia))). lia.
      - apply nth_error_None in E. assert (count (fun y => (a <=? y) && (y <=? a + span)) cts = 0%nat) as ->.
        { pose proof (count_split a (a + span) cts ltac:(lia)) as Hc. fold i in Hc. assert (Nat.le (count (fun y => y <=? a + span) cts) (length cts)) by (unfold count; clear; induction cts as [|x t IH]; [apply le_n|]; cbn; destruct (x <=? a + span); cbn; lia). lia. }
        apply Hv in Hm. destruct Hm as (j & x & E' & ->). assert (j < length cts)%nat by (apply nth_error_Some; congruence).
        pose proof (sorted_count_lt cts Hs j x E'). pose proof (count_split x (x + span) cts ltac:(lia)).
        pose proof (Hmax (Z.of_nat (count (fun y => y <=? x + span) cts) - Z.of_nat j)).
        destruct cts as [|c0 ct]; [cbn in *; lia|]. assert (In (Z.of_nat (count (fun y => y <=? c0 + span) (c0 :: ct)) - Z.of_nat 0) vals) as Hc0 by (apply Hv; exists 0%nat, c0; split; reflexivity).
        apply Hmax in Hc0. lia. }
    split; [exact Hall|]. apply Hv in Hm. destruct Hm as (i & x & E & Em). exists x. specialize (Hall x).
    pose proof (sorted_count_lt cts Hs i x E). pose proof (count_split x (x + span) cts ltac:(lia)). lia.
  - destruct cts as [|c ct]; [|discriminate]. split; [intros a; cbn; lia | exists 0; reflexivity].
Qed.

(** * open shutter *)
Lemma zsum_map_le {A} (f g : A -> Z) l : (forall x, In x l -> f x <= g x) -> zsum (map f l) <= zsum (map g l).
Proof.
  intros H. induction l as [|x t IH]; [apply Z.le_refl|]. cbn. pose proof (H x (or_introl eq_refl)). specialize (IH (fun y Hy => H y (or_intror Hy))). unfold zsum in IH. lia.
Qed.
Lemma zsum_scale {A} k (f : A -> Z) l : zsum (map (fun x => k * f x) l) = k * zsum (map f l).
Proof. induction l as [|x t IH]; [cbn; lia|]. cbn in *. unfold zsum in IH. lia. Qed.
Lemma fdiv_bounds a b r p q : fdiv a b = Some r -> 0 < b -> 0 < q -> (p * b <= q * a -> (inject_Z p / inject_Z q <= r)%Q) /\ (q * a <= p * b -> (r <= inject_Z p / inject_Z q)%Q).
Proof.
  unfold fdiv. intros E Hb Hq. destruct (Z.eqb_spec b 0); [lia|]. injection E as <-.
  assert (0 < inject_Z b)%Q as Hb' by (change 0%Q with (inject_Z 0); rewrite <- Zlt_Qlt; exact Hb).
  assert (0 < inject_Z q)%Q as Hq' by (change 0%Q with (inject_Z 0); rewrite <- Zlt_Qlt; exact Hq).
  split; intros H.
  - apply Qle_shift_div_l; [exact Hb'|]. setoid_replace (inject_Z p / inject_Z q * inject_Z b)%Q with ((inject_Z p * inject_Z b) / inject_Z q)%Q by (field; intros E; rewrite E in Hq'; discriminate).
    apply Qle_shift_div_r; [exact Hq'|]. rewrite <- !inject_Z_mult, <- Zle_Qle. lia.
  - apply Qle_shift_div_r; [exact Hb'|]. setoid_replace (inject_Z p / inject_Z q * inject_Z b)%Q with ((inject_Z p * inject_Z b) / inject_Z q)%Q by (field; intros E; rewrite E in Hq'; discriminate).
    apply Qle_shift_div_l; [exact Hq'|]. rewrite <- !inject_Z_mult, <- Zle_Qle. lia.
Qed.
Lemma insert_z_perm x l : Permutation (insert_z x l) (x :: l).
Proof. induction l as [|y t IH]; [reflexivity|]. cbn. destruct (x <=? y); [reflexivity|]. rewrite IH. apply perm_swap. Qed.
Lemma sort_z_perm l : Permutation (sort_z l) l.
Proof. induction l as [|x t IH]; [reflexivity|]. cbn. rewrite insert_z_perm, IH. reflexivity. Qed.
Lemma insert_z_sorted x l : StronglySorted Z.le l -> StronglySorted Z.le (insert_z x l).
Proof.
  induction l as [|y t IH]; intros H; cbn; [repeat constructor|]. inversion H as [|? ? H1 Hf]; subst. destruct (Z.leb_spec x y).
  - constructor; [exact H|]. constructor; [exact H0|]. eapply Forall_impl; [|exact Hf]. intros; lia.
  - constructor; [apply IH; exact H1|]. rewrite Forall_forall. intros z Hz. apply (Permutation_in _ (insert_z_perm x t)) in Hz. destruct Hz as [<-|Hz]; [lia|]. rewrite Forall_forall in Hf. exact (Hf z Hz).
Qed.
Lemma sort_z_sorted l : StronglySorted Z.le (sort_z l).
Proof. induction l as [|x t IH]; [constructor|]. cbn. apply insert_z_sorted. exact IH. Qed.
Lemma sorted_perm_eq : forall l l', StronglySorted Z.le l -> StronglySorted Z.le l' -> Permutation l l' -> l = l'.
Proof.
  induction l as [|a t IH]; intros l' H1 H2 Hp; [symmetry; apply Permutation_nil; exact Hp|].
  destruct l' as [|b t']; [apply Permutation_sym, Permutation_nil in Hp; discriminate|].
  inversion H1 as [|? ? H1' F1]; inversion H2 as [|? ? H2' F2]; subst. rewrite Forall_forall in F1, F2.
  assert (a = b) as ->.
  { assert (In a (b :: t')) as Ha by (apply (Permutation_in _ Hp); left; reflexivity).
    assert (In b (a :: t)) as Hb by (apply (Permutation_in _ (Permutation_sym Hp)); left; reflexivity).
    destruct Ha as [<-|Ha]; [reflexivity|]. destruct Hb as [<-|Hb]; [reflexivity|]. pose proof (F1 b Hb). pose proof (F2 a Ha). lia. }
  f_equal. apply IH; [exact H1' | exact H2' | apply (Permutation_cons_inv Hp)].
Qed.
