(** Lemmas about lengths and segments. *)
From Verif Require Import Base ChebySeg_Model ChebySeg_Spec.
From Coq Require Import Lia.
Open Scope Z_scope.

(** * C211: lengths *)
Lemma accept_ok span r l : accept span r = Ok l -> 0 < l /\ span mod l <= 10.
Proof.
  unfold accept. destruct r as [l'|e]; cbn [bind]; [|discriminate]. intros H.
  destruct ((l' <=? 0) || (tolerance <? span mod l')) eqn:E; [discriminate|]. injection H as ->.
  apply orb_false_iff in E as [E1 E2]. apply Z.leb_gt in E1. apply Z.ltb_ge in E2. unfold tolerance in E2. lia.
Qed.
Lemma round_length_ok np span len l : round_length np span len = Ok l -> 0 < l /\ span mod l <= 10.
Proof. unfold round_length. apply accept_ok. Qed.
Lemma round_loop_keeps fuel np span len prev : 0 < len -> span mod len = 0 -> round_loop fuel np span len prev = Ok len.
Proof.
  intros H D. destruct fuel as [|f]; cbn [round_loop]; replace (len =? 0) with false by (symmetry; apply Z.eqb_neq; lia); [reflexivity|].
  rewrite D. reflexivity.
Qed.
Lemma round_length_keeps np span len : 0 < len -> (len | span) -> round_length np span len = Ok len.
Proof.
  intros H D. apply Z.mod_divide in D; [|lia]. unfold round_length. rewrite round_loop_keeps by assumption.
  unfold accept. cbn [bind]. rewrite D. replace (len <=? 0) with false by (symmetry; apply Z.leb_gt; lia). reflexivity.
Qed.
Lemma round_loop_err fuel : forall np span len prev e, round_loop fuel np span len prev = Err e -> e = ZeroDivisionError.
Proof.
  induction fuel as [|f IH]; intros np span len prev e H; cbn [round_loop] in H; destruct (len =? 0);
    try (destruct np; congruence); try discriminate.
  destruct ((tolerance <? span mod len) && (0 <? len)); [|discriminate]. cbv zeta in H.
  destruct (_ =? 0); [congruence|]. apply (IH _ _ _ _ _ H).
Qed.
Lemma round_length_err np span len e : round_length np span len = Err e -> e = ZeroDivisionError \/ e = AttributeError.
Proof.
  unfold round_length. intros H. pose proof (round_loop_err rounds np span len 0) as X.
  destruct (round_loop rounds np span len 0) as [l|x]; unfold accept in H; cbn [bind] in H.
  - destruct ((l <=? 0) || _); [right; congruence|discriminate].
  - left. injection H as <-. apply X. reflexivity.
Qed.
Lemma halve_ok fuel : forall np span test c len l, (fuel + c = 51)%nat -> 0 < len -> span mod len <= 10 ->
  halve fuel np span test c len = Ok l -> 0 < l /\ span mod l <= 10 /\ test l = false.
Proof.
  induction fuel as [|f IH]; intros np span test c len l HC H0 H1 H.
  - cbn [halve] in H. replace (Nat.ltb 50 c) with true in H by (symmetry; apply Nat.ltb_lt; lia). discriminate.
  - cbn [halve] in H. destruct (test len && Nat.leb c 50 && (0 <? len)) eqn:E.
    + destruct (round_length np span (round_even len 2)) as [l'|e] eqn:ER; [|discriminate]. cbn [bind] in H.
      destruct (round_length_ok _ _ _ _ ER) as [P Q]. apply (IH np span test (S c) l' l); [lia|exact P|exact Q|exact H].
    + replace (Nat.leb c 50) with true in E by (symmetry; apply Nat.leb_le; lia).
      replace (0 <? len) with true in E by (symmetry; apply Z.ltb_lt; lia). rewrite !andb_true_r in E.
      destruct (Nat.ltb 50 c || (len <=? 0)); [discriminate|]. injection H as <-. split; [exact H0|]. split; [exact H1|exact E].
Qed.
Lemma halve_err fuel : forall np span test c len e, halve fuel np span test c len = Err e -> e = ZeroDivisionError \/ e = AttributeError.
Proof.
  induction fuel as [|f IH]; intros np span test c len e H; cbn [halve] in H.
  - destruct (_ || _); [right; congruence|discriminate].
  - destruct (test len && Nat.leb c 50 && (0 <? len)).
    + destruct (round_length np span (round_even len 2)) as [l'|x] eqn:ER; cbn [bind] in H.
      * apply (IH _ _ _ _ _ _ H).
      * injection H as <-. apply (round_length_err _ _ _ _ ER).
    + destruct (_ || _); [right; congruence|discriminate].
Qed.
Lemma length_ok np span test guess given l : calc_segment_length np span test guess given = Ok l ->
  0 < l /\ span mod l <= 10 /\ (given = None -> test l = false).
Proof.
  intros H. unfold calc_segment_length in H. destruct given as [g|].
  - destruct (round_length_ok _ _ _ _ H) as [P Q]. split; [exact P|]. split; [exact Q|discriminate].
  - destruct (round_length np span guess) as [l'|e] eqn:ER; [|discriminate]. cbn [bind] in H.
    destruct (round_length_ok _ _ _ _ ER) as [P Q]. destruct (halve_ok 51 np span test 0 l' l eq_refl P Q H) as [A [B C]].
    split; [exact A|]. split; [exact B|intros _; exact C].
Qed.
Lemma length_err np span test guess given e : calc_segment_length np span test guess given = Err e -> e = ZeroDivisionError \/ e = AttributeError.
Proof.
  intros H. unfold calc_segment_length in H. destruct given as [g|]; [apply (round_length_err _ _ _ _ H)|].
  destruct (round_length np span guess) as [l'|x] eqn:ER; cbn [bind] in H; [apply (halve_err _ _ _ _ _ _ _ H)|].
  injection H as <-. apply (round_length_err _ _ _ _ ER).
Qed.

(** * C212: the segments *)
Lemma filter_all {A} (p : A -> bool) l : (forall x, In x l -> p x = true) -> filter p l = l.
Proof. induction l as [|a l IH]; intros H; [reflexivity|]. cbn [filter]. rewrite H by (left; reflexivity). rewrite IH; [reflexivity|]. intros x Hx. apply H. right. exact Hx. Qed.
Lemma filter_none {A} (p : A -> bool) l : (forall x, In x l -> p x = false) -> filter p l = [].
Proof. induction l as [|a l IH]; intros H; [reflexivity|]. cbn [filter]. rewrite H by (left; reflexivity). apply IH. intros x Hx. apply H. right. exact Hx. Qed.
Lemma filter_map' {A B} (f : A -> B) (p : B -> bool) l : filter p (map f l) = map f (filter (fun x => p (f x)) l).
Proof. induction l as [|a l IH]; [reflexivity|]. cbn [map filter]. destruct (p (f a)); cbn [map]; rewrite IH; reflexivity. Qed.
Lemma filter_seq (p : nat -> bool) lo hi N : (lo <= hi)%nat -> (lo <= N)%nat ->
  (forall i, p i = true <-> (lo <= i < hi)%nat) -> filter p (seq 0 N) = seq lo (Nat.min hi N - lo).
Proof.
  intros H1 H2 HP. set (m := Nat.min hi N).
  replace N with (lo + (m - lo) + (N - m))%nat by lia. rewrite !seq_app, !filter_app. cbn [Nat.add].
  rewrite (filter_none p (seq 0 lo)), (filter_all p (seq lo (m - lo))), (filter_none p (seq (lo + (m - lo)) (N - m))).
  - rewrite app_nil_r. reflexivity.
  - intros i Hi. apply in_seq in Hi. destruct (p i) eqn:E; [|reflexivity]. apply HP in E. lia.
  - intros i Hi. apply in_seq in Hi. apply HP. lia.
  - intros i Hi. apply in_seq in Hi. destruct (p i) eqn:E; [|reflexivity]. apply HP in E. lia.
Qed.
Lemma chain_app l1 : forall a b c l2, chain a l1 b -> chain b l2 c -> chain a (l1 ++ l2) c.
Proof.
  induction l1 as [|e l1 IH]; intros a b c l2 H1 H2; cbn [chain app] in *; [subst; exact H2|].
  destruct H1 as [A [B C]]. split; [exact A|]. split; [exact B|]. apply (IH _ _ _ _ C H2).
Qed.
Lemma last_map_seq (f : nat -> Z) a c d : (1 <= c)%nat -> last (map f (seq a c)) d = f (a + c - 1)%nat.
Proof.
  intros H. destruct c as [|c]; [lia|]. rewrite seq_S, map_app. cbn [map]. rewrite last_last. f_equal. lia.
Qed.

Section Segments.
  Variables (z : sizes) (t0 span len : Z).
  Hypothesis Hg : (1 <= ngran z)%nat.
  Hypothesis Hs : 0 <= span.
  Hypothesis Hl : 0 < len.
  Let n := Z.of_nat (ngran z).
  Let f (i : nat) : Z := t0 * unit_ z + Z.of_nat i * (4 * len).
  Let N := Z.to_nat (- (- (span * unit_ z + 2 * len) / (4 * len))).
  Lemma N_bounds : (Z.of_nat N - 1) * (4 * len) < span * unit_ z + 2 * len <= Z.of_nat N * (4 * len) /\ (1 <= N)%nat.
  Proof.
    set (x := span * unit_ z + 2 * len). assert (X0 : 0 < x) by (unfold x, unit_; nia).
    pose proof (Z.div_mod (- x) (4 * len) ltac:(lia)) as D. pose proof (Z.mod_pos_bound (- x) (4 * len) ltac:(lia)) as B.
    assert (C : 0 < - (- x / (4 * len))) by nia.
    assert (E : Z.of_nat N = - (- x / (4 * len))) by (unfold N; rewrite Z2Nat.id; [reflexivity|unfold x in *; lia]).
    rewrite E. split; [split; nia|]. lia.
  Qed.
  Lemma f_le i j : f i <= f j <-> (i <= j)%nat.
  Proof. unfold f. split; intros H; nia. Qed.
  Lemma f_lt i j : (i < j)%nat -> f i < f j.
  Proof. unfold f. intros H. nia. Qed.
  Lemma f_start j : f (ngran z * j) = (t0 + Z.of_nat j * len) * unit_ z.
  Proof. unfold f, unit_. rewrite Nat2Z.inj_mul. ring. Qed.
  Lemma entered j : (t0 + Z.of_nat j * len) * unit_ z < (t0 + span) * unit_ z - len -> (ngran z * j < N)%nat.
  Proof.
    intros H. destruct N_bounds as [[A B] C]. destruct (Nat.lt_ge_cases (ngran z * j) N) as [L|G]; [exact L|]. exfalso.
    assert (f N <= f (ngran z * j)) by (apply f_le; lia). rewrite f_start in H0. unfold f in H0. nia.
  Qed.
  Lemma left_ j : (t0 + span) * unit_ z - len <= (t0 + Z.of_nat j * len) * unit_ z -> (N - 1 <= ngran z * j)%nat.
  Proof.
    intros H. destruct N_bounds as [[A B] C]. destruct (Nat.le_gt_cases (N - 1) (ngran z * j)) as [L|G]; [exact L|]. exfalso.
    assert (f (S (ngran z * j)) <= f (N - 1)) by (apply f_le; lia).
    assert (E : f (S (ngran z * j)) = f (ngran z * j) + 4 * len) by (unfold f; rewrite Nat2Z.inj_succ; ring).
    rewrite E, f_start in H0. unfold f in H0. rewrite Nat2Z.inj_sub in H0 by lia. nia.
  Qed.
  Definition count (j : nat) : nat := (Nat.min (ngran z * (j + 1) + 1) N - ngran z * j)%nat.
  Lemma subset j : (ngran z * j < N)%nat ->
    filter (fun u => ((t0 + Z.of_nat j * len) * unit_ z <=? u) && (u <? (t0 + Z.of_nat j * len + len) * unit_ z + len)) (all_times z t0 span len)
    = map f (seq (ngran z * j) (count j)).
  Proof.
    intros H. unfold all_times. fold N. change (fun i => t0 * unit_ z + Z.of_nat i * (4 * len)) with f. rewrite filter_map'. f_equal.
    apply filter_seq; [lia|lia|]. intros i. rewrite andb_true_iff, Z.leb_le, Z.ltb_lt, <- f_start, f_le.
    replace ((t0 + Z.of_nat j * len + len) * unit_ z) with (f (ngran z * (j + 1))).
    2:{ rewrite f_start. rewrite Nat2Z.inj_add. cbn [Z.of_nat]. ring. }
    split.
    - intros [A B]. split; [exact A|]. destruct (Nat.lt_ge_cases i (ngran z * (j + 1) + 1)) as [L|G]; [exact L|]. exfalso.
      assert (C : f (ngran z * (j + 1) + 1) <= f i) by (apply f_le; exact G). unfold f in B, C.
      rewrite (Nat2Z.inj_add (ngran z * (j + 1)) 1) in C. cbn [Z.of_nat Pos.of_succ_nat] in C. lia.
    - intros [A B]. split; [exact A|]. assert (f i <= f (ngran z * (j + 1))) by (apply f_le; lia). lia.
  Qed.
  Lemma count_pos j : (ngran z * j < N)%nat -> (1 <= count j)%nat.
  Proof. intros H. unfold count. nia. Qed.
  Lemma count_last j : (ngran z * j < N)%nat -> (ngran z * j + count j - 1 = Nat.min (ngran z * (j + 1)) (N - 1))%nat.
  Proof. intros H. unfold count. nia. Qed.
  Lemma loop_chain one :
    (forall j l, (ngran z * j < N)%nat -> (t0 + Z.of_nat j * len) * unit_ z < (t0 + span) * unit_ z - len -> one (map f (seq (ngran z * j) (count j))) = Ok l ->
       chain (f (ngran z * j)) l (f (Nat.min (ngran z * (j + 1)) (N - 1)))) ->
    forall fuel j l, (Z.to_nat span < j + fuel)%nat ->
      segments_loop fuel z (all_times z t0 span len) (t0 + Z.of_nat j * len) (t0 + span) len one = Ok l ->
      chain (f (Nat.min (ngran z * j) (N - 1))) l (f (N - 1)).
  Proof.
    intros HO. induction fuel as [|fu IH]; intros j l HF H.
    - cbn [segments_loop] in H. injection H as <-. cbn [chain]. f_equal. apply Nat.min_r. apply left_.
      assert (A : span <= Z.of_nat j) by lia. assert (B : Z.of_nat j <= Z.of_nat j * len) by nia.
      assert (C : 0 <= unit_ z) by (unfold unit_; lia).
      pose proof (Z.mul_le_mono_nonneg_r (t0 + span) (t0 + Z.of_nat j * len) (unit_ z) C ltac:(lia)). lia.
    - cbn [segments_loop] in H. destruct (_ <? _) eqn:E.
      + apply Z.ltb_lt in E. pose proof (entered j E) as HJ. pose proof E as E0. rewrite (subset j HJ) in H.
        destruct (one _) as [e|] eqn:E1; [|discriminate]. cbn [bind] in H.
        destruct (segments_loop fu _ _ _ _ _ _) as [r|] eqn:E2; [|discriminate]. cbn [bind] in H. injection H as <-.
        replace (t0 + Z.of_nat j * len + len) with (t0 + Z.of_nat (j + 1) * len) in E2 by (rewrite Nat2Z.inj_add; cbn [Z.of_nat]; ring).
        rewrite (Nat.min_l (ngran z * j)) by lia.
        apply (chain_app e _ _ _ r (HO j e HJ E E1)). apply IH; [lia|exact E2].
      + apply Z.ltb_ge in E. injection H as <-. cbn [chain]. f_equal. apply Nat.min_r. apply left_. exact E.
  Qed.
  Lemma f_0 : f 0 = t0 * unit_ z.
  Proof. unfold f. cbn. ring. Qed.
  Lemma f_end_near : - (2 * len) <= f (N - 1) - (t0 + span) * unit_ z <= 2 * len.
  Proof. destruct N_bounds as [[A B] C]. unfold f. rewrite Nat2Z.inj_sub by lia. cbn [Z.of_nat Pos.of_succ_nat]. nia. Qed.
  Lemma f_end_exact : (len | span) -> f (N - 1) = (t0 + span) * unit_ z.
  Proof.
    intros [q Hq]. destruct N_bounds as [[A B] C]. assert (Q0 : 0 <= q) by nia.
    assert (E : Z.of_nat N - 1 = q * n).
    { rewrite Hq in A, B. unfold unit_ in A, B. fold n in A, B. nia. }
    unfold f, unit_. fold n. rewrite Nat2Z.inj_sub by lia. cbn [Z.of_nat Pos.of_succ_nat]. rewrite E, Hq. ring.
  Qed.
  Lemma exact_count j : (len | span) -> (t0 + Z.of_nat j * len) * unit_ z < (t0 + span) * unit_ z - len -> (ngran z * (j + 1) <= N - 1)%nat.
  Proof.
    intros D H. pose proof (f_end_exact D) as E. apply f_le. rewrite E, f_start. destruct D as [q Hq].
    unfold unit_ in H |- *. fold n in H |- *. rewrite Nat2Z.inj_add. cbn [Z.of_nat Pos.of_succ_nat].
    assert (N1 : 1 <= n) by (unfold n; lia).
    assert (J : Z.of_nat j < q).
    { destruct (Z.lt_ge_cases (Z.of_nat j) q) as [L|G]; [exact L|]. exfalso. rewrite Hq in H.
      pose proof (Z.mul_le_mono_nonneg_r q (Z.of_nat j) len ltac:(lia) ltac:(lia)) as A.
      pose proof (Z.mul_le_mono_nonneg_r (t0 + q * len) (t0 + Z.of_nat j * len) (4 * n) ltac:(lia) ltac:(lia)). lia. }
    apply Z.mul_le_mono_nonneg_r; [lia|]. rewrite Hq.
    pose proof (Z.mul_le_mono_nonneg_r (Z.of_nat j + 1) q len ltac:(lia) ltac:(lia)) as A. lia.
  Qed.
End Segments.
