From Verif Require Import Base MoSum_Model MoSum_Spec.
From Coq Require Import QArith Qabs Lqa Lia Sorted.
Open Scope Q_scope.

(** * Lists *)
Lemma zip_length f a b : length a = length b -> length (zip_with f a b) = length a.
Proof. intros H. unfold zip_with. rewrite map_length, combine_length, H. lia. Qed.
Lemma zip_nth f : forall a b i, length a = length b -> (i < length a)%nat -> nth i (zip_with f a b) 0 = f (nth i a 0) (nth i b 0).
Proof.
  intros a. induction a as [|x a IH]; intros [|y b] [|i] H Hi; cbn in *; try lia; [reflexivity|]. apply IH; lia.
Qed.
Lemma sum_to_ext g g' i : (forall j, (j <= i)%nat -> g j == g' j) -> sum_to g i == sum_to g' i.
Proof. induction i as [|i IH]; cbn; intros H; [apply H; lia|]. rewrite IH by (intros; apply H; lia). rewrite (H (S i)) by lia. reflexivity. Qed.
Lemma sum_to_le g g' i : (forall j, (j <= i)%nat -> g j <= g' j) -> sum_to g i <= sum_to g' i.
Proof. induction i as [|i IH]; cbn; intros H; [apply H; lia|]. pose proof (IH ltac:(intros; apply H; lia)). pose proof (H (S i) ltac:(lia)). lra. Qed.
Lemma sum_to_shift g i : sum_to g (S i) == g O + sum_to (fun j => g (S j)) i.
Proof. induction i as [|i IH]; [reflexivity|]. cbn [sum_to] in *. rewrite IH. ring. Qed.
Lemma sum_to_scale c g i : sum_to (fun j => c * g j) i == c * sum_to g i.
Proof. induction i as [|i IH]; cbn; [reflexivity|]. rewrite IH. ring. Qed.
Lemma sum_to_pos g i : (forall j, (j <= i)%nat -> 0 < g j) -> 0 < sum_to g i.
Proof. induction i as [|i IH]; cbn; intros H; [apply H; lia|]. pose proof (IH ltac:(intros; apply H; lia)). pose proof (H (S i) ltac:(lia)). lra. Qed.
Lemma cumsum_length : forall l a, length (cumsum_from a l) = length l.
Proof. intros l. induction l as [|x l IH]; intros a; cbn; [reflexivity|]. rewrite IH. reflexivity. Qed.
Lemma cumsum_nth : forall l a i, (i < length l)%nat -> nth i (cumsum_from a l) 0 == a + sum_to (at_ l) i.
Proof.
  intros l. induction l as [|x l IH]; intros a [|i] Hi; cbn [length cumsum_from nth] in *; try lia; [reflexivity|].
  rewrite IH by lia. rewrite sum_to_shift. unfold at_ at 3. cbn [nth]. rewrite <- Qplus_assoc. apply Qplus_comp; [reflexivity|].
  apply Qplus_comp; [reflexivity|]. apply sum_to_ext. intros. reflexivity.
Qed.

(** * The weighted mean *)
Definition wmean (v w : list Q) (i : nat) : Q := sum_to (fun j => at_ v j * at_ w j) i / sum_to (at_ w) i.
Lemma integrate_nth f kw vals h w r : f kw h = Ok w -> integrate_over_h f kw vals h = Ok r ->
  length vals = length w /\ length r = length vals /\ forall i, (i < length vals)%nat -> at_ r i == wmean vals w i.
Proof.
  intros E R. unfold integrate_over_h in R. rewrite E in R. cbn [bind] in R. unfold weighted in R.
  destruct (Nat.eqb_spec (length vals) (length w)) as [L|]; [|discriminate]. cbn [bind] in R. injection R as <-.
  split; [exact L|]. unfold cumsum_q. split.
  - rewrite zip_length; rewrite !cumsum_length; rewrite zip_length by exact L; [reflexivity|exact L].
  - intros i Hi. unfold at_ at 1. rewrite zip_nth; [|rewrite !cumsum_length, zip_length; congruence|rewrite cumsum_length, zip_length; assumption].
    unfold wmean. unfold Qdiv. rewrite !cumsum_nth by (rewrite ?zip_length; congruence || lia). rewrite !Qplus_0_l. apply Qmult_comp; [|reflexivity].
    apply sum_to_ext. intros j Hj. unfold at_. rewrite zip_nth by lia. reflexivity.
Qed.
Lemma integrate_ok f kw vals h w : f kw h = Ok w -> length vals = length w -> exists r, integrate_over_h f kw vals h = Ok r.
Proof. intros E L. unfold integrate_over_h, weighted. rewrite E. cbn [bind]. rewrite L, Nat.eqb_refl. eexists. reflexivity. Qed.
Lemma wpos w i : all_positive w -> (i < length w)%nat -> 0 < at_ w i.
Proof. intros P H. apply P. apply nth_In. exact H. Qed.
Lemma wsum_pos w i : all_positive w -> (i < length w)%nat -> 0 < sum_to (at_ w) i.
Proof. intros P H. apply sum_to_pos. intros j Hj. apply wpos; [exact P|lia]. Qed.
Lemma wmean_mul v w i : all_positive w -> (i < length w)%nat -> wmean v w i * sum_to (at_ w) i == sum_to (fun j => at_ v j * at_ w j) i.
Proof. intros P H. unfold wmean. field. pose proof (wsum_pos w i P H). lra. Qed.
Lemma wmean_le v v' w i : all_positive w -> (i < length w)%nat -> (forall j, (j <= i)%nat -> at_ v j <= at_ v' j) -> wmean v w i <= wmean v' w i.
Proof.
  intros P H M. pose proof (wsum_pos w i P H) as Hp. unfold wmean. apply Qmult_le_compat_r; [|apply Qlt_le_weak, Qinv_lt_0_compat, Hp].
  apply sum_to_le. intros j Hj. pose proof (wpos w j P ltac:(lia)). pose proof (M j Hj). apply Qmult_le_compat_r; [assumption|lra].
Qed.
Lemma wmean_bounds v w i a b : all_positive w -> (i < length w)%nat -> (forall j, (j <= i)%nat -> a <= at_ v j <= b) -> a <= wmean v w i <= b.
Proof.
  intros P H M. pose proof (wsum_pos w i P H) as Hp. pose proof (wmean_mul v w i P H) as E.
  assert (a * sum_to (at_ w) i <= sum_to (fun j => at_ v j * at_ w j) i) as H1.
  { rewrite <- sum_to_scale. apply sum_to_le. intros j Hj. pose proof (wpos w j P ltac:(lia)). destruct (M j Hj). apply Qmult_le_compat_r; [assumption|lra]. }
  assert (sum_to (fun j => at_ v j * at_ w j) i <= b * sum_to (at_ w) i) as H2.
  { rewrite <- sum_to_scale. apply sum_to_le. intros j Hj. pose proof (wpos w j P ltac:(lia)). destruct (M j Hj). apply Qmult_le_compat_r; [assumption|lra]. }
  rewrite <- E in H1, H2. split; apply (Qmult_le_r _ _ _ Hp); assumption.
Qed.
Lemma wmean_scale v w w' c i : 0 < c -> all_positive w -> length w = length w' -> (i < length w)%nat -> (forall j, (j < length w)%nat -> at_ w' j == c * at_ w j) ->
  wmean v w' i == wmean v w i.
Proof.
  intros Hc P L H M. unfold wmean.
  rewrite (sum_to_ext (at_ w') (fun j => c * at_ w j) i) by (intros; apply M; lia). rewrite sum_to_scale.
  rewrite (sum_to_ext (fun j => at_ v j * at_ w' j) (fun j => c * (at_ v j * at_ w j)) i). 2:{ intros j Hj. rewrite M by lia. ring. }
  rewrite sum_to_scale. field. split; [|lra]. pose proof (wsum_pos w i P H). lra.
Qed.

(** * Weights *)
Lemma diff_length : forall h, length (diff_q h) = (length h - 1)%nat.
Proof. intros [|x h]; [reflexivity|]. revert x. induction h as [|y h IH]; intros x; [reflexivity|]. change (diff_q (x :: y :: h)) with ((y - x) :: diff_q (y :: h)). cbn [length] in *. rewrite IH. lia. Qed.
Lemma diff_nth : forall h i, (S i < length h)%nat -> nth i (diff_q h) 0 = nth (S i) h 0 - nth i h 0.
Proof.
  intros h. induction h as [|x [|y h] IH]; intros i Hi; cbn [length] in *; try lia. destruct i as [|i]; [reflexivity|].
  change (diff_q (x :: y :: h)) with ((y - x) :: diff_q (y :: h)). cbn [nth]. specialize (IH i ltac:(cbn; lia)). cbn [nth] in IH. exact IH.
Qed.
Lemma diff_pos h x : increasing h -> In x (diff_q h) -> 0 < x.
Proof.
  intros I Hx. apply (In_nth _ _ 0) in Hx. destruct Hx as (i & Hi & <-). rewrite diff_length in Hi. rewrite diff_nth by lia.
  pose proof (I i (S i) ltac:(lia)) as H. unfold at_ in H. lra.
Qed.
Lemma binratio_ok h br : binratio h = Ok br -> length br = length h /\ (2 <= length h)%nat /\ (increasing h -> all_positive br).
Proof.
  unfold binratio. intros E. destruct (rev (diff_q h)) as [|d t] eqn:R; [discriminate|]. injection E as <-.
  pose proof (diff_length h) as L. assert (length (diff_q h) = S (length t)) as L' by (rewrite <- rev_length, R; reflexivity).
  rewrite map_length, app_length. cbn. split; [lia|]. split; [lia|]. intros I x Hx. apply in_map_iff in Hx. destruct Hx as (y & <- & Hy).
  assert (0 < y) as P.
  { apply (diff_pos h y I). apply in_app_or in Hy. destruct Hy as [Hy|[<-|[]]]; [exact Hy|]. rewrite in_rev, R. left. reflexivity. }
  apply Qlt_shift_div_l; [reflexivity|]. lra.
Qed.
Lemma binratio_two h : (2 <= length h)%nat -> exists br, binratio h = Ok br.
Proof.
  intros L. unfold binratio. destruct (rev (diff_q h)) as [|d t] eqn:R; [|eexists; reflexivity].
  pose proof (diff_length h) as L'. rewrite <- rev_length, R in L'. cbn in L'. lia.
Qed.
Lemma binratio_short h : (length h < 2)%nat -> binratio h = Err IndexError.
Proof. destruct h as [|x [|y h]]; cbn; try lia; reflexivity. Qed.
Lemma qmin_some h : h <> [] -> exists m, qmin_list h = Some m.
Proof. destruct h; [congruence|]. eexists. reflexivity. Qed.
Definition kw_anchor (kw : kwargs) (h : list Q) (no ho : Q) : Prop :=
  match kw_get "no" kw, kw_get "ho" kw with Some a, Some b => no = a /\ ho = b | _, _ => no = 10 /\ qmin_list h = Some ho end.
Definition kw_index (kw : kwargs) : Q := match kw_get "hindex" kw with Some x => x | None => 33 # 100 end.
Lemma power_law_ok pow10 kw h w : power_law_dndh pow10 kw h = Ok w -> exists no ho br, kw_anchor kw h no ho /\ binratio h = Ok br /\ length br = length h /\ length w = length h /\
  forall i, (i < length h)%nat -> at_ w i == no * (1 # 10) * pow10 (kw_index kw * (at_ h i - ho)) * at_ br i.
Proof.
  unfold power_law_dndh, kw_anchor. fold (kw_index kw). intros E.
  assert (exists an, match kw_get "no" kw, kw_get "ho" kw with Some no, Some ho => Ok (no, ho) | _, _ => match qmin_list h with Some ho => Ok (10, ho) | None => Err ValueError end end = Ok an) as (an & Ea).
  { destruct (match kw_get "no" kw, kw_get "ho" kw with Some no, Some ho => Ok (no, ho) | _, _ => match qmin_list h with Some ho => Ok (10, ho) | None => Err ValueError end end); [eexists; reflexivity|discriminate E]. }
  rewrite Ea in E. cbn [bind] in E. destruct (binratio h) as [br|] eqn:Eb; [|discriminate]. cbn [bind] in E. injection E as <-.
  pose proof (binratio_ok h br Eb) as (L & _ & _). exists (fst an), (snd an), br. split.
  - destruct (kw_get "no" kw), (kw_get "ho" kw); try (injection Ea as <-; split; reflexivity); destruct (qmin_list h); try discriminate; injection Ea as <-; split; reflexivity.
  - split; [reflexivity|]. split; [exact L|]. split; [rewrite zip_length; rewrite map_length; congruence|]. intros i Hi. unfold at_.
    rewrite zip_nth by (rewrite map_length; congruence). set (g := fun x => fst an * (1 # 10) * pow10 (kw_index kw * (x - snd an))).
    rewrite (nth_indep _ 0 (g 0)) by (rewrite map_length; exact Hi). rewrite map_nth. reflexivity.
Qed.
Lemma at_in (l : list Q) x : In x l -> exists i, (i < length l)%nat /\ at_ l i = x.
Proof. intros H. apply (In_nth _ _ 0) in H. destruct H as (i & Hi & E). exists i. auto. Qed.
Lemma mul_pos a b : 0 < a -> 0 < b -> 0 < a * b.
Proof. intros. rewrite <- (Qmult_0_l b). apply Qmult_lt_r; assumption. Qed.
Lemma power_law_pos pow10 kw h : (2 <= length h)%nat -> increasing h -> (forall x, 0 < pow10 x) -> (forall no, kw_get "no" kw = Some no -> 0 < no) ->
  exists w, power_law_dndh pow10 kw h = Ok w /\ length w = length h /\ all_positive w.
Proof.
  intros L I P N. destruct (binratio_two h L) as (br & Eb).
  destruct (qmin_some h ltac:(destruct h; [cbn in L; lia|discriminate])) as (m & Em).
  assert (exists w, power_law_dndh pow10 kw h = Ok w) as (w & Ew).
  { unfold power_law_dndh. rewrite Em, Eb. destruct (kw_get "no" kw), (kw_get "ho" kw); cbn [bind]; eexists; reflexivity. }
  exists w. split; [exact Ew|]. destruct (power_law_ok _ _ _ _ Ew) as (no & ho & br' & A & Eb' & Lb & Lw & V). rewrite Eb in Eb'. injection Eb' as <-.
  split; [exact Lw|]. intros x Hx. apply at_in in Hx. destruct Hx as (i & Hi & <-). rewrite V by lia.
  destruct (binratio_ok h br Eb) as (_ & _ & Pb).
  assert (0 < no) as Hn. { unfold kw_anchor in A. destruct (kw_get "no" kw) as [a|]; [|destruct A; subst; reflexivity]. destruct (kw_get "ho" kw); destruct A; subst; [apply N; reflexivity|reflexivity]. }
  repeat apply mul_pos; [exact Hn|reflexivity|apply P|apply wpos; [exact (Pb I)|lia]].
Qed.
