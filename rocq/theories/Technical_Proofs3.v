(** Lemmas about the technical metrics: phase gaps, pairs of visits, campaigns. *)
From Verif Require Import Base Technical_Model Technical_Spec Technical_Proofs.
From Coq Require Import Lia QArith Qround Lqa Permutation Sorted.
Open Scope Z_scope.

(** * phase gaps *)
Lemma qleb_iff a b : qleb a b = true <-> (a <= b)%Q. Proof. apply Qle_bool_iff. Qed.
Lemma qleb_false a b : qleb a b = false -> (b <= a)%Q.
Proof. intros H. destruct (Qlt_le_dec b a) as [Hl|Hl]; [apply Qlt_le_weak; exact Hl|]. apply qleb_iff in Hl. congruence. Qed.
Lemma insert_q_perm x l : Permutation (insert_q x l) (x :: l).
Proof. induction l as [|y t IH]; cbn; [reflexivity|]. destruct (qleb x y); [reflexivity|]. rewrite IH. apply perm_swap. Qed.
Lemma sort_q_perm l : Permutation (sort_q l) l.
Proof. induction l as [|x t IH]; cbn; [reflexivity|]. rewrite insert_q_perm. constructor. exact IH. Qed.
Lemma insert_q_sorted x l : StronglySorted Qle l -> StronglySorted Qle (insert_q x l).
Proof.
  induction 1 as [|y t Hs IH Hy]; cbn; [repeat constructor|]. destruct (qleb x y) eqn:E.
  - apply qleb_iff in E. constructor; [constructor; assumption|]. constructor; [exact E|]. eapply Forall_impl; [|exact Hy]. intros z Hz. apply Qle_trans with y; assumption.
  - apply qleb_false in E. constructor; [exact IH|]. rewrite Forall_forall in *. intros z Hz. apply (Permutation_in _ (insert_q_perm x t)) in Hz. destruct Hz as [<-|Hz]; [exact E | apply Hy; exact Hz].
Qed.
Lemma sort_q_sorted l : StronglySorted Qle (sort_q l).
Proof. induction l; cbn; [constructor | apply insert_q_sorted; assumption]. Qed.
Lemma fold_qmax l : forall x, (x <= fold_left qmax l x)%Q /\ (forall y, In y l -> (y <= fold_left qmax l x)%Q) /\ (fold_left qmax l x = x \/ In (fold_left qmax l x) l).
Proof.
  induction l as [|z t IH]; intros x; cbn [fold_left]; [split; [apply Qle_refl | split; [intros y [] | left; reflexivity]]|].
  destruct (IH (qmax x z)) as (H1 & H2 & H3).
  assert ((x <= qmax x z)%Q /\ (z <= qmax x z)%Q /\ (qmax x z = x \/ qmax x z = z)) as (Ha & Hb & Hc).
  { unfold qmax. destruct (qleb x z) eqn:E; [apply qleb_iff in E | apply qleb_false in E]; (split; [|split]); auto using Qle_refl. }
  split; [apply Qle_trans with (qmax x z); assumption | split].
  - intros y [<-|Hy]; [apply Qle_trans with (qmax x z); assumption | apply H2; exact Hy].
  - destruct H3 as [E|Hi]; [|right; right; exact Hi]. rewrite E. destruct Hc as [-> | ->]; [left; reflexivity | right; left; reflexivity].
Qed.
Lemma qmax_list_spec l : l <> [] -> In (qmax_list l) l /\ forall y, In y l -> (y <= qmax_list l)%Q.
Proof.
  destruct l as [|x t]; [contradiction|]. intros _. cbn [qmax_list]. destruct (fold_qmax t x) as (H1 & H2 & H3). split.
  - destruct H3 as [-> |H]; [left; reflexivity | right; exact H].
  - intros y [<-|Hy]; [exact H1 | apply H2; exact Hy].
Qed.
Lemma diff_q_in l d : In d (diff_q l) <-> exists x y, successive x y l /\ d = (y - x)%Q.
Proof.
  induction l as [|a [|b t] IH].
  - split; [intros [] | intros (x & y & (i & E & _) & _); destruct i; discriminate].
  - split; [intros [] | intros (x & y & (i & _ & E) & _); destruct i as [|[|]]; discriminate].
  - change (diff_q (a :: b :: t)) with ((b - a)%Q :: diff_q (b :: t)). cbn [In]. rewrite IH. split.
    + intros [<-|(x & y & (i & E1 & E2) & ->)]; [exists a, b; split; [exists 0%nat; split; reflexivity | reflexivity] | exists x, y; split; [exists (S i); split; assumption | reflexivity]].
    + intros (x & y & (i & E1 & E2) & ->). destruct i as [|i]; [left; cbn in E1, E2; injection E1 as ->; injection E2 as ->; reflexivity | right; exists x, y; split; [exists i; split; assumption | reflexivity]].
Qed.
Lemma diff_q_sum l a : (fold_right Qplus 0 (diff_q (a :: l)) == last (a :: l) 0 - a)%Q.
Proof.
  revert a. induction l as [|b t IH]; intros a; [cbn; ring|].
  change (diff_q (a :: b :: t)) with ((b - a)%Q :: diff_q (b :: t)). change (last (a :: b :: t) 0%Q) with (last (b :: t) 0%Q). cbn [fold_right]. rewrite IH. ring.
Qed.
Lemma sum_max l m : (forall y, In y l -> (y <= m)%Q) -> (fold_right Qplus 0 l <= inject_Z (Z.of_nat (length l)) * m)%Q.
Proof.
  induction l as [|x t IH]; intros H; [cbn [fold_right length]; rewrite Qmult_0_l; apply Qle_refl|]. cbn [fold_right length]. rewrite Nat2Z.inj_succ. unfold Z.succ. rewrite inject_Z_plus.
  pose proof (H x (or_introl eq_refl)). assert (fold_right Qplus 0 t <= inject_Z (Z.of_nat (length t)) * m)%Q by (apply IH; intros y Hy; apply H; right; exact Hy). change (inject_Z 1) with 1%Q. Lqa.lra.
Qed.
Lemma phase_range p t : (0 <= phase p t < 1)%Q.
Proof.
  unfold phase. pose proof (Qfloor_le (t / p)). pose proof (Qlt_floor (t / p)) as H2. rewrite inject_Z_plus in H2. change (inject_Z 1) with 1%Q in H2. split; Lqa.lra.
Qed.
Lemma sorted_first_last l a : StronglySorted Qle (a :: l) -> (a <= last (a :: l) 0)%Q /\ forall y, In y (a :: l) -> (y <= last (a :: l) 0)%Q.
Proof.
  revert a. induction l as [|b t IH]; intros a H.
  - split; [apply Qle_refl | intros y [<-|[]]; apply Qle_refl].
  - inversion H as [|? ? Hs Hf]; subst. destruct (IH b Hs) as [H1 H2]. change (last (a :: b :: t) 0%Q) with (last (b :: t) 0%Q). inversion Hf as [|? ? Hab _]; subst.
    split; [apply Qle_trans with b; assumption | intros y [<-|Hy]; [apply Qle_trans with b; assumption | apply H2; exact Hy]].
Qed.
Lemma last_in {A} (l : list A) d : l <> [] -> In (last l d) l.
Proof. induction l as [|a [|b t] IH]; intros H; [contradiction | left; reflexivity | right; apply IH; discriminate]. Qed.
(** where a point falls among sorted values *)
Lemma locate l x : StronglySorted Qle l -> (forall y, In y l -> (x < y)%Q) \/ (forall y, In y l -> (y <= x)%Q) \/ exists a b, successive a b l /\ (a <= x < b)%Q.
Proof.
  induction 1 as [|y t Hs IH Hy]; [left; intros y []|]. destruct (Qlt_le_dec x y) as [Hx|Hx].
  - left. intros z [<-|Hz]; [exact Hx|]. rewrite Forall_forall in Hy. apply Qlt_le_trans with y; [exact Hx | apply Hy; exact Hz].
  - destruct IH as [H|[H|(a & b & (i & E1 & E2) & H)]].
    + destruct t as [|z t]; [right; left; intros w [<-|[]]; exact Hx|]. right; right. exists y, z. split; [exists 0%nat; split; reflexivity | split; [exact Hx | apply H; left; reflexivity]].
    + right; left. intros z [<-|Hz]; [exact Hx | apply H; exact Hz].
    + right; right. exists a, b. split; [exists (S i); split; assumption | exact H].
Qed.
Lemma sorted_between l : StronglySorted Qle l -> forall a b, successive a b l -> forall y, In y l -> (y <= a)%Q \/ (b <= y)%Q.
Proof.
  induction 1 as [|z t Hs IH Hz]; intros a b (i & E1 & E2) y Hy; [destruct Hy|]. rewrite Forall_forall in Hz. destruct i as [|i].
  - cbn in E1, E2. injection E1 as ->. destruct t as [|w t]; [discriminate|]. cbn in E2. injection E2 as ->. destruct Hy as [<-|Hy]; [left; apply Qle_refl | right].
    destruct Hy as [<-|Hy]; [apply Qle_refl|]. inversion Hs as [|? ? _ Hf]; subst. rewrite Forall_forall in Hf. apply Hf. exact Hy.
  - cbn in E1, E2. destruct Hy as [<-|Hy]; [left; apply Hz; eapply nth_error_In; exact E1 | apply (IH a b); [exists i; split; assumption | exact Hy]].
Qed.
Lemma largest_gap_spec times period : times <> [] ->
  let g := largest_gap times period in
  (1 <= inject_Z (Z.of_nat (length times)) * g)%Q /\ (g <= 1)%Q /\
  (forall a b, (forall t k, In t times -> ~ (a < t / period + inject_Z k < b)%Q) -> (b - a <= g)%Q) /\
  exists a, forall t k, In t times -> ~ (a < t / period + inject_Z k < a + g)%Q.
Proof.
  intros Hne. cbv zeta. unfold largest_gap. cbv zeta.
  pose proof (sort_q_perm (map (phase period) times)) as Hp. pose proof (sort_q_sorted (map (phase period) times)) as Hs.
  set (ph := sort_q (map (phase period) times)) in *. assert (length ph = length times) as Hl by (rewrite (Permutation_length Hp); apply map_length).
  destruct ph as [|p0 r] eqn:Eph; [destruct times; [contradiction | discriminate]|]. cbn [hd].
  assert (forall y, In y (p0 :: r) <-> exists t, In t times /\ phase period t = y) as Hin.
    { intros y. split; intros H.
    - apply (Permutation_in _ Hp) in H. apply in_map_iff in H. destruct H as (t & E & Ht). exists t. split; assumption.
    - apply (Permutation_in _ (Permutation_sym Hp)). apply in_map_iff. destruct H as (t & Ht & E). exists t. split; assumption. }
  assert (forall y, In y (p0 :: r) -> (0 <= y < 1)%Q) as Hr by (intros y Hy; apply Hin in Hy; destruct Hy as (t & _ & <-); apply phase_range).
  destruct (sorted_first_last r p0 Hs) as [Hfl Hlast]. set (pl := last (p0 :: r) 0%Q) in *.
  assert (In pl (p0 :: r)) as Hpl by (apply last_in; discriminate).
  assert (forall y, In y (p0 :: r) -> (p0 <= y)%Q) as Hfirst by (intros y [<-|Hy]; [apply Qle_refl | inversion Hs as [|? ? _ Hf]; subst; rewrite Forall_forall in Hf; apply Hf; exact Hy]).
  set (L := diff_q (p0 :: r) ++ [(1 - pl + p0)%Q]). assert (L <> []) as HL by (unfold L; destruct (diff_q (p0 :: r)); discriminate).
  destruct (qmax_list_spec L HL) as [Hgi Hgm]. set (g := qmax_list L) in *.
  assert (length L = length times) as HlL.
  { unfold L. rewrite app_length. cbn [length]. rewrite <- Hl. clear. revert p0. induction r as [|b t IH]; intros p0; [reflexivity|]. change (diff_q (p0 :: b :: t)) with ((b - p0)%Q :: diff_q (b :: t)). specialize (IH b). cbn [length] in *. lia. }
  assert (fold_right Qplus 0 L == 1)%Q as Hsum.
  { unfold L. rewrite fold_right_app. cbn [fold_right]. assert (forall l c, (fold_right Qplus c l == fold_right Qplus 0 l + c)%Q) as Hc by (induction l as [|x l IHl]; intros c; cbn; [ring | rewrite IHl; ring]). rewrite Hc, diff_q_sum. fold pl. ring. }
  assert (forall t k, (t / period + inject_Z k == phase period t + inject_Z (k + Qfloor (t / period)))%Q) as Hph by (intros t k; unfold phase; rewrite inject_Z_plus; ring).
  split; [|split; [|split]].
  - rewrite <- Hsum, <- HlL. apply sum_max. exact Hgm.
  - unfold L in Hgi. apply in_app_or in Hgi. destruct Hgi as [Hg|[Hg|[]]].
    + apply diff_q_in in Hg. destruct Hg as (x & y & (i & E1 & E2) & ->). pose proof (Hr x (nth_error_In _ _ E1)). pose proof (Hr y (nth_error_In _ _ E2)). Lqa.lra.
    + rewrite <- Hg. Lqa.lra.
  - intros a b Hab. pose proof (Qfloor_le a) as Ha1. pose proof (Qlt_floor a) as Ha2. rewrite inject_Z_plus in Ha2. change (inject_Z 1) with 1%Q in Ha2. set (f := Qfloor a) in *.
    assert (forall y k, In y (p0 :: r) -> ~ (a - inject_Z f < y + inject_Z k < b - inject_Z f)%Q) as Hno.
    { intros y k Hy Hc. apply Hin in Hy. destruct Hy as (t & Ht & <-). apply (Hab t (k + f - Qfloor (t / period)) Ht). rewrite Hph. rewrite !inject_Z_plus in *. unfold Z.sub. rewrite !inject_Z_plus, inject_Z_opp.
      assert (inject_Z (k + f - Qfloor (t / period) + Qfloor (t / period)) == inject_Z k + inject_Z f)%Q as E by (rewrite <- inject_Z_plus; replace (k + f - Qfloor (t / period) + Qfloor (t / period)) with (k + f) by lia; reflexivity).
      split; Lqa.lra. }
    destruct (locate (p0 :: r) (a - inject_Z f)%Q Hs) as [H|[H|(x & y & Hxy & H)]].
    + pose proof (Hno p0 0 (or_introl eq_refl)) as Hn. change (inject_Z 0) with 0%Q in Hn. pose proof (H p0 (or_introl eq_refl)). pose proof (Hgm (1 - pl + p0)%Q) as Hw.
      assert (In (1 - pl + p0)%Q L) as Hi by (unfold L; apply in_or_app; right; left; reflexivity). specialize (Hw Hi). pose proof (Hr pl Hpl).
      destruct (Qlt_le_dec p0 (b - inject_Z f)) as [Hlt|Hle]; [exfalso; apply Hn; split; Lqa.lra | Lqa.lra].
    + pose proof (Hno p0 1 (or_introl eq_refl)) as Hn. change (inject_Z 1) with 1%Q in Hn. pose proof (H pl Hpl). pose proof (Hgm (1 - pl + p0)%Q) as Hw.
      assert (In (1 - pl + p0)%Q L) as Hi by (unfold L; apply in_or_app; right; left; reflexivity). specialize (Hw Hi). pose proof (Hr p0 (or_introl eq_refl)).
      destruct (Qlt_le_dec (p0 + 1) (b - inject_Z f)) as [Hlt|Hle]; [exfalso; apply Hn; split; Lqa.lra | Lqa.lra].
    + assert (In (y - x)%Q L) as Hi by (unfold L; apply in_or_app; left; apply diff_q_in; exists x, y; split; [exact Hxy | reflexivity]). specialize (Hgm _ Hi).
      destruct Hxy as (i & E1 & E2). pose proof (Hno y 0 (nth_error_In _ _ E2)) as Hn. change (inject_Z 0) with 0%Q in Hn.
      destruct (Qlt_le_dec y (b - inject_Z f)) as [Hlt|Hle]; [exfalso; apply Hn; split; Lqa.lra | Lqa.lra].
  - unfold L in Hgi. apply in_app_or in Hgi. destruct Hgi as [Hg|[Hg|[]]].
    + apply diff_q_in in Hg. destruct Hg as (x & y & Hxy & Eg). exists x. intros t k Ht Hc. rewrite Hph, Eg in Hc. set (k' := k + Qfloor (t / period)) in *.
      pose proof (sorted_between _ Hs x y Hxy (phase period t)) as Hb. assert (In (phase period t) (p0 :: r)) as Hti by (apply Hin; exists t; split; [exact Ht | reflexivity]). specialize (Hb Hti).
      destruct Hxy as (i & E1 & E2). pose proof (Hr x (nth_error_In _ _ E1)). pose proof (Hr y (nth_error_In _ _ E2)). pose proof (Hr _ Hti).
      assert (k' = 0) as Ek.
      { destruct (Z.lt_trichotomy k' 0) as [Hk|[Hk|Hk]]; [|exact Hk|]; exfalso; assert (k' <= -1 \/ 1 <= k') as [Hq|Hq] by lia; rewrite Zle_Qle in Hq; change (inject_Z (-1)) with (-(1))%Q in Hq; change (inject_Z 1) with 1%Q in Hq; Lqa.lra. }
      rewrite Ek in Hc. change (inject_Z 0) with 0%Q in Hc. Lqa.lra.
    + exists pl. intros t k Ht Hc. rewrite Hph, <- Hg in Hc. set (k' := k + Qfloor (t / period)) in *.
      assert (In (phase period t) (p0 :: r)) as Hti by (apply Hin; exists t; split; [exact Ht | reflexivity]). pose proof (Hr _ Hti). pose proof (Hlast _ Hti). pose proof (Hfirst _ Hti). pose proof (Hr pl Hpl). pose proof (Hr p0 (or_introl eq_refl)).
      assert (k' <= -1 \/ k' = 0 \/ k' = 1 \/ 2 <= k') as [Hq|[Hq|[Hq|Hq]]] by lia.
      * rewrite Zle_Qle in Hq; change (inject_Z (-1)) with (-(1))%Q in Hq; Lqa.lra.
      * rewrite Hq in Hc. change (inject_Z 0) with 0%Q in Hc. Lqa.lra.
      * rewrite Hq in Hc. change (inject_Z 1) with 1%Q in Hc. Lqa.lra.
      * rewrite Zle_Qle in Hq; change (inject_Z 2) with 2%Q in Hq; Lqa.lra.
Qed.

(** * distinct values in order *)
Lemma insert_uniq_z_in x l y : In y (insert_uniq_z x l) <-> y = x \/ In y l.
Proof.
  induction l as [|z t IH]; cbn; [intuition congruence|]. destruct (Z.ltb_spec x z); cbn; [intuition congruence|]. destruct (Z.ltb_spec z x); cbn; [rewrite IH; intuition congruence|].
  assert (x = z) by lia. subst. intuition congruence.
Qed.
Lemma unique_z_in l y : In y (unique_z l) <-> In y l.
Proof. induction l as [|x t IH]; cbn; [reflexivity|]. rewrite insert_uniq_z_in, IH. intuition congruence. Qed.
Lemma insert_uniq_z_sorted x l : StronglySorted Z.lt l -> StronglySorted Z.lt (insert_uniq_z x l).
Proof.
  induction 1 as [|z t Hs IH Hz]; cbn; [repeat constructor|]. destruct (Z.ltb_spec x z).
  - constructor; [constructor; assumption|]. constructor; [assumption|]. eapply Forall_impl; [|exact Hz]. intros; cbn in *; lia.
  - destruct (Z.ltb_spec z x); [|constructor; assumption]. constructor; [exact IH|]. rewrite Forall_forall in *. intros y Hy. apply insert_uniq_z_in in Hy. destruct Hy as [-> |Hy]; [assumption | apply Hz; exact Hy].
Qed.
Lemma unique_z_sorted l : StronglySorted Z.lt (unique_z l).
Proof. induction l; cbn; [constructor | apply insert_uniq_z_sorted; assumption]. Qed.
Lemma sorted_lt_nodup l : StronglySorted Z.lt l -> NoDup l.
Proof. induction 1 as [|x t Hs IH Hx]; constructor; [|exact IH]. intros Hi. rewrite Forall_forall in Hx. specialize (Hx x Hi). lia. Qed.
Lemma diff_z_next l : StronglySorted Z.lt l -> forall d, In d (diff_z l) -> exists a b, next_night l a b /\ d = b - a.
Proof.
  induction 1 as [|a t Hs IH Ha]; intros d Hd; [destruct Hd|]. destruct t as [|b t]; [destruct Hd|].
  change (diff_z (a :: b :: t)) with ((b - a) :: diff_z (b :: t)) in Hd. rewrite Forall_forall in Ha. destruct Hd as [<-|Hd].
  - exists a, b. split; [|reflexivity]. split; [left; reflexivity | split; [right; left; reflexivity | split; [apply Ha; left; reflexivity|]]].
    intros c [<-|[<-|Hc]]; [lia | lia | right]. inversion Hs as [|? ? _ Hf]; subst. rewrite Forall_forall in Hf. specialize (Hf c Hc). lia.
  - destruct (IH d Hd) as (x & y & (H1 & H2 & H3 & H4) & E). exists x, y. split; [|exact E]. split; [right; exact H1 | split; [right; exact H2 | split; [exact H3|]]].
    intros c [<-|Hc]; [left; specialize (Ha x H1); lia | apply H4; exact Hc].
Qed.
Lemma next_night_ext l l' a b : (forall x, In x l <-> In x l') -> next_night l a b -> next_night l' a b.
Proof. intros H (H1 & H2 & H3 & H4). split; [apply H; exact H1 | split; [apply H; exact H2 | split; [exact H3|]]]. intros c Hc. apply H4. apply H. exact Hc. Qed.
Lemma qsum_bounds l lo hi : (forall x, In x l -> (lo <= x <= hi)%Q) ->
  (inject_Z (Z.of_nat (length l)) * lo <= fold_right Qplus 0 l <= inject_Z (Z.of_nat (length l)) * hi)%Q.
Proof.
  induction l as [|x t IH]; intros H; [cbn [fold_right length]; change (inject_Z (Z.of_nat 0)) with 0%Q; rewrite !Qmult_0_l; split; apply Qle_refl|]. cbn [fold_right length]. rewrite Nat2Z.inj_succ. unfold Z.succ. rewrite inject_Z_plus. change (inject_Z 1) with 1%Q.
  pose proof (H x (or_introl eq_refl)). assert (inject_Z (Z.of_nat (length t)) * lo <= fold_right Qplus 0 t <= inject_Z (Z.of_nat (length t)) * hi)%Q by (apply IH; intros y Hy; apply H; right; exact Hy). split; Lqa.lra.
Qed.
Lemma qmean_bounds l lo hi m : (forall x, In x l -> (lo <= x <= hi)%Q) -> qmean l = Some m -> (lo <= m <= hi)%Q.
Proof.
  intros H E. unfold qmean in E. destruct l as [|x t]; [discriminate|]. injection E as <-. pose proof (qsum_bounds _ _ _ H) as Hb. set (S := fold_right Qplus 0%Q (x :: t)) in *.
  assert (0 < inject_Z (Z.of_nat (length (x :: t))))%Q as Hn by (change 0%Q with (inject_Z 0); rewrite <- Zlt_Qlt; cbn [length]; lia). set (n := inject_Z (Z.of_nat (length (x :: t)))) in *. split.
  - apply Qle_shift_div_l; [exact Hn|]. rewrite Qmult_comm; apply Hb.
  - apply Qle_shift_div_r; [exact Hn|]. rewrite Qmult_comm; apply Hb.
Qed.
Lemma season_mean_bounds nights lo hi : (exists a b, In a nights /\ In b nights /\ a <> b) ->
  (forall a b, next_night nights a b -> lo <= b - a <= hi) -> (inject_Z lo <= season_mean nights <= inject_Z hi)%Q.
Proof.
  intros (a & b & Ha & Hb & Hab) H. unfold season_mean.
  assert (diff_z (unique_z nights) <> []) as Hd.
  { apply (unique_z_in nights) in Ha. apply (unique_z_in nights) in Hb. destruct (unique_z nights) as [|x [|y t]]; [destruct Ha | exfalso; destruct Ha as [<-|[]], Hb as [<-|[]]; contradiction | discriminate]. }
  destruct (qmean (map inject_Z (diff_z (unique_z nights)))) as [m|] eqn:E.
  - apply (qmean_bounds _ _ _ _) with (2 := E). intros x Hx. apply in_map_iff in Hx. destruct Hx as (d & <- & Hd'). destruct (diff_z_next _ (unique_z_sorted nights) d Hd') as (u & v & Hn & ->).
    apply (next_night_ext _ nights) in Hn; [|intros z; apply unique_z_in]. specialize (H u v Hn). rewrite <- !Zle_Qle. exact H.
  - exfalso. destruct (diff_z (unique_z nights)); [contradiction | discriminate].
Qed.

(** * pairs of bins *)
Lemma round_div_bounds a b : 0 < b -> 2 * a - b <= 2 * b * round_div a b <= 2 * a + b.
Proof.
  intros Hb. unfold round_div. pose proof (Z.div_mod a b ltac:(lia)) as E. pose proof (Z.mod_pos_bound a b Hb) as Hm.
  set (q := a / b) in *. set (r := a mod b) in *. clearbody q r. subst a.
  destruct (Z.ltb_spec (2 * r) b); [nia|]. destruct (Z.ltb_spec b (2 * r)); [nia|]. destruct (Z.even q); nia.
Qed.
Lemma round_div_floor a b : 0 < b -> a / b <= round_div a b <= a / b + 1 /\ (a mod b = 0 -> round_div a b = a / b).
Proof.
  intros Hb. unfold round_div. pose proof (Z.mod_pos_bound a b Hb) as Hm. cbv zeta. split.
  - destruct (_ <? _); [lia|]. destruct (_ <? _); [lia|]. destruct (Z.even _); lia.
  - intros E. rewrite E. destruct (Z.ltb_spec (2 * 0) b); [reflexivity | lia].
Qed.
Lemma zrange_in lo hi x : In x (zrange lo hi) <-> lo <= x <= hi.
Proof.
  unfold zrange. rewrite in_map_iff. split.
  - intros (i & <- & H). apply in_seq in H. lia.
  - intros H. exists (Z.to_nat (x - lo)). split; [lia|]. apply in_seq. lia.
Qed.
Lemma zrange_nodup lo hi : NoDup (zrange lo hi).
Proof. unfold zrange. apply FinFun.Injective_map_NoDup; [intros x y H; lia | apply seq_NoDup]. Qed.
(** an occupied bin and a visit in it *)
Lemma bins_spec bs times lo : 0 < bs -> zmin_list times = Some lo ->
  exists bin : Z -> Z, (forall t, In t times -> lo + bin t * bs <= t <= lo + (bin t + 1) * bs) /\
    (forall t u, In t times -> In u times -> u = lo + (bin u + 1) * bs -> t <= u) /\
    (forall t u, In t times -> In u times -> t <= u -> bin t <= bin u) /\
    (forall k, In k (bins_with_obs bs times) -> exists t, In t times /\ bin t = k) /\
    ((exists t u, In t times /\ In u times /\ t <> u) -> forall t, In t times -> In (bin t) (bins_with_obs bs times)).
Proof.
  intros Hb Hlo. destruct (zmax_list times) as [hi|] eqn:Ehi; [|destruct times; discriminate].
  destruct (zmin_spec _ _ Hlo) as [Hl1 Hl2]. destruct (zmax_spec _ _ Ehi) as [Hh1 Hh2].
  set (nb := (hi - lo + bs - 1) / bs). set (bin := fun t => let k := bin_of lo bs t in if (k =? nb) && (lo <? hi) then k - 1 else k).
  exists bin. assert (nb * bs <= hi - lo + bs - 1 < nb * bs + bs) as Hnb.
  { unfold nb. pose proof (Z.div_mod (hi - lo + bs - 1) bs ltac:(lia)). pose proof (Z.mod_pos_bound (hi - lo + bs - 1) bs Hb). nia. }
  assert (forall t, bin_of lo bs t * bs <= t - lo < bin_of lo bs t * bs + bs) as Hk.
  { intros t. unfold bin_of. pose proof (Z.div_mod (t - lo) bs ltac:(lia)). pose proof (Z.mod_pos_bound (t - lo) bs Hb). nia. }
  assert (forall t, In t times -> bin_of lo bs t <= nb) as Hkn by (intros t Ht; specialize (Hk t); specialize (Hh2 t Ht); nia).
  assert (forall t, In t times -> bin_of lo bs t = nb -> lo < hi -> t = hi /\ hi = lo + nb * bs) as Hedge.
  { intros t Ht E Hlt. specialize (Hk t). specialize (Hh2 t Ht). rewrite E in Hk. assert (hi - lo <= nb * bs) by nia. lia. }
  split; [|split; [|split; [|split]]].
  - intros t Ht. unfold bin. cbv zeta. specialize (Hk t). destruct (Z.eqb_spec (bin_of lo bs t) nb) as [E|E]; cbn [andb]; [|nia]. destruct (Z.ltb_spec lo hi) as [Hlt|Hge]; [|nia].
    destruct (Hedge t Ht E Hlt) as [E1 E2]. rewrite E. nia.
  - intros t u Ht Hu. unfold bin. cbv zeta. pose proof (Hk u). destruct (Z.eqb_spec (bin_of lo bs u) nb) as [E|E]; cbn [andb]; [|nia]. destruct (Z.ltb_spec lo hi) as [Hlt|Hge]; [|nia].
    destruct (Hedge u Hu E Hlt) as [E1 E2]. intros _. subst u. apply Hh2. exact Ht.
  - intros t u Ht Hu Htu. assert (bin_of lo bs t <= bin_of lo bs u) as Hm by (unfold bin_of; apply Z.div_le_mono; lia). pose proof (Hkn t Ht). pose proof (Hkn u Hu). unfold bin. cbv zeta.
    destruct (Z.eqb_spec (bin_of lo bs t) nb), (Z.eqb_spec (bin_of lo bs u) nb); cbn [andb]; destruct (lo <? hi); lia.
  - intros k H. unfold bins_with_obs in H. rewrite Hlo, Ehi in H. destruct (Z.eqb_spec lo hi) as [E|E]; [destruct H|]. apply unique_z_in, in_map_iff in H. destruct H as (t & Ek & Ht). exists t. split; [exact Ht|].
    rewrite <- Ek. unfold bin. cbv zeta. fold nb. specialize (Hl2 hi Hh1). destruct (Z.ltb_spec lo hi); [|lia]. rewrite andb_true_r. reflexivity.
  - intros (x & y & Hx & Hy & Hxy) t Ht. unfold bins_with_obs. rewrite Hlo, Ehi. pose proof (Hl2 x Hx). pose proof (Hl2 y Hy). pose proof (Hh2 x Hx). pose proof (Hh2 y Hy). destruct (Z.eqb_spec lo hi); [lia|].
    apply unique_z_in, in_map_iff. exists t. split; [|exact Ht]. unfold bin. cbv zeta. fold nb. destruct (Z.ltb_spec lo hi); [|lia]. rewrite andb_true_r. reflexivity.
Qed.
Lemma nodup_app {A} (l m : list A) : NoDup l -> NoDup m -> (forall z, In z l -> ~ In z m) -> NoDup (l ++ m).
Proof.
  induction 1 as [|x t Hx Hn IH]; intros Hm Hd; cbn; [exact Hm|]. constructor.
  - intros Hc. apply in_app_or in Hc. destruct Hc as [Hc|Hc]; [contradiction | apply (Hd x); [left; reflexivity | exact Hc]].
  - apply IH; [exact Hm | intros z Hz; apply Hd; right; exact Hz].
Qed.
Lemma nodup_flat_map {A B} (f : A -> list B) l : NoDup l -> (forall x, In x l -> NoDup (f x)) ->
  (forall x y z, In x l -> In y l -> In z (f x) -> In z (f y) -> x = y) -> NoDup (flat_map f l).
Proof.
  induction 1 as [|x t Hx Hn IH]; intros Hf Hd; cbn; [constructor|]. apply nodup_app.
  - apply Hf. left. reflexivity.
  - apply IH; [intros y Hy; apply Hf; right; exact Hy | intros y z w Hy Hz; apply Hd; right; assumption].
  - intros z Hz Hc. apply in_flat_map in Hc. destruct Hc as (y & Hy & Hzy). assert (x = y) by (apply (Hd x y z); [left; reflexivity | right; exact Hy | exact Hz | exact Hzy]). subst. contradiction.
Qed.
Lemma zsum_lengths {A B} (f : A -> list B) l : zsum (map (fun a => Z.of_nat (length (f a))) l) = Z.of_nat (length (flat_map f l)).
Proof. induction l as [|x t IH]; [reflexivity|]. cbn [map flat_map]. rewrite app_length, Nat2Z.inj_add, <- IH. reflexivity. Qed.
Lemma length_flat_map_map {A B C} (f : A -> list B) (g : A -> B -> C) l : length (flat_map (fun a => map (g a) (f a)) l) = length (flat_map f l).
Proof. induction l as [|x t IH]; [reflexivity|]. cbn. rewrite !app_length, map_length, IH. reflexivity. Qed.

Lemma nodup_map_in {A B} (f : A -> B) l : NoDup l -> (forall x y, In x l -> In y l -> f x = f y -> x = y) -> NoDup (map f l).
Proof.
  induction 1 as [|x t Hx Hn IH]; intros Hf; cbn; [constructor|]. constructor.
  - intros Hc. apply in_map_iff in Hc. destruct Hc as (y & E & Hy). assert (x = y) by (apply Hf; [left; reflexivity | right; exact Hy | symmetry; exact E]). subst. contradiction.
  - apply IH. intros y z Hy Hz. apply Hf; right; assumption.
Qed.
Lemma bins_nodup bs times : NoDup (bins_with_obs bs times).
Proof. unfold bins_with_obs. destruct (zmin_list times); [|constructor]. destruct (zmax_list times); [|constructor]. destruct (_ =? _); [constructor | apply sorted_lt_nodup, unique_z_sorted]. Qed.
Lemma pair_metric_upper mn mx bs times r : 0 < bs -> bs < 2 * mn -> pair_metric mn mx bs times = Some r ->
  exists ps : list (Z * Z), NoDup ps /\ Z.of_nat (length ps) = r /\
    forall t u, In (t, u) ps -> In t times /\ In u times /\ u < t /\ 2 * mn - 3 * bs <= 2 * (t - u) <= 2 * mx + 3 * bs.
Proof.
  intros Hbs Hmn H. unfold pair_metric in H. cbv zeta in H. set (b := bins_with_obs bs times) in *.
  destruct (zsum _ =? 0) eqn:E0 in H; [discriminate|]. injection H as <-.
  destruct (zmin_list times) as [lo|] eqn:Elo.
  2: { exfalso. destruct times; [|discriminate]. apply Z.eqb_neq in E0. apply E0. unfold b, bins_with_obs. cbn. clear. induction (zrange _ _); [reflexivity | cbn; assumption]. }
  destruct (bins_spec bs times lo Hbs Elo) as (bin & H1 & H2 & H3 & H4 & _). fold b in H4.
  set (rep := fun k => match find (fun t => bin t =? k) times with Some t => t | None => 0 end).
  assert (forall k, In k b -> In (rep k) times /\ bin (rep k) = k) as Hrep.
  { intros k Hk. unfold rep. destruct (find (fun t => bin t =? k) times) as [t|] eqn:Ef.
    - apply find_some in Ef. destruct Ef as [Ht Eb]. apply Z.eqb_eq in Eb. split; assumption.
    - exfalso. destruct (H4 k Hk) as (t & Ht & Eb). pose proof (find_none _ _ Ef t Ht) as Hn. cbn in Hn. lia. }
  set (fl := fun add => filter (fun k => existsb (Z.eqb (k - add)) b) b).
  assert (forall add k, In k (fl add) -> In k b /\ In (k - add) b) as Hfl.
  { intros add k Hk. apply filter_In in Hk. destruct Hk as [Hk Hx]. split; [exact Hk|]. apply existsb_exists in Hx. destruct Hx as (y & Hy & Ey). apply Z.eqb_eq in Ey. rewrite Ey. exact Hy. }
  exists (flat_map (fun add => map (fun k => (rep k, rep (k - add))) (fl add)) (zrange (round_div mn bs) (round_div mx bs))).
  split; [|split].
  - apply nodup_flat_map; [apply zrange_nodup | |].
    + intros add _. apply nodup_map_in; [apply NoDup_filter, bins_nodup|]. intros x y Hx Hy E. injection E as E _. destruct (Hrep x (proj1 (Hfl _ _ Hx))) as [_ Ex]. destruct (Hrep y (proj1 (Hfl _ _ Hy))) as [_ Ey]. congruence.
    + intros a1 a2 z _ _ Hz1 Hz2. apply in_map_iff in Hz1. apply in_map_iff in Hz2. destruct Hz1 as (k1 & <- & Hk1). destruct Hz2 as (k2 & E & Hk2). injection E as Ea Eb.
      destruct (Hfl _ _ Hk1) as [P1 P2]. destruct (Hfl _ _ Hk2) as [Q1 Q2]. pose proof (proj2 (Hrep _ P1)). pose proof (proj2 (Hrep _ P2)). pose proof (proj2 (Hrep _ Q1)). pose proof (proj2 (Hrep _ Q2)). rewrite Ea in *. rewrite Eb in *. lia.
  - rewrite (length_flat_map_map fl (fun add k => (rep k, rep (k - add)))). symmetry. apply (zsum_lengths fl).
  - intros t u H. apply in_flat_map in H. destruct H as (add & Hadd & H). apply zrange_in in Hadd. apply in_map_iff in H. destruct H as (k & E & Hk). injection E as <- <-.
    destruct (Hfl _ _ Hk) as [P1 P2]. destruct (Hrep _ P1) as [T1 T2]. destruct (Hrep _ P2) as [U1 U2]. split; [exact T1 | split; [exact U1|]].
    pose proof (round_div_bounds mn bs Hbs). pose proof (round_div_bounds mx bs Hbs). pose proof (H1 _ T1) as A1. pose proof (H1 _ U1) as A2. rewrite T2 in A1. rewrite U2 in A2. split; [|nia].
    assert (1 <= add) by nia. destruct (Z.lt_ge_cases (rep (k - add)) (rep k)) as [L|G]; [exact L|]. exfalso. pose proof (H3 _ _ T1 U1 G). lia.
Qed.
Lemma zsum_pos {A} (f : A -> Z) l x : (forall y, 0 <= f y) -> In x l -> 0 < f x -> 0 < zsum (map f l).
Proof.
  intros Hf. assert (forall m, 0 <= zsum (map f m)) as Hnn by (induction m as [|y m IH]; cbn; [lia | unfold zsum in IH; specialize (Hf y); lia]).
  induction l as [|y t IH]; intros Hi Hx; [destruct Hi|]. cbn. fold (zsum (map f t)). destruct Hi as [-> |Hi]; [specialize (Hnn t); lia | specialize (IH Hi Hx); specialize (Hf y); lia].
Qed.
Lemma pair_metric_found mn mx bs times t u : 0 < bs -> 0 < t - u -> In t times -> In u times -> mn + bs <= t - u <= mx - bs -> pair_metric mn mx bs times <> None.
Proof.
  intros Hbs Htu Ht Hu Hsep H. unfold pair_metric in H. cbv zeta in H. set (b := bins_with_obs bs times) in *.
  destruct (zmin_list times) as [lo|] eqn:Elo; [|destruct times; [destruct Ht | discriminate]].
  destruct (bins_spec bs times lo Hbs Elo) as (bin & H1 & H2 & H3 & _ & H5). fold b in H5.
  assert (forall x, In x times -> In (bin x) b) as Hb by (apply H5; exists t, u; split; [exact Ht | split; [exact Hu | lia]]).
  destruct (zsum _ =? 0) eqn:E0 in H; [|discriminate]. apply Z.eqb_eq in E0.
  assert (0 < zsum (map (fun add => Z.of_nat (length (filter (fun k => existsb (Z.eqb (k - add)) b) b))) (zrange (round_div mn bs) (round_div mx bs)))) as Hp; [|lia].
  apply (zsum_pos _ _ (bin t - bin u)); [intros; lia | |].
  - apply zrange_in. pose proof (H1 t Ht) as T. pose proof (H1 u Hu) as U.
    assert (t - u <= (bin t - bin u + 1) * bs) as L1 by nia. assert ((bin t - bin u - 1) * bs < t - u) as L2.
    { destruct (Z.eq_dec u (lo + (bin u + 1) * bs)) as [E|E]; [pose proof (H2 t u Ht Hu E); lia | nia]. }
    set (d := bin t - bin u) in *. clearbody d. destruct (round_div_floor mn bs Hbs) as [[R1 R2] R3]. destruct (round_div_floor mx bs Hbs) as [[S1 S2] _].
    pose proof (Z.div_mod mn bs ltac:(lia)) as D1. pose proof (Z.mod_pos_bound mn bs Hbs) as M1. pose proof (Z.div_mod mx bs ltac:(lia)) as D2. pose proof (Z.mod_pos_bound mx bs Hbs) as M2. split.
    + destruct (Z.eq_dec (mn mod bs) 0) as [E|E]; [rewrite (R3 E); nia | nia].
    + assert (d <= mx / bs) by nia. lia.
  - assert (In (bin t) (filter (fun k => existsb (Z.eqb (k - (bin t - bin u))) b) b)) as Hi.
    { apply filter_In. split; [apply Hb; exact Ht|]. apply existsb_exists. exists (bin u). split; [apply Hb; exact Hu | apply Z.eqb_eq; lia]. }
    destruct (filter _ b); [destruct Hi | cbn [length]; lia].
Qed.
