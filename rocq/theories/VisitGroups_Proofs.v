(** Lemmas about groups of visits. *)
From Verif Require Import Base Technical_Model Technical_Spec Technical_Proofs Technical_Proofs3 VisitGroups_Model VisitGroups_Spec.
From Coq Require Import Lia Permutation Sorted.
Open Scope Z_scope.

(** * visits of a night *)
Lemma sort_in_order times s : in_order times s -> sort_z times = s.
Proof. intros [Hp Hs]. apply sorted_perm_eq; [apply sort_z_sorted | exact Hs | rewrite sort_z_perm; symmetry; exact Hp]. Qed.
(** the totals of the two counters *)
Fixpoint totals (ks : list gap_kind) (prev : gap_kind) : Z * Z :=
  match ks with
  | [] => (0, 0)
  | [k] => (if is_good k then 2 else 0, if is_close k then 1 + b2z (negb (is_good prev) && negb (is_close prev)) else 0)
  | k1 :: ((k2 :: _) as t) =>
      let '(nv, ntc) := totals t k1 in
      (nv + (if is_good k1 then 1 + b2z (negb (is_good k2)) else 0),
       ntc + (if is_close k1 then 1 + b2z (negb (is_good k2) && negb (is_close k2)) else 0))
  end.
Lemma totals_cons k1 k2 t p : totals (k1 :: k2 :: t) p = (let '(nv, ntc) := totals (k2 :: t) k1 in
      (nv + (if is_good k1 then 1 + b2z (negb (is_good k2)) else 0),
       ntc + (if is_close k1 then 1 + b2z (negb (is_good k2) && negb (is_close k2)) else 0))).
Proof. reflexivity. Qed.
Lemma pair_loop_cons k1 k2 t : pair_loop (k1 :: k2 :: t) = (let '(nv, ntc) := pair_loop (k2 :: t) in
      (nv + (if is_good k1 then 1 + b2z (negb (is_good k2)) else 0),
       ntc + (if is_close k1 then 1 + b2z (negb (is_good k2) && negb (is_close k2)) else 0))).
Proof. reflexivity. Qed.
Lemma totals_loop : forall ks k1 p, totals (k1 :: ks) p =
  (fst (pair_loop (k1 :: ks)) + (if is_good (last (k1 :: ks) Far) then 2 else 0),
   snd (pair_loop (k1 :: ks)) + (if is_close (last (k1 :: ks) Far) then
      let prev := last (p :: removelast (k1 :: ks)) Far in 1 + b2z (negb (is_good prev) && negb (is_close prev)) else 0)).
Proof.
  induction ks as [|k2 t IH]; intros k1 p; [cbn; destruct k1; reflexivity|].
  rewrite totals_cons, pair_loop_cons, (IH k2 k1). destruct (pair_loop (k2 :: t)) as [nv ntc]. cbn [fst snd].
  change (last (k1 :: k2 :: t) Far) with (last (k2 :: t) Far).
  change (last (p :: removelast (k1 :: k2 :: t)) Far) with (last (k1 :: removelast (k2 :: t)) Far). f_equal; lia.
Qed.
Lemma night_counts_totals k1 k2 t : night_counts (k1 :: k2 :: t) = totals (k1 :: k2 :: t) Far.
Proof.
  rewrite totals_loop. unfold night_counts.
  assert (exists l x y, k1 :: k2 :: t = l ++ [x; y]) as (l & x & y & E).
  { destruct (exists_last (l := k1 :: k2 :: t) ltac:(discriminate)) as (l1 & y & E1). destruct l1 as [|z l1]; [destruct t; discriminate|].
    destruct (exists_last (l := z :: l1) ltac:(discriminate)) as (l2 & x & E2). exists l2, x, y. rewrite E1, E2, <- app_assoc. reflexivity. }
  assert (last (k1 :: k2 :: t) Far = y) as -> by (rewrite E; replace (l ++ [x; y]) with ((l ++ [x]) ++ [y]) by (rewrite <- app_assoc; reflexivity); apply last_last).
  assert (removelast (k1 :: k2 :: t) = l ++ [x]) as Er by (rewrite E; replace (l ++ [x; y]) with ((l ++ [x]) ++ [y]) by (rewrite <- app_assoc; reflexivity); apply removelast_last).
  rewrite Er. assert (last (Far :: l ++ [x]) Far = x) as -> by (rewrite app_comm_cons; apply last_last).
  rewrite E, rev_app_distr. cbn [rev app]. destruct (pair_loop (l ++ [x; y])) as [nv ntc]. reflexivity.
Qed.
Lemma kind_good tmin tmax d : is_good (kind tmin tmax d) = in_range tmin tmax d.
Proof. unfold kind, in_range. rewrite andb_comm. destruct ((tmin <=? d) && (d <=? tmax)); [reflexivity|]. destruct (d <? tmin); reflexivity. Qed.
Lemma kind_close tmin tmax d : tmin <= tmax + 1 -> is_close (kind tmin tmax d) = (d <? tmin).
Proof.
  intros H. unfold kind. destruct (Z.leb_spec d tmax), (Z.leb_spec tmin d), (Z.ltb_spec d tmin); cbn; try reflexivity; lia.
Qed.
Lemma paired_single tmin tmax a : paired_visits tmin tmax [a] = 0.
Proof. reflexivity. Qed.
Lemma count_map {A B} (p : B -> bool) (f : A -> B) l : count p (map f l) = count (fun x => p (f x)) l.
Proof. unfold count. induction l as [|x t IH]; [reflexivity|]. cbn. destruct (p (f x)); cbn; rewrite IH; reflexivity. Qed.
Lemma count_ext_in {A} (p q : A -> bool) l : (forall x, In x l -> p x = q x) -> count p l = count q l.
Proof. intros H. unfold count. f_equal. apply filter_ext_in. exact H. Qed.
Lemma count_cons {A} (p : A -> bool) x l : count p (x :: l) = ((if p x then 1 else 0) + count p l)%nat.
Proof. unfold count. cbn. destruct (p x); reflexivity. Qed.
Lemma paired_cons tmin tmax a b t : paired_visits tmin tmax (a :: b :: t) = paired_visits tmin tmax (b :: t) +
  (if in_range tmin tmax (b - a) then 1 + b2z (negb (match t with c :: _ => in_range tmin tmax (c - b) | [] => false end)) else 0).
Proof.
  unfold paired_visits. change (length (a :: b :: t)) with (S (S (length t))). change (length (b :: t)) with (S (length t)).
  change (seq 0 (S (S (length t)))) with (0%nat :: 1%nat :: seq 2 (length t)). change (seq 0 (S (length t))) with (0%nat :: seq 1 (length t)).
  rewrite !count_cons, <- (seq_shift (length t) 1), count_map.
  rewrite (count_ext_in (fun i => paired tmin tmax (a :: b :: t) (S i)) (fun i => paired tmin tmax (b :: t) i) (seq 1 (length t))).
  2: { intros i Hi. apply in_seq in Hi. destruct i as [|j]; [lia|]. unfold paired. cbn [length nth Nat.leb]. replace (S (S j) - 1)%nat with (S j) by lia. replace (S j - 1)%nat with j by lia. reflexivity. }
  change (fun i => paired tmin tmax (b :: t) i) with (paired tmin tmax (b :: t)). generalize (count (paired tmin tmax (b :: t)) (seq 1 (length t))). intros k.
  unfold paired. cbn [length nth Nat.leb Nat.sub andb orb].
  destruct t as [|c r]; cbn [length Nat.ltb Nat.leb nth andb orb].
  - destruct (in_range tmin tmax (b - a)); cbn; lia.
  - destruct (in_range tmin tmax (b - a)), (in_range tmin tmax (c - b)); cbn [orb negb b2z]; lia.
Qed.
Lemma totals_paired tmin tmax t : forall a b p, fst (totals (map (kind tmin tmax) (diff_z (a :: b :: t))) p) = paired_visits tmin tmax (a :: b :: t).
Proof.
  induction t as [|c t IH]; intros a b p.
  - rewrite paired_cons, paired_single. cbn [diff_z map totals fst]. rewrite kind_good. destruct (in_range tmin tmax (b - a)); reflexivity.
  - rewrite paired_cons. change (diff_z (a :: b :: c :: t)) with ((b - a) :: (c - b) :: diff_z (c :: t)). cbn [map]. rewrite totals_cons.
    specialize (IH b c (kind tmin tmax (b - a))). change (diff_z (b :: c :: t)) with ((c - b) :: diff_z (c :: t)) in IH. cbn [map] in IH.
    destruct (totals _ (kind tmin tmax (b - a))) as [nv ntc]. cbn [fst] in *. rewrite IH, !kind_good. reflexivity.
Qed.
Lemma totals_close tmin tmax t : tmin <= tmax + 1 -> forall a b p, let c := snd (totals (map (kind tmin tmax) (diff_z (a :: b :: t))) p) in
  close_pairs tmin (a :: b :: t) <= c <= 2 * close_pairs tmin (a :: b :: t).
Proof.
  intros Ht. induction t as [|d t IH]; intros a b p; cbv zeta.
  - unfold close_pairs. cbn [diff_z map totals snd count_pairs]. rewrite kind_close by exact Ht. destruct (b - a <? tmin); [|lia]. unfold b2z. destruct (negb (is_good p) && negb (is_close p)); cbn; lia.
  - change (diff_z (a :: b :: d :: t)) with ((b - a) :: (d - b) :: diff_z (d :: t)). cbn [map]. rewrite totals_cons.
    specialize (IH b d (kind tmin tmax (b - a))). cbv zeta in IH. change (diff_z (b :: d :: t)) with ((d - b) :: diff_z (d :: t)) in IH. cbn [map] in IH.
    destruct (totals _ (kind tmin tmax (b - a))) as [nv ntc]. cbn [snd] in *. unfold close_pairs in *.
    change (count_pairs (fun x y => y - x <? tmin) (a :: b :: d :: t)) with (Nat.add (if b - a <? tmin then 1%nat else 0%nat) (count_pairs (fun x y => y - x <? tmin) (b :: d :: t))).
    rewrite kind_close by exact Ht. destruct (b - a <? tmin); cbn [Nat.add]; [|lia]. unfold b2z. destruct (negb _ && negb _); lia.
Qed.
Lemma night_value_spec tmin tmax times s : tmin <= tmax + 1 -> in_order times s -> (3 <= length times)%nat ->
  exists c, close_pairs tmin s <= c <= 2 * close_pairs tmin s /\
  night_value tmin tmax times = (if paired_visits tmin tmax s =? 0 then None else Some (2 * paired_visits tmin tmax s + c)).
Proof.
  intros Ht Hs Hl. unfold night_value. rewrite (sort_in_order _ _ Hs). assert (length s = length times) as El by (apply Permutation_length; apply Hs).
  destruct s as [|a [|b [|d t]]]; cbn [length] in El; try lia. pose proof (totals_paired tmin tmax (d :: t) a b Far) as Hp. pose proof (totals_close tmin tmax (d :: t) Ht a b Far) as Hc. cbv zeta in Hc.
  change (diff_z (a :: b :: d :: t)) with ((b - a) :: (d - b) :: diff_z (d :: t)) in *. cbn [map] in *. rewrite night_counts_totals.
  destruct (totals _ Far) as [nv ntc]. cbn [fst snd] in *. exists ntc. split; [exact Hc|]. rewrite Hp.
  assert (0 <= paired_visits tmin tmax (a :: b :: d :: t)) by (unfold paired_visits; lia). destruct (Z.ltb_spec 0 (paired_visits tmin tmax (a :: b :: d :: t))), (Z.eqb_spec (paired_visits tmin tmax (a :: b :: d :: t)) 0); try lia; reflexivity.
Qed.

(** * windows *)
Lemma in_window_good n w mn mv : in_window n w mn mv = good_nights mn n (n + w) mv.
Proof.
  unfold in_window, good_nights. induction mv as [|p t IH]; [reflexivity|]. cbn [filter].
  destruct ((n <=? fst p) && (fst p <? n + w)); cbn [filter andb]; [destruct (2 * mn <=? snd p); rewrite IH; reflexivity | exact IH].
Qed.
Lemma fold_max {A} (f : A -> Z) l : forall m, m <= fold_left (fun m n => Z.max (f n) m) l m /\
  (forall x, In x l -> f x <= fold_left (fun m n => Z.max (f n) m) l m) /\
  (fold_left (fun m n => Z.max (f n) m) l m = m \/ exists x, In x l /\ fold_left (fun m n => Z.max (f n) m) l m = f x).
Proof.
  induction l as [|y t IH]; intros m; cbn [fold_left]; [split; [lia | split; [intros x [] | left; reflexivity]]|].
  destruct (IH (Z.max (f y) m)) as (H1 & H2 & H3). split; [lia | split].
  - intros x [<-|Hx]; [lia | apply H2; exact Hx].
  - destruct H3 as [E|(x & Hx & E)]; [|right; exists x; split; [right; exact Hx | exact E]].
    destruct (Z.max_spec (f y) m) as [[_ Em]|[_ Em]]; [left; congruence | right; exists y; split; [left; reflexivity | congruence]].
Qed.
(** a window can be moved to begin at a night without losing any *)
Lemma window_night (P : Z * Z -> bool) mv a w : filter (fun p => (a <=? fst p) && (fst p <? a + w) && P p) mv = [] \/
  exists p, In p mv /\ P p = true /\ a <= fst p < a + w /\ forall q, (a <=? fst q) && (fst q <? a + w) && P q = true -> In q mv -> (fst p <=? fst q) && (fst q <? fst p + w) && P q = true.
Proof.
  set (l := filter _ mv). destruct (zmin_list (map fst l)) as [m|] eqn:E.
  - right. apply zmin_spec in E. destruct E as [Hi Hm]. apply in_map_iff in Hi. destruct Hi as (p & <- & Hp). unfold l in Hp. apply filter_In in Hp. destruct Hp as [Hp Hq]. apply andb_true_iff in Hq. destruct Hq as [Hq1 Hq2].
    exists p. split; [exact Hp | split; [exact Hq2 | split; [lia|]]]. intros q Hq Hqi. assert (fst p <= fst q) by (apply Hm, in_map; unfold l; apply filter_In; split; assumption).
    apply andb_true_iff in Hq. destruct Hq as [Hq3 Hq4]. rewrite Hq4. lia.
  - left. destruct l; [reflexivity | discriminate].
Qed.
Lemma filter_length_le {A} (p q : A -> bool) l : (forall x, In x l -> p x = true -> q x = true) -> (length (filter p l) <= length (filter q l))%nat.
Proof.
  induction l as [|x t IH]; intros H; [apply le_n|]. cbn. assert (length (filter p t) <= length (filter q t))%nat by (apply IH; intros y Hy; apply H; right; exact Hy).
  destruct (p x) eqn:E; [rewrite (H x (or_introl eq_refl) E); cbn; lia | destruct (q x); cbn; lia].
Qed.
Lemma filter_zsum_le {A} (p q : A -> bool) (f : A -> Z) l : (forall x, In x l -> p x = true -> q x = true) -> (forall x, In x l -> q x = true -> 0 <= f x) ->
  zsum (map f (filter p l)) <= zsum (map f (filter q l)).
Proof.
  induction l as [|x t IH]; intros H Hf; [apply Z.le_refl|]. cbn. assert (zsum (map f (filter p t)) <= zsum (map f (filter q t))) by (apply IH; intros y Hy; [apply H | apply Hf]; right; exact Hy).
  pose proof (Hf x (or_introl eq_refl)) as Hx. destruct (p x) eqn:E; [rewrite (H x (or_introl eq_refl) E); unfold zsum in *; cbn; lia | destruct (q x); unfold zsum in *; cbn; [specialize (Hx eq_refl); lia | lia]].
Qed.
Lemma nights_in_window_spec w mn mv r : n_nights_in_window w mn mv = r ->
  (forall a, Z.of_nat (length (good_nights mn a (a + w) mv)) <= r) /\ exists a, Z.of_nat (length (good_nights mn a (a + w) mv)) = r.
Proof.
  intros <-. unfold n_nights_in_window. destruct (fold_max (fun n => Z.of_nat (length (in_window n w mn mv))) (map fst mv) 0) as (H1 & H2 & H3). split.
  - intros a. destruct (window_night (fun p => 2 * mn <=? snd p) mv a w) as [E|(p & Hp & _ & _ & Hq)].
    + unfold good_nights. rewrite E. exact H1.
    + specialize (H2 (fst p) (in_map fst _ _ Hp)). rewrite in_window_good in H2. assert (length (good_nights mn a (a + w) mv) <= length (good_nights mn (fst p) (fst p + w) mv))%nat; [|lia].
      apply filter_length_le. intros q Hqi E. apply Hq; assumption.
  - destruct H3 as [E|(x & Hx & E)].
    + destruct mv as [|p mv]; [exists 0; reflexivity|]. specialize (H2 (fst p) (or_introl eq_refl)). rewrite E in H2 |- *. exists (fst p). rewrite in_window_good in H2. lia.
    + exists x. rewrite E, in_window_good. reflexivity.
Qed.
Lemma visits_in_window_spec w mn mv r : 0 <= mn -> n_visits_in_window w mn mv = r ->
  (forall a, zsum (map snd (good_nights mn a (a + w) mv)) <= r) /\ exists a, zsum (map snd (good_nights mn a (a + w) mv)) = r.
Proof.
  intros Hmn <-. unfold n_visits_in_window. destruct (fold_max (fun n => zsum (map snd (in_window n w mn mv))) (map fst mv) 0) as (H1 & H2 & H3). split.
  - intros a. destruct (window_night (fun p => 2 * mn <=? snd p) mv a w) as [E|(p & Hp & _ & _ & Hq)].
    + unfold good_nights. rewrite E. exact H1.
    + specialize (H2 (fst p) (in_map fst _ _ Hp)). rewrite in_window_good in H2. apply Z.le_trans with (2 := H2).
      apply filter_zsum_le; [intros q Hqi E; apply Hq; assumption | intros q _ E; lia].
  - destruct H3 as [E|(x & Hx & E)].
    + destruct mv as [|p mv]; [exists 0; reflexivity|]. specialize (H2 (fst p) (or_introl eq_refl)). rewrite E in H2 |- *. exists (fst p). rewrite in_window_good in H2.
      assert (0 <= zsum (map snd (good_nights mn (fst p) (fst p + w) (p :: mv)))); [|lia].
      transitivity (zsum (map snd (filter (fun _ : Z * Z => false) (p :: mv)))); [clear; cbn; induction mv; cbn; [lia | exact IHmv]|]. apply filter_zsum_le; [discriminate | intros q _ Eq; lia].
    + exists x. rewrite E, in_window_good. reflexivity.
Qed.

(** * lunations *)
Lemma starts_group_spec w mn nn s mv : 1 <= nn ->
  (existsb (starts_group w mn nn (in_lunation s 30 mv)) (map fst (in_lunation s 30 mv)) = true <->
   exists a, nn <= Z.of_nat (length (filter (fun p => (s <=? fst p) && (fst p <? s + 30)) (good_nights mn a (a + w) mv)))).
Proof.
  intros Hn. set (L := fun p : Z * Z => (s <=? fst p) && (fst p <? s + 30)).
  assert (forall a, in_window a w mn (in_lunation s 30 mv) = filter L (good_nights mn a (a + w) mv)) as Ew.
  { intros a. rewrite in_window_good. unfold good_nights, in_lunation. fold L. clear. induction mv as [|p t IH]; [reflexivity|]. cbn [filter]. destruct (L p) eqn:E; cbn [filter]; destruct ((a <=? fst p) && (fst p <? a + w) && (2 * mn <=? snd p)); cbn [filter]; rewrite ?E, IH; reflexivity. }
  rewrite existsb_exists. split.
  - intros (n & Hi & H). unfold starts_group in H. rewrite Ew in H. exists n. lia.
  - intros (a & H). destruct (window_night (fun p => (2 * mn <=? snd p) && L p) mv a w) as [E|(p & Hp & HP & Hr & Hq)].
    + exfalso. assert (filter L (good_nights mn a (a + w) mv) = []) as E'; [|rewrite E' in H; cbn in H; lia]. rewrite <- E. unfold good_nights. clear. induction mv as [|q t IH]; [reflexivity|]. cbn [filter].
      destruct ((a <=? fst q) && (fst q <? a + w)); cbn [andb]; [|exact IH]. destruct (2 * mn <=? snd q); cbn [andb filter]; [|exact IH]. destruct (L q); [f_equal|]; exact IH.
    + apply andb_true_iff in HP. destruct HP as [HP1 HP2]. exists (fst p). split; [apply in_map; unfold in_lunation; apply filter_In; split; assumption|].
      unfold starts_group. rewrite Ew. assert (length (filter L (good_nights mn a (a + w) mv)) <= length (filter L (good_nights mn (fst p) (fst p + w) mv)))%nat; [|lia].
      unfold good_nights. assert (forall b, filter L (filter (fun q => (b <=? fst q) && (fst q <? b + w) && (2 * mn <=? snd q)) mv) = filter (fun q => (b <=? fst q) && (fst q <? b + w) && ((2 * mn <=? snd q) && L q)) mv) as Ef.
      { clear. intros b. induction mv as [|q t IH]; [reflexivity|]. cbn [filter]. destruct ((b <=? fst q) && (fst q <? b + w)); cbn [andb]; [|exact IH]. destruct (2 * mn <=? snd q); cbn [andb filter]; [|exact IH]. destruct (L q); [f_equal|]; exact IH. }
      rewrite !Ef. apply filter_length_le. intros q Hqi E. apply Hq; assumption.
Qed.
Lemma last_night p mv : nights_ok (p :: mv) -> forall q, In q (p :: mv) -> fst p <= fst q <= fst (last (p :: mv) p).
Proof.
  unfold nights_ok. assert (forall mv p d, StronglySorted Z.lt (map fst (p :: mv)) -> forall q : Z * Z, In q (p :: mv) -> fst p <= fst q <= fst (last (p :: mv) d)) as H; [|intros Hs; apply H; exact Hs].
  clear. induction mv as [|r t IH]; intros p d Hs q Hq; [destruct Hq as [<-|[]]; cbn; lia|]. cbn [map] in Hs. inversion Hs as [|? ? Hs' Hf]; subst.
  change (last (p :: r :: t) d) with (last (r :: t) d). inversion Hf as [|? ? Hpr _]; subst. pose proof (IH r d Hs' r (or_introl eq_refl)) as Hr. destruct Hq as [<-|Hq]; [lia|]. pose proof (IH r d Hs' q Hq). lia.
Qed.
Lemma lunations_spec p mv : nights_ok (p :: mv) -> exists N, lunations (p :: mv) = map (fun i => fst p + 30 * Z.of_nat i) (seq 0 N) /\
  forall q k, In q (p :: mv) -> fst p + 30 * k <= fst q -> k < Z.of_nat N.
Proof.
  intros Hs. eexists. split; [reflexivity|]. intros q k Hq Hk. pose proof (last_night p mv Hs q Hq) as Hl. set (n1 := fst (last (p :: mv) p)) in *. unfold lunation_length. change (30 / 2) with 15.
  pose proof (Z.div_mod (n1 + 15 - fst p + 30 - 1) 30 ltac:(lia)). pose proof (Z.mod_pos_bound (n1 + 15 - fst p + 30 - 1) 30 ltac:(lia)). rewrite Z2Nat.id; [lia|]. apply Z.div_pos; lia.
Qed.
Lemma group_bound w mn nn n0 k mv : 1 <= nn -> group_in w mn nn n0 k mv -> exists q, In q mv /\ n0 + 30 * k <= fst q < n0 + 30 * (k + 1).
Proof.
  intros Hn (a & H). destruct (filter _ _) as [|q t] eqn:E in H; [cbn in H; lia|]. assert (In q (q :: t)) as Hi by (left; reflexivity). rewrite <- E in Hi. apply filter_In in Hi. destruct Hi as [Hi Hq]. apply filter_In in Hi. exists q. split; [apply Hi | lia].
Qed.
Lemma n_lunations_spec w mn nn p mv : 1 <= nn -> nights_ok (p :: mv) ->
  exists ks, NoDup ks /\ Z.of_nat (length ks) = n_lunations w mn nn (p :: mv) /\ forall k, In k ks <-> 0 <= k /\ group_in w mn nn (fst p) k (p :: mv).
Proof.
  intros Hn Hs. destruct (lunations_spec p mv Hs) as (N & EN & Hb). unfold n_lunations. rewrite EN. set (mv' := p :: mv) in *.
  set (g := fun s => existsb (starts_group w mn nn (in_lunation s lunation_length mv')) (map fst (in_lunation s lunation_length mv'))).
  exists (map Z.of_nat (filter (fun i => g (fst p + 30 * Z.of_nat i)) (seq 0 N))). split; [|split].
  - apply FinFun.Injective_map_NoDup; [intros x y H; lia | apply NoDup_filter, seq_NoDup].
  - rewrite map_length. f_equal. cbv zeta. fold g. clear. induction (seq 0 N) as [|i t IH]; [reflexivity|]. cbn [map filter]. destruct (g (fst p + 30 * Z.of_nat i)); cbn [length]; rewrite IH; reflexivity.
  - intros k. rewrite in_map_iff. assert (forall k, g (fst p + 30 * k) = true <-> group_in w mn nn (fst p) k mv') as Hg.
    { intros j. unfold g. unfold lunation_length. rewrite (starts_group_spec w mn nn (fst p + 30 * j) mv' Hn). unfold group_in. replace (fst p + 30 * (j + 1)) with (fst p + 30 * j + 30) by lia. reflexivity. }
    split.
    + intros (i & <- & Hi). apply filter_In in Hi. destruct Hi as [_ Hi]. split; [lia | apply Hg; exact Hi].
    + intros [Hk Hgr]. exists (Z.to_nat k). split; [lia|]. apply filter_In. split; [|rewrite Z2Nat.id by exact Hk; apply Hg; exact Hgr].
      destruct (group_bound _ _ _ _ _ _ Hn Hgr) as (q & Hq & Hr). specialize (Hb q k Hq (proj1 Hr)). apply in_seq. lia.
Qed.

(** * runs *)
Definition run_state (bs : list bool) : Z * Z := fold_left (fun st (b : bool) => if b then (fst st, snd st + 1) else (Z.max (fst st) (snd st), 0)) bs (0, 0).
Lemma run_state_spec bs : let '(m, c) := run_state bs in
  0 <= c <= Z.of_nat (length bs) /\ 0 <= m /\
  (forall j, Z.of_nat (length bs) - c <= j < Z.of_nat (length bs) -> nth_error bs (Z.to_nat j) = Some true) /\
  (c < Z.of_nat (length bs) -> nth_error bs (Z.to_nat (Z.of_nat (length bs) - c - 1)) = Some false) /\
  (forall a len, 0 <= a -> (forall j, 0 <= j < len -> nth_error bs (Z.to_nat (a + j)) = Some true) -> len <= Z.max m c) /\
  (exists a, 0 <= a /\ (forall j, 0 <= j < m -> nth_error bs (Z.to_nat (a + j)) = Some true)).
Proof.
  induction bs as [|b t IH] using rev_ind.
  - cbn. repeat split; try lia.
    + intros a len Ha H. destruct (Z.le_gt_cases len 0) as [Hl|Hl]; [exact Hl|]. specialize (H 0 ltac:(lia)). destruct (Z.to_nat (a + 0)); discriminate.
    + exists 0. split; [lia|]. intros j Hj. lia.
  - unfold run_state in *. rewrite fold_left_app. cbn [fold_left]. destruct (fold_left _ t (0, 0)) as [m c]. destruct IH as (Hc & Hm & H1 & H2 & H3 & (a0 & Ha0 & H4)).
    assert (forall j, 0 <= j < Z.of_nat (length t) -> nth_error (t ++ [b]) (Z.to_nat j) = nth_error t (Z.to_nat j)) as Hold by (intros j Hj; apply nth_error_app1; lia).
    assert (nth_error (t ++ [b]) (Z.to_nat (Z.of_nat (length t))) = Some b) as Hnew by (rewrite Nat2Z.id, nth_error_app2, Nat.sub_diag by lia; reflexivity).
    assert (forall a, 0 <= a -> forall len, (forall j, 0 <= j < len -> nth_error (t ++ [b]) (Z.to_nat (a + j)) = Some true) -> 0 < len -> a + len <= Z.of_nat (length t) + 1) as Hend.
    { intros a Ha len H Hl. specialize (H (len - 1) ltac:(lia)). assert (Z.to_nat (a + (len - 1)) < length (t ++ [b]))%nat as Hlt by (apply nth_error_Some; congruence). rewrite app_length in Hlt. cbn in Hlt. lia. }
    rewrite app_length. cbn [length]. destruct b; cbn [fst snd].
    + split; [lia | split; [exact Hm | split; [|split; [|split]]]].
      * intros j Hj. destruct (Z.eq_dec j (Z.of_nat (length t))) as [->|N]; [exact Hnew|]. rewrite Hold by lia. apply H1. lia.
      * intros Hlt. replace (Z.of_nat (length t + 1) - (c + 1) - 1) with (Z.of_nat (length t) - c - 1) by lia. rewrite Hold by lia. apply H2. lia.
      * intros a len Ha H. destruct (Z.le_gt_cases len 0) as [Hl|Hl]; [lia|]. pose proof (Hend a Ha len H Hl) as He.
        destruct (Z.eq_dec (a + len) (Z.of_nat (length t) + 1)) as [E|N].
        -- destruct (Z.le_gt_cases len (c + 1)) as [Hx|Hx]; [lia|]. exfalso. assert (c < Z.of_nat (length t)) as Hct by lia. specialize (H2 Hct). specialize (H (Z.of_nat (length t) - c - 1 - a) ltac:(lia)).
           replace (a + (Z.of_nat (length t) - c - 1 - a)) with (Z.of_nat (length t) - c - 1) in H by lia. rewrite Hold in H by lia. congruence.
        -- assert (len <= Z.max m c); [|lia]. apply (H3 a len Ha). intros j Hj. rewrite <- Hold by lia. apply H. exact Hj.
      * exists a0. split; [exact Ha0|]. intros j Hj. specialize (H4 j Hj). assert (Z.to_nat (a0 + j) < length t)%nat by (apply nth_error_Some; congruence). rewrite Hold by lia. exact H4.
    + split; [lia | split; [lia | split; [|split; [|split]]]].
      * intros j Hj. lia.
      * intros _. replace (Z.of_nat (length t + 1) - 0 - 1) with (Z.of_nat (length t)) by lia. exact Hnew.
      * intros a len Ha H. destruct (Z.le_gt_cases len 0) as [Hl|Hl]; [lia|]. pose proof (Hend a Ha len H Hl) as He.
        destruct (Z.eq_dec (a + len) (Z.of_nat (length t) + 1)) as [E|N].
        -- exfalso. specialize (H (Z.of_nat (length t) - a) ltac:(lia)). replace (a + (Z.of_nat (length t) - a)) with (Z.of_nat (length t)) in H by lia. congruence.
        -- assert (len <= Z.max m c); [|lia]. apply (H3 a len Ha). intros j Hj. rewrite <- Hold by lia. apply H. exact Hj.
      * destruct (Z.max_spec m c) as [[_ ->]|[_ ->]].
        -- exists (Z.of_nat (length t) - c). split; [lia|]. intros j Hj. rewrite Hold by lia. apply H1. lia.
        -- exists a0. split; [exact Ha0|]. intros j Hj. specialize (H4 j Hj). assert (Z.to_nat (a0 + j) < length t)%nat by (apply nth_error_Some; congruence). rewrite Hold by lia. exact H4.
Qed.
Lemma seq_nights_none grp ns : forall m c, 0 <= m -> 0 <= c -> (forall n, In n ns -> grp n = false) -> ns <> [] -> seq_nights grp ns (m, c) = (Z.max m c, 0).
Proof.
  induction ns as [|n t IH]; intros m c Hm Hc H Hne; [contradiction|]. cbn [seq_nights]. rewrite (H n (or_introl eq_refl)). cbn [fst snd]. destruct t as [|n' t']; [reflexivity|].
  rewrite IH; [f_equal; lia | lia | lia | intros x Hx; apply H; right; exact Hx | discriminate].
Qed.
Lemma in_lunation_sorted s mv : nights_ok mv -> nights_ok (in_lunation s 30 mv).
Proof.
  unfold nights_ok, in_lunation. induction mv as [|p t IH]; intros H; [constructor|]. cbn [map] in H. inversion H as [|? ? Hs Hf]; subst. cbn [filter]. destruct (_ && _); [|apply IH; exact Hs].
  cbn [map]. constructor; [apply IH; exact Hs|]. rewrite Forall_forall in *. intros x Hx. apply in_map_iff in Hx. destruct Hx as (q & <- & Hq). apply filter_In in Hq. apply Hf. apply in_map. apply Hq.
Qed.
(** for windows of at least a lunation, the first night decides *)
Lemma seq_step_group w mn nn mv s m c : 30 <= w -> nights_ok mv -> 0 <= m -> 0 <= c ->
  seq_step w mn nn mv (m, c) s = (if existsb (starts_group w mn nn (in_lunation s 30 mv)) (map fst (in_lunation s 30 mv)) then (m, c + 1) else (Z.max m c, 0)).
Proof.
  intros Hw Hs Hm Hc. unfold seq_step. unfold lunation_length. cbv zeta. pose proof (in_lunation_sorted s mv Hs) as Hsl.
  assert (forall q, In q (in_lunation s 30 mv) -> s <= fst q < s + 30) as Hr by (intros q Hq; apply filter_In in Hq; lia).
  destruct (in_lunation s 30 mv) as [|q t] eqn:E; [reflexivity|].
  assert (forall x, In x (q :: t) -> starts_group w mn nn (q :: t) (fst x) = true -> starts_group w mn nn (q :: t) (fst q) = true) as Hfirst.
  { intros x Hx H. unfold starts_group in *. rewrite !in_window_good in *. assert (length (good_nights mn (fst x) (fst x + w) (q :: t)) <= length (good_nights mn (fst q) (fst q + w) (q :: t)))%nat; [|lia].
    apply filter_length_le. intros y Hy Ey. pose proof (last_night q t Hsl y Hy). pose proof (Hr y Hy). pose proof (Hr q (or_introl eq_refl)). lia. }
  destruct (existsb _ _) eqn:Ex.
  - apply existsb_exists in Ex. destruct Ex as (n & Hn & Hg). apply in_map_iff in Hn. destruct Hn as (x & <- & Hx). specialize (Hfirst x Hx Hg). cbn [map seq_nights]. rewrite Hfirst. reflexivity.
  - rewrite seq_nights_none; [reflexivity | exact Hm | exact Hc | | discriminate]. intros n Hn. destruct (starts_group w mn nn (q :: t) n) eqn:Eg; [|reflexivity].
    assert (existsb (starts_group w mn nn (q :: t)) (map fst (q :: t)) = true) by (apply existsb_exists; exists n; split; assumption). congruence.
Qed.
Lemma max_seq_spec w mn nn p mv : 1 <= nn -> 30 <= w -> nights_ok (p :: mv) ->
  (forall a len, run_of (fun k => group_in w mn nn (fst p) k (p :: mv)) a len -> len <= max_seq_lunations w mn nn (p :: mv)) /\
  exists a, run_of (fun k => group_in w mn nn (fst p) k (p :: mv)) a (max_seq_lunations w mn nn (p :: mv)).
Proof.
  intros Hn Hw Hs. destruct (lunations_spec p mv Hs) as (N & EN & Hb). unfold max_seq_lunations. rewrite EN. set (mv' := p :: mv) in *.
  set (g := fun s => existsb (starts_group w mn nn (in_lunation s 30 mv')) (map fst (in_lunation s 30 mv'))).
  set (bs := map (fun i => g (fst p + 30 * Z.of_nat i)) (seq 0 N)).
  assert (forall l m c, 0 <= m -> 0 <= c -> fold_left (seq_step w mn nn mv') (map (fun i => fst p + 30 * Z.of_nat i) l) (m, c) =
    fold_left (fun st (b : bool) => if b then (fst st, snd st + 1) else (Z.max (fst st) (snd st), 0)) (map (fun i => g (fst p + 30 * Z.of_nat i)) l) (m, c)) as Hfold.
  { induction l as [|i l IH]; intros m c Hm Hc; [reflexivity|]. cbn [map fold_left]. rewrite (seq_step_group w mn nn mv' _ m c Hw Hs Hm Hc). fold (g (fst p + 30 * Z.of_nat i)). cbn [fst snd]. destruct (g (fst p + 30 * Z.of_nat i)); apply IH; lia. }
  rewrite (Hfold _ 0 0) by lia. fold bs. fold (run_state bs). pose proof (run_state_spec bs) as H. destruct (run_state bs) as [m c]. destruct H as (Hc & Hm & H1 & _ & H3 & (a0 & Ha0 & H4)). cbn [fst snd].
  assert (length bs = N) as Hlen by (unfold bs; rewrite map_length, seq_length; reflexivity).
  assert (forall k, 0 <= k -> (nth_error bs (Z.to_nat k) = Some true <-> group_in w mn nn (fst p) k mv')) as Hg.
  { intros k Hk. assert (g (fst p + 30 * k) = true <-> group_in w mn nn (fst p) k mv') as Hgg.
    { unfold g. rewrite (starts_group_spec w mn nn (fst p + 30 * k) mv' Hn). unfold group_in. replace (fst p + 30 * (k + 1)) with (fst p + 30 * k + 30) by lia. reflexivity. }
    rewrite <- Hgg. unfold bs. rewrite nth_error_map. destruct (nth_error (seq 0 N) (Z.to_nat k)) as [i|] eqn:Ei.
    - assert (Z.to_nat k < N)%nat as Hlt by (rewrite <- (seq_length N 0); apply nth_error_Some; congruence). apply (nth_error_nth _ _ 0%nat) in Ei. rewrite seq_nth in Ei by exact Hlt. cbn in Ei. subst i. cbn. rewrite Z2Nat.id by exact Hk. split; [intros E; injection E as E; exact E | intros ->; reflexivity].
    - apply nth_error_None in Ei. rewrite seq_length in Ei. split; [discriminate|]. intros Hx. exfalso. apply Hgg in Hx. destruct (group_bound _ _ _ _ _ _ Hn Hx) as (q & Hq & Hr). specialize (Hb q k Hq (proj1 Hr)). lia. }
  split.
  - intros a len (Ha & H). apply (H3 a len Ha). intros j Hj. apply Hg; [lia | apply H; exact Hj].
  - destruct (Z.max_spec m c) as [[_ ->]|[_ ->]].
    + exists (Z.of_nat (length bs) - c). split; [lia|]. intros j Hj. apply Hg; [lia|]. apply H1. lia.
    + exists a0. split; [exact Ha0|]. intros j Hj. apply Hg; [lia|]. apply H4. exact Hj.
Qed.

(** * order of the reduce functions *)
Lemma prefix_app p : forall s, String.prefix p s = true -> exists t, s = (p ++ t)%string.
Proof.
  induction p as [|a p IH]; intros s H; [exists s; reflexivity|]. destruct s as [|b s]; [discriminate|]. cbn [String.prefix] in H. destruct (Ascii.ascii_dec a b) as [->|]; [|discriminate].
  destruct (IH s H) as (t & ->). exists t. reflexivity.
Qed.
Lemma app_prefix p t : String.prefix p (p ++ t) = true.
Proof. induction p as [|a p IH]; [destruct t; reflexivity|]. cbn [append String.prefix]. destruct (Ascii.ascii_dec a a); [exact IH | contradiction]. Qed.
Lemma substring_all' s : String.substring 0 (String.length s) s = s.
Proof. induction s as [|a t IH]; cbn; [reflexivity | rewrite IH; reflexivity]. Qed.
Lemma substring_app p t : String.substring (String.length p) (String.length (p ++ t) - String.length p) (p ++ t) = t.
Proof.
  assert (String.length (p ++ t) - String.length p = String.length t)%nat as ->.
  { assert (String.length (p ++ t) = String.length p + String.length t)%nat as -> by (induction p; cbn; [reflexivity | rewrite IHp; reflexivity]). lia. }
  induction p as [|a p IH]; cbn [append String.length String.substring]; [apply substring_all' | exact IH].
Qed.
Lemma replace_first_app p t : replace_first p (p ++ t) = t.
Proof.
  assert (forall s, replace_first p s = if String.prefix p s then String.substring (String.length p) (String.length s - String.length p) s
    else match s with EmptyString => EmptyString | String a t => String a (replace_first p t) end) as E by (intros [|a s]; reflexivity).
  rewrite E, app_prefix, substring_app. reflexivity.
Qed.
Lemma replace_all_none p : forall fuel s, (forall x y, s <> (x ++ p ++ y)%string) -> replace_all_fuel fuel p s = s.
Proof.
  induction fuel as [|f IH]; intros s H; [reflexivity|]. cbn [replace_all_fuel]. destruct (String.prefix p s) eqn:E.
  - apply prefix_app in E. destruct E as (t & ->). exfalso. apply (H EmptyString t). reflexivity.
  - destruct s as [|a s]; [reflexivity|]. f_equal. apply IH. intros x y ->. apply (H (String a x) y). reflexivity.
Qed.
Lemma dset_fresh {V} (d : list (string * V)) k v : ~ In k (map fst d) -> dset String.eqb d k v = d ++ [(k, v)].
Proof.
  induction d as [|[k' v'] t IH]; intros H; [reflexivity|]. cbn in *. destruct (String.eqb_spec k k') as [->|]; [exfalso; apply H; left; reflexivity|]. rewrite IH; [reflexivity | intros Hx; apply H; right; exact Hx].
Qed.
Definition is_reduce (p : nat * string) : bool := String.prefix "reduce" (snd p).
Lemma base_reduce_fold L : forall d,
  (forall p, In p L -> is_reduce p = true -> exists x, snd p = ("reduce_" ++ x)%string) ->
  NoDup (map snd L) -> (forall p, In p L -> is_reduce p = true -> ~ In (replace_first "reduce_" (snd p)) (map fst d)) ->
  fold_left (fun d (p : nat * string) => if String.prefix "reduce" (snd p) then dset String.eqb d (replace_first "reduce_" (snd p)) (fst p) else d) L d =
  d ++ map (fun p => (replace_first "reduce_" (snd p), fst p)) (filter is_reduce L).
Proof.
  induction L as [|p t IH]; intros d Hx Hn Hd; [cbn; rewrite app_nil_r; reflexivity|].
  cbn [fold_left filter]. cbn [map] in Hn. inversion Hn as [|? ? Hni Hn']; subst. fold (is_reduce p). destruct (is_reduce p) eqn:E.
  - rewrite dset_fresh by (apply Hd; [left; reflexivity | exact E]). rewrite IH.
    + cbn [map]. rewrite <- app_assoc. reflexivity.
    + intros q Hq. apply Hx. right. exact Hq.
    + exact Hn'.
    + intros q Hq Eq. rewrite map_app. intros Hi. apply in_app_iff in Hi. destruct Hi as [Hi|[Hi|[]]]; [apply (Hd q (or_intror Hq) Eq Hi)|]. cbn in Hi.
      destruct (Hx p (or_introl eq_refl) E) as (x & Ex). destruct (Hx q (or_intror Hq) Eq) as (y & Ey). rewrite Ex, Ey, !replace_first_app in Hi. subst y. apply Hni. rewrite Ex, <- Ey. apply in_map. exact Hq.
  - apply IH; [intros q Hq; apply Hx; right; exact Hq | exact Hn' | intros q Hq; apply Hd; right; exact Hq].
Qed.
Lemma combine_snd {A} (l : list A) : forall k, map snd (combine (seq k (length l)) l) = l.
Proof. induction l as [|x t IH]; intros k; cbn; [reflexivity | rewrite IH; reflexivity]. Qed.
Lemma base_reduce_spec members :
  NoDup members -> (forall m, In m members -> String.prefix "reduce" m = true -> exists x, m = ("reduce_" ++ x)%string) ->
  base_reduce members = map (fun p => (replace_first "reduce_" (snd p), fst p)) (filter is_reduce (combine (seq 0 (length members)) members)).
Proof.
  intros Hn Hx. unfold base_reduce. rewrite base_reduce_fold; [reflexivity | | rewrite combine_snd; exact Hn | intros p _ _ []].
  intros p Hp E. apply Hx; [|exact E]. destruct p as [i m]. apply in_combine_r in Hp. exact Hp.
Qed.
Lemma base_reduce_keys members :
  NoDup members -> (forall m, In m members -> String.prefix "reduce" m = true -> exists x, m = ("reduce_" ++ x)%string) ->
  NoDup (map fst (base_reduce members)).
Proof.
  intros Hn Hx. rewrite (base_reduce_spec _ Hn Hx). rewrite map_map. cbn [fst].
  assert (forall L : list (nat * string), (forall p, In p L -> is_reduce p = true -> exists x, snd p = ("reduce_" ++ x)%string) -> NoDup (map snd L) -> NoDup (map (fun p => replace_first "reduce_" (snd p)) (filter is_reduce L))) as H.
  { clear. induction L as [|p t IH]; intros Hx Hn; [constructor|]. cbn [map] in Hn. inversion Hn as [|? ? Hni Hn']; subst. cbn [filter].
    assert (NoDup (map (fun p => replace_first "reduce_" (snd p)) (filter is_reduce t))) as Ht by (apply IH; [intros q Hq; apply Hx; right; exact Hq | exact Hn']).
    destruct (is_reduce p) eqn:E; [|exact Ht]. cbn [map]. constructor; [|exact Ht]. intros Hi. apply in_map_iff in Hi. destruct Hi as (q & Eq & Hq). apply filter_In in Hq. destruct Hq as [Hq Hqr].
    destruct (Hx p (or_introl eq_refl) E) as (x & Ex). destruct (Hx q (or_intror Hq) Hqr) as (y & Ey). rewrite Ex, Ey, !replace_first_app in Eq. subst y. apply Hni. rewrite Ex, <- Ey. apply in_map. exact Hq. }
  apply H; [|rewrite combine_snd; exact Hn]. intros [i m] Hp E. apply Hx; [apply in_combine_r in Hp; exact Hp | exact E].
Qed.
Lemma nth_combine (l : list string) : forall k i m, nth_error l i = Some m -> In ((k + i)%nat, m) (combine (seq k (length l)) l).
Proof.
  induction l as [|x t IH]; intros k i m H; [destruct i; discriminate|]. destruct i as [|i]; cbn in *; [left; injection H as ->; f_equal; lia|]. right. replace (k + S i)%nat with (S k + i)%nat by lia. apply IH. exact H.
Qed.
