(** Lemmas about counts of detections, the time of discovery and the observations of an opportunity. *)
From Verif Require Import Base Technical_Model Technical_Spec Technical_Proofs Technical_Proofs3 Transient_Proofs MoObs_Model MoObs_Spec MoObs_Proofs.
From Coq Require Import Lia Permutation Sorted.
Open Scope Z_scope.

Lemma visible_detected lim o : visible lim o = true <-> detected lim o.
Proof. unfold visible, detected. destruct lim; [apply Z.leb_le|apply Z.ltb_lt]. Qed.
Lemma vis_in lim l o : In o (vis_obs lim l) <-> In o l /\ detected lim o.
Proof. unfold vis_obs. rewrite filter_In, visible_detected. reflexivity. Qed.

Lemma filter_len {A} (p : A -> bool) l : (length (filter p l) <= length l)%nat.
Proof. induction l as [|a l IH]; cbn; [lia|]. destruct (p a); cbn; lia. Qed.
(** * Sums over groups *)
Lemma one_hot (q : Z -> bool) R a : NoDup R -> In a R -> zsum (map (fun b => if q b && (b =? a) then 1 else 0) R) = if q a then 1 else 0.
Proof.
  induction R as [|b R IH]; intros Hn Hi; [destruct Hi|]. inversion Hn as [|? ? Hb Hn']; subst. unfold zsum in *. cbn [map fold_right]. destruct (Z.eqb_spec b a) as [->|Hne].
  - rewrite andb_true_r. assert (forall R', ~ In a R' -> fold_right Z.add 0 (map (fun b => if q b && (b =? a) then 1 else 0) R') = 0) as H0.
    { induction R' as [|c R' IH']; intros Hc; [reflexivity|]. cbn [map fold_right]. destruct (Z.eqb_spec c a) as [->|]; [destruct Hc; left; reflexivity|]. rewrite andb_false_r, IH'; [reflexivity|]. intros H. apply Hc. right. exact H. }
    rewrite H0 by exact Hb. lia.
  - rewrite andb_false_r. destruct Hi as [E|Hi]; [congruence|]. rewrite (IH Hn' Hi). lia.
Qed.
Lemma zsum_map_add {A} (f g : A -> Z) l : zsum (map (fun x => f x + g x) l) = zsum (map f l) + zsum (map g l).
Proof. unfold zsum. induction l as [|a l IH]; [reflexivity|]. cbn [map fold_right]. rewrite IH. lia. Qed.
Lemma group_sum (q : Z -> bool) R l : NoDup R -> (forall x, In x l -> In x R) ->
  zsum (map (fun b => if q b then Z.of_nat (length (filter (Z.eqb b) l)) else 0) R) = Z.of_nat (length (filter q l)).
Proof.
  intros Hn. induction l as [|a l IH]; intros Hi.
  - cbn [filter length]. unfold zsum. clear. induction R as [|b R IH]; [reflexivity|]. cbn [map fold_right]. destruct (q b); lia.
  - rewrite (map_ext _ (fun b => (if q b && (b =? a) then 1 else 0) + (if q b then Z.of_nat (length (filter (Z.eqb b) l)) else 0))).
    + rewrite zsum_map_add, IH by (intros x Hx; apply Hi; right; exact Hx). rewrite one_hot; [|exact Hn|apply Hi; left; reflexivity]. cbn [filter]. destruct (q a); cbn [length]; lia.
    + intros b. cbn [filter]. destruct (q b); cbn [andb]; [|lia]. destruct (b =? a); cbn [length]; lia.
Qed.
Lemma zsum_filter (q : Z -> bool) (f : Z -> Z) R : zsum (filter q (map f R)) = zsum (map (fun b => if q (f b) then f b else 0) R).
Proof. unfold zsum. induction R as [|b R IH]; [reflexivity|]. cbn [map filter]. destruct (q (f b)); cbn [fold_right]; rewrite IH; lia. Qed.
(** detections on a night with others, in a list of detections *)
Definition same_night (v : list obs) (g : Z) : nat := count (fun o => m_night o =? g) v.
Definition ns (v : list obs) : nat := count (fun o => Nat.leb 2 (same_night v (m_night o))) v.
Lemma filter_eqb_sym a l : filter (Z.eqb a) l = filter (fun x => x =? a) l.
Proof. apply filter_ext_in'. intros x _. apply Z.eqb_sym. Qed.
Lemma same_night_eq v g : length (filter (Z.eqb g) (map m_night v)) = same_night v g.
Proof. rewrite filter_eqb_sym, filter_map_z, map_length. reflexivity. Qed.
Lemma no_singles_ns lim l : (forall o, In o l -> 0 <= m_night o) -> n_obs_no_singles lim l = Ok (Z.of_nat (ns (vis_obs lim l))).
Proof.
  intros Hp. unfold n_obs_no_singles. set (v := vis_obs lim l). destruct (zmax_list (map m_night v)) as [top|] eqn:Et.
  - destruct (existsb (fun n => n <? 0) (map m_night v)) eqn:E; [exfalso|].
    + apply existsb_exists in E. destruct E as (x & Hx & Hlt). apply in_map_iff in Hx. destruct Hx as (o & <- & Ho). apply vis_in in Ho. specialize (Hp o (proj1 Ho)). lia.
    + f_equal. rewrite zsum_filter. rewrite (map_ext _ (fun b => if Nat.leb 2 (same_night v b) then Z.of_nat (length (filter (Z.eqb b) (map m_night v))) else 0)).
      * rewrite (group_sum (fun b => Nat.leb 2 (same_night v b))); [|apply zrange_nodup|].
        -- rewrite filter_map_z, map_length. reflexivity.
        -- intros x Hx. apply zrange_in. split; [|apply (zmax_spec _ _ Et), Hx]. apply in_map_iff in Hx. destruct Hx as (o & <- & Ho). apply vis_in in Ho. apply Hp, Ho.
      * intros b. rewrite same_night_eq. destruct (Z.ltb_spec 1 (Z.of_nat (same_night v b))), (Nat.leb_spec 2 (same_night v b)); try reflexivity; lia.
  - destruct v; [reflexivity|discriminate].
Qed.
Lemma count_filter {A} (p q : A -> bool) l : count p (filter q l) = count (fun x => q x && p x) l.
Proof. unfold count. rewrite filter_filter'. reflexivity. Qed.
Lemma count_ext {A} (p q : A -> bool) l : (forall x, In x l -> p x = q x) -> count p l = count q l.
Proof. intros H. unfold count. rewrite (filter_ext_in' p q l H). reflexivity. Qed.
Lemma no_singles_spec lim l : (forall o, In o l -> 0 <= m_night o) ->
  n_obs_no_singles lim l =
    Ok (Z.of_nat (count (fun o => visible lim o && Nat.leb 2 (count (fun o' => visible lim o' && (m_night o' =? m_night o)) l)) l)).
Proof.
  intros Hp. rewrite (no_singles_ns lim l Hp). unfold ns, vis_obs. rewrite count_filter. do 2 f_equal. apply count_ext. intros o Ho. f_equal. unfold same_night. rewrite count_filter. reflexivity.
Qed.
Lemma nodup_same_length (l l' : list Z) : NoDup l -> NoDup l' -> (forall x, In x l <-> In x l') -> length l = length l'.
Proof. intros H1 H2 H. apply Nat.le_antisymm; apply NoDup_incl_length; try assumption; intros x; apply H. Qed.
Lemma singles_left_out lim l k : (forall o, In o l -> 0 <= m_night o) -> n_obs_no_singles lim l = Ok k ->
  0 <= k <= n_obs lim l /\
  forall nights, NoDup nights -> (forall g, In g nights <-> exists o, In o l /\ detected lim o /\ m_night o = g) ->
  n_obs lim l = k + Z.of_nat (count (fun g => Nat.eqb 1 (count (fun o => visible lim o && (m_night o =? g)) l)) nights) /\
  n_nights lim l = Z.of_nat (length nights) /\ n_nights lim l <= n_obs lim l.
Proof.
  intros Hp Hk. rewrite (no_singles_ns lim l Hp) in Hk. injection Hk as <-. set (v := vis_obs lim l). unfold n_obs. fold v. split.
  - split; [lia|]. apply inj_le. unfold ns, count. apply filter_len.
  - intros nights Hn Hi.
    assert (forall g, In g (map m_night v) <-> In g nights) as Hv.
    { intros g. rewrite Hi, in_map_iff. split; [intros (o & E & Ho)|intros (o & Ho & Hd & E)].
      - apply vis_in in Ho. exists o. tauto.
      - exists o. split; [exact E|]. apply vis_in. tauto. }
    assert (length v = ns v + count (fun g => Nat.eqb 1 (same_night v g)) nights)%nat as E.
    { apply Nat2Z.inj. rewrite Nat2Z.inj_add. rewrite <- (map_length m_night v).
      rewrite <- (filter_all (fun _ => true) (map m_night v)) by reflexivity. rewrite <- (group_sum (fun _ => true) nights _ Hn) by (intros x; apply Hv).
      assert (Z.of_nat (ns v) = zsum (map (fun b => if Nat.leb 2 (same_night v b) then Z.of_nat (length (filter (Z.eqb b) (map m_night v))) else 0) nights)) as ->.
      { rewrite (group_sum (fun b => Nat.leb 2 (same_night v b)) nights _ Hn) by (intros x; apply Hv). rewrite filter_map_z, map_length. reflexivity. }
      assert (forall g, In g nights -> (1 <= same_night v g)%nat) as H1.
      { intros g Hg. apply Hv, in_map_iff in Hg. destruct Hg as (o & <- & Ho). unfold same_night, count. destruct (filter (fun o' => m_night o' =? m_night o) v) eqn:Ef; [|cbn; lia].
        assert (In o []) as []. rewrite <- Ef. apply filter_In. split; [exact Ho|apply Z.eqb_refl]. }
      clear Hn Hi Hv. unfold zsum, count. induction nights as [|g R IH]; [reflexivity|]. cbn [map fold_right filter]. rewrite IH by (intros x Hx; apply H1; right; exact Hx). rewrite same_night_eq. specialize (H1 g (or_introl eq_refl)).
      destruct (Nat.leb_spec 2 (same_night v g)), (Nat.eqb_spec 1 (same_night v g)); cbn [length]; lia. }
    split; [|split].
    + rewrite E. rewrite Nat2Z.inj_add. do 2 f_equal. apply count_ext. intros g _. unfold same_night, v, vis_obs. rewrite count_filter. reflexivity.
    + unfold n_nights. f_equal. apply nodup_same_length; [apply sorted_lt_nodup, unique_z_sorted|exact Hn|]. intros x. rewrite <- Hv. apply unique_z_in.
    + unfold n_nights. apply inj_le. rewrite <- (map_length m_night v). apply NoDup_incl_length; [apply sorted_lt_nodup, unique_z_sorted|]. intros x Hx. exact (proj1 (unique_z_in _ x) Hx).
Qed.
Lemma arc_max v : (forall a b, In a v -> In b v -> m_mjd b - m_mjd a <= (match zmax_list (map m_mjd v), zmin_list (map m_mjd v) with Some b, Some a => b - a | _, _ => 0 end)) /\
  (v <> [] -> exists a b, In a v /\ In b v /\ m_mjd b - m_mjd a = (match zmax_list (map m_mjd v), zmin_list (map m_mjd v) with Some b, Some a => b - a | _, _ => 0 end)).
Proof.
  destruct (zmax_list (map m_mjd v)) as [hi|] eqn:E1; [|destruct v; [|discriminate]; split; [intros a b []|intros H; contradiction]].
  destruct (zmin_list (map m_mjd v)) as [lo|] eqn:E2; [|destruct v; discriminate]. apply zmax_spec in E1. apply zmin_spec in E2. destruct E1 as [I1 M1], E2 as [I2 M2]. split.
  - intros a b Ha Hb. specialize (M1 _ (in_map m_mjd v b Hb)). specialize (M2 _ (in_map m_mjd v a Ha)). lia.
  - intros _. apply in_map_iff in I1. apply in_map_iff in I2. destruct I1 as (b & Eb & Hb), I2 as (a & Ea & Ha). exists a, b. repeat split; auto. lia.
Qed.
Lemma arc_spec lim l :
  (forall a b, In a l -> In b l -> detected lim a -> detected lim b -> m_mjd b - m_mjd a <= obs_arc lim l) /\
  ((exists a b, In a l /\ In b l /\ detected lim a /\ detected lim b /\ m_mjd b - m_mjd a = obs_arc lim l) \/
   ((forall o, In o l -> ~ detected lim o) /\ obs_arc lim l = 0 /\ n_obs lim l = 0 /\ n_nights lim l = 0)).
Proof.
  destruct (arc_max (vis_obs lim l)) as [H1 H2]. split.
  - intros a b Ha Hb Da Db. apply H1; apply vis_in; auto.
  - destruct (vis_obs lim l) as [|x v] eqn:E.
    + right. split; [|unfold obs_arc, n_obs, n_nights; rewrite E; auto]. intros o Ho Hd. assert (In o (vis_obs lim l)) as Hi by (apply vis_in; auto). rewrite E in Hi. exact Hi.
    + left. destruct (H2 ltac:(discriminate)) as (a & b & Ha & Hb & Eab). rewrite <- E in Ha, Hb. apply vis_in in Ha. apply vis_in in Hb. exists a, b. unfold obs_arc. rewrite E. tauto.
Qed.

(** * More detections *)
Lemma count_perm {A} (p : A -> bool) l l' : Permutation l l' -> count p l = count p l'.
Proof. intros H. unfold count. induction H; cbn; repeat (destruct (p _); cbn); lia. Qed.
Lemma count_app {A} (p : A -> bool) l l' : count p (l ++ l') = (count p l + count p l')%nat.
Proof. unfold count. rewrite filter_app, app_length. reflexivity. Qed.
Lemma count_mono_in {A} (p q : A -> bool) l : (forall x, In x l -> p x = true -> q x = true) -> (count p l <= count q l)%nat.
Proof. unfold count. induction l as [|a l IH]; intros H; [apply le_n|]. cbn. specialize (IH (fun x Hx => H x (or_intror Hx))). destruct (p a) eqn:E; [rewrite (H a (or_introl eq_refl) E); cbn; lia|destruct (q a); cbn; lia]. Qed.
Definition arc_of (v : list obs) : Z := match zmax_list (map m_mjd v), zmin_list (map m_mjd v) with Some b, Some a => b - a | _, _ => 0 end.
Definition nn_of (v : list obs) : Z := Z.of_nat (length (unique_z (map m_night v))).
Lemma unique_incl (l l' : list Z) : (forall x, In x l -> In x l') -> (length (unique_z l) <= length (unique_z l'))%nat.
Proof. intros H. apply NoDup_incl_length; [apply sorted_lt_nodup, unique_z_sorted|]. intros x Hx. apply (proj2 (unique_z_in _ x)), H, (proj1 (unique_z_in _ x) Hx). Qed.
Lemma more v w l : Permutation l (v ++ w) ->
  length l = (length v + length w)%nat /\ nn_of v <= nn_of l <= nn_of v + nn_of w /\ arc_of v <= arc_of l /\ (ns v <= ns l)%nat.
Proof.
  intros H. assert (forall o, In o l <-> In o v \/ In o w) as Hi by (intros o; rewrite <- in_app_iff; split; apply Permutation_in; [exact H|apply Permutation_sym, H]).
  split; [rewrite (Permutation_length H), app_length; reflexivity|]. split; [split|split].
  - apply inj_le, unique_incl. intros x Hx. apply in_map_iff in Hx. destruct Hx as (o & <- & Ho). apply in_map, Hi. auto.
  - unfold nn_of. rewrite <- Nat2Z.inj_add, <- app_length. apply inj_le, NoDup_incl_length; [apply sorted_lt_nodup, unique_z_sorted|]. intros x Hx. apply (proj1 (unique_z_in _ x)) in Hx. apply in_map_iff in Hx. destruct Hx as (o & <- & Ho). apply in_app_iff. apply Hi in Ho. destruct Ho as [Ho|Ho]; [left|right]; apply (proj2 (unique_z_in _ _)), in_map, Ho.
  - destruct (arc_max l) as [H1 _]. destruct (arc_max v) as [_ H2]. destruct v as [|x v'] eqn:E.
    + change (arc_of []) with 0. destruct l as [|o l']; [vm_compute; discriminate|]. specialize (H1 o o (or_introl eq_refl) (or_introl eq_refl)). fold (arc_of (o :: l')) in H1. lia.
    + rewrite <- E in *. destruct (H2 ltac:(rewrite E; discriminate)) as (a & b & Ha & Hb & Eab). fold (arc_of v) in Eab. fold (arc_of l) in H1. rewrite <- Eab. apply H1; apply Hi; auto.
  - unfold ns. rewrite (count_perm _ _ _ H), count_app. apply Nat.le_trans with (2 := Nat.le_add_r _ _). apply count_mono. intros o Ho. apply Nat.leb_le in Ho. apply Nat.leb_le. unfold same_night in *. rewrite (count_perm _ _ _ H), count_app. lia.
Qed.
Lemma filter_partition {A} (p q : A -> bool) l : (forall x, p x = true -> q x = true) -> Permutation (filter q l) (filter p l ++ filter (fun x => q x && negb (p x)) l).
Proof.
  intros H. induction l as [|a l IH]; [constructor|]. cbn. destruct (p a) eqn:Ep.
  - rewrite (H a Ep). cbn. constructor. exact IH.
  - destruct (q a); cbn; [apply Permutation_cons_app|]; exact IH.
Qed.
Lemma limit_monotone s s' l : s <= s' ->
  n_obs (Some s') l <= n_obs (Some s) l /\ n_nights (Some s') l <= n_nights (Some s) l /\ obs_arc (Some s') l <= obs_arc (Some s) l /\
  forall k k', (forall o, In o l -> 0 <= m_night o) -> n_obs_no_singles (Some s') l = Ok k' -> n_obs_no_singles (Some s) l = Ok k -> k' <= k.
Proof.
  intros Hs. assert (Permutation (vis_obs (Some s) l) (vis_obs (Some s') l ++ filter (fun x => visible (Some s) x && negb (visible (Some s') x)) l)) as Hp.
  { apply filter_partition. intros o. cbn. rewrite !Z.leb_le. lia. }
  destruct (more _ _ _ Hp) as (H1 & H2 & H3 & H4). repeat split.
  - unfold n_obs. lia.
  - apply H2.
  - apply H3.
  - intros k k' Hn E' E. rewrite no_singles_ns in E, E' by exact Hn. injection E as <-. injection E' as <-. lia.
Qed.
Lemma filter_perm {A} (p : A -> bool) l l' : Permutation l l' -> Permutation (filter p l) (filter p l').
Proof. induction 1; cbn; repeat (destruct (p _)); try constructor; try assumption; try apply Permutation_refl. eapply Permutation_trans; eassumption. Qed.
Lemma more_observations lim a b l :
  Permutation l (a ++ b) ->
  n_obs lim l = n_obs lim a + n_obs lim b /\ n_nights lim a <= n_nights lim l <= n_nights lim a + n_nights lim b /\ obs_arc lim a <= obs_arc lim l /\
  forall k k', (forall o, In o l -> 0 <= m_night o) -> n_obs_no_singles lim a = Ok k -> n_obs_no_singles lim l = Ok k' -> k <= k'.
Proof.
  intros Hp. assert (Permutation (vis_obs lim l) (vis_obs lim a ++ vis_obs lim b)) as Hv by (unfold vis_obs; rewrite <- filter_app; apply filter_perm, Hp).
  destruct (more _ _ _ Hv) as (H1 & H2 & H3 & H4). split; [unfold n_obs; lia|]. split; [exact H2|]. split; [exact H3|].
  intros k k' Hn E E'. rewrite no_singles_ns in E' by exact Hn. rewrite no_singles_ns in E.
  - injection E as <-. injection E' as <-. lia.
  - intros o Ho. apply Hn. apply (Permutation_in o (Permutation_sym Hp)). apply in_app_iff. auto.
Qed.

(** * Opportunities *)
Lemma opportunities_few p gs : Z.of_nat (length gs) < n_nights_window p -> opportunities p gs = [].
Proof.
  intros H. apply filter_none. intros g _. apply Z.leb_gt. pose proof (filter_len (fun h => (g <=? h) && (h <=? g + t_window p)) gs). unfold between. lia.
Qed.
Lemma chances_eq p l gs : in_time_order l -> 1 <= n_obs_night p -> 1 <= n_nights_window p -> 0 <= t_min p -> tracklet_nights p l gs ->
  match discovery p l with Some r => d_chances r | None => 0 end = Z.of_nat (length (opportunities p gs)).
Proof.
  intros Ho Hk Hw Hm Hg. rewrite (discovery_sorted p l Ho Hk Hw). rewrite <- (dgood_eq p l gs Ho Hk Hm Hg). destruct (Z.ltb_spec (Z.of_nat (length gs)) (n_nights_window p)) as [H|H].
  - rewrite opportunities_few by exact H. reflexivity.
  - cbn [d_chances]. rewrite <- (dstarts_opportunities p gs (proj1 Hg)) by lia. rewrite map_length. reflexivity.
Qed.
Lemma opportunities_mono p gs gs' : NoDup gs -> NoDup gs' -> (forall g, In g gs -> In g gs') -> (length (opportunities p gs) <= length (opportunities p gs'))%nat.
Proof.
  intros Hn Hn' Hi. apply NoDup_incl_length; [apply NoDup_filter, Hn|]. intros g Hg. apply filter_In in Hg. destruct Hg as [Hg Hc]. apply filter_In. split; [apply Hi, Hg|].
  apply Z.leb_le in Hc. apply Z.leb_le. enough (length (between g (g + t_window p) gs) <= length (between g (g + t_window p) gs'))%nat by lia.
  apply NoDup_incl_length; [apply NoDup_filter, Hn|]. intros h Hh. apply filter_In in Hh. apply filter_In. split; [apply Hi|]; apply Hh.
Qed.
Lemma chances_mono p l l' : in_time_order l -> in_time_order l' -> 1 <= n_obs_night p -> 1 <= n_nights_window p -> 0 <= t_min p ->
  (forall g, tracklet p (night_times (d_lim p) l g) -> tracklet p (night_times (d_lim p) l' g)) ->
  match discovery p l with Some r => d_chances r | None => 0 end <= match discovery p l' with Some r => d_chances r | None => 0 end.
Proof.
  intros Ho Ho' Hk Hw Hm Ht.
  assert (forall x, in_time_order x -> tracklet_nights p x (dgood p x)) as Hd by (intros x Hx; split; [apply dgood_sorted|intros g; apply dgood_in; assumption]).
  rewrite (chances_eq p l _ Ho Hk Hw Hm (Hd l Ho)), (chances_eq p l' _ Ho' Hk Hw Hm (Hd l' Ho')). apply inj_le, opportunities_mono; try (apply sorted_lt_nodup, dgood_sorted).
  intros g Hg. apply (proj2 (Hd l' Ho') g), Ht, (proj2 (Hd l Ho) g), Hg.
Qed.
Lemma night_times_in lim l g t : In t (night_times lim l g) <-> exists o, In o l /\ detected lim o /\ m_night o = g /\ m_mjd o = t.
Proof.
  unfold night_times. rewrite in_map_iff. split.
  - intros (o & E & Ho). apply filter_In in Ho. destruct Ho as [Ho Eg]. apply filter_In in Ho. destruct Ho as [Ho Hd]. exists o. rewrite Z.eqb_eq in Eg. apply visible_detected in Hd. auto.
  - intros (o & Ho & Hd & Eg & E). exists o. split; [exact E|]. apply filter_In. split; [apply filter_In; split; [exact Ho|apply visible_detected, Hd]|apply Z.eqb_eq, Eg].
Qed.
Lemma night_times_sorted lim l g : in_time_order l -> StronglySorted Z.lt (night_times lim l g).
Proof. intros [Ht _]. apply (sorted_map m_mjd Z.lt), sorted_filter, sorted_filter, Ht. Qed.
Lemma other_nights p l l' : in_time_order l -> in_time_order l' -> 1 <= n_obs_night p -> 1 <= n_nights_window p -> 0 <= t_min p ->
  (forall o, In o l -> In o l') -> (forall o o', In o l -> In o' l' -> detected (d_lim p) o -> detected (d_lim p) o' -> m_night o = m_night o' -> In o' l) ->
  match discovery p l with Some r => d_chances r | None => 0 end <= match discovery p l' with Some r => d_chances r | None => 0 end.
Proof.
  intros Ho Ho' Hk Hw Hm Hi Hs. apply chances_mono; try assumption. intros g Ht.
  replace (night_times (d_lim p) l' g) with (night_times (d_lim p) l g); [exact Ht|]. apply sorted_lt_ext; [apply night_times_sorted, Ho|apply night_times_sorted, Ho'|].
  intros t. rewrite !night_times_in. destruct Ht as [Hl _]. destruct (night_times (d_lim p) l g) as [|t0 ts] eqn:E; [cbn in Hl; lia|].
  assert (In t0 (night_times (d_lim p) l g)) as H0 by (rewrite E; left; reflexivity). apply night_times_in in H0. destruct H0 as (o0 & I0 & D0 & G0 & _). split.
  - intros (o & I & D & G & T). exists o. auto.
  - intros (o & I & D & G & T). exists o. repeat split; auto. apply (Hs o0 o); auto. congruence.
Qed.
Lemma spaced_pairs p l l' : in_time_order l -> in_time_order l' -> n_obs_night p = 2 -> 1 <= n_nights_window p -> 0 <= t_min p ->
  (forall o, In o l -> In o l') -> (forall o o', In o l' -> In o' l' -> detected (d_lim p) o -> detected (d_lim p) o' -> m_night o = m_night o' -> m_mjd o < m_mjd o' -> t_min p <= m_mjd o' - m_mjd o) ->
  match discovery p l with Some r => d_chances r | None => 0 end <= match discovery p l' with Some r => d_chances r | None => 0 end.
Proof.
  intros Ho Ho' H2 Hw Hm Hi Hs. apply chances_mono; try assumption; [lia|]. intros g Ht. set (ts' := night_times (d_lim p) l' g).
  assert (StronglySorted Z.lt ts') as Hst by apply night_times_sorted, Ho'.
  assert (forall t, In t (night_times (d_lim p) l g) -> In t ts') as Hin. { intros t Hx. apply night_times_in in Hx. destruct Hx as (o & I & D & G & T). apply night_times_in. exists o. auto. }
  assert (exists a b, In a ts' /\ In b ts' /\ a < b /\ b - a <= t_max p) as (a & b & Ha & Hb & Hab & Hmax).
  { destruct Ht as [Hl (pre & seg & post & d & E & Hor & (a & b & Ea & Eb & ->) & Hr)]. assert (2 <= length seg)%nat as Hsl by (destruct Hor as [->|Hs2]; lia).
    pose proof (nth_error_In _ _ Ea) as Ia. pose proof (nth_error_In _ _ Eb) as Ib. exists a, b.
    assert (forall t, In t seg -> In t (night_times (d_lim p) l g)) as Hsub. { intros t Hx. rewrite E. apply in_app_iff. right. apply in_app_iff. left. exact Hx. }
    repeat split; auto; try lia. assert (StronglySorted Z.lt seg) as Hss.
    { pose proof (night_times_sorted (d_lim p) l g Ho) as Hx. rewrite E in Hx. clear -Hx. induction pre as [|x pre IH]; [|inversion Hx; auto]. cbn in Hx. induction seg as [|y seg IH]; [constructor|]. inversion Hx as [|? ? H1 H2]; subst. constructor; [apply IH, H1|]. rewrite Forall_forall in *. intros z Hz. apply H2, in_app_iff. auto. }
    pose proof (nth_sorted Z.lt seg 0 (length seg - 1) Hss ltac:(lia)) as Hlt. rewrite (nth_error_nth seg 0 0 Ea) in Hlt. rewrite (nth_error_nth seg (length seg - 1) 0 Eb) in Hlt. exact Hlt. }
  apply (In_nth _ _ 0) in Ha. destruct Ha as (i & Hi1 & <-). apply (In_nth _ _ 0) in Hb. destruct Hb as (j & Hj & <-).
  assert (i < j)%nat as Hij. { destruct (le_lt_dec j i) as [Hle|]; [|assumption]. pose proof (nth_le_sorted ts' j i Hst ltac:(lia)). lia. }
  pose proof (nth_le_sorted ts' (S i) j Hst ltac:(lia)) as Hn. pose proof (nth_sorted Z.lt ts' i (S i) Hst ltac:(lia)) as Hn2.
  assert (t_min p <= nth (S i) ts' 0 - nth i ts' 0) as Hmin.
  { pose proof (proj1 (night_times_in _ _ _ _) (nth_In ts' 0 Hi1)) as (o & I & D & G & T). assert (S i < length ts')%nat as Hsi by lia. pose proof (proj1 (night_times_in _ _ _ _) (nth_In ts' 0 Hsi)) as (o' & I' & D' & G' & T').
    rewrite <- T, <- T'. apply Hs; auto; [congruence|]. rewrite T, T'. exact Hn2. }
  split; [fold ts'; lia|]. exists (firstn i ts'), (firstn 2 (skipn i ts')), (skipn 2 (skipn i ts')), (nth (i + 2 - 1) ts' 0 - nth i ts' 0). fold ts'. split; [rewrite !firstn_skipn; reflexivity|]. split; [right; rewrite firstn_length, skipn_length; lia|].
  split; [apply span_segment; lia|]. replace (i + 2 - 1)%nat with (S i) by lia. lia.
Qed.
Lemma discovery_time_spec p l gs r : in_time_order l -> 1 <= n_obs_night p -> 1 <= n_nights_window p -> 0 <= t_min p -> tracklet_nights p l gs ->
  discovery p l = Some r ->
  (opportunities p gs = [] -> disc_time p l r = None) /\
  (forall g rest, opportunities p gs = g :: rest ->
     exists t, disc_time p l r = Some t /\ (exists o, In o l /\ detected (d_lim p) o /\ m_night o = g /\ m_mjd o = t) /\
     (forall o, In o l -> detected (d_lim p) o -> m_night o = g -> t <= m_mjd o) /\ (forall g', In g' (opportunities p gs) -> g <= g')).
Proof.
  intros Ho Hk Hw Hm Hg Hr. rewrite (discovery_sorted p l Ho Hk Hw) in Hr. rewrite <- (dgood_eq p l gs Ho Hk Hm Hg) in Hr. destruct (Z.ltb_spec (Z.of_nat (length gs)) (n_nights_window p)) as [H|H]; [discriminate|]. injection Hr as <-.
  pose proof (dstarts_opportunities p gs (proj1 Hg) ltac:(lia)) as Ed. unfold disc_time. cbn [d_start]. split.
  - intros E. rewrite E in Ed. destruct (dstarts p gs); [reflexivity|discriminate].
  - intros g rest E. rewrite E in Ed. destruct (dstarts p gs) as [|s t]; [discriminate|]. injection Ed as Es _. rewrite Es.
    assert (In g (opportunities p gs)) as Hgo by (rewrite E; left; reflexivity). assert (In g gs) as Hgs by (apply filter_In in Hgo; apply Hgo).
    rewrite (dgood_eq p l gs Ho Hk Hm Hg) in Hgs. pose proof (dgood_occurs p l g Hk Hgs) as Hoc. set (v := vis_obs (d_lim p) l) in *.
    assert (StronglySorted (fun a b => m_mjd a < m_mjd b) v) as Htv by (apply sorted_filter, Ho). assert (StronglySorted (fun a b => m_night a <= m_night b) v) as Hnv by (apply sorted_filter, Ho).
    destruct (Nat.eqb_spec (length v) 0) as [E0|E0]. { destruct Hoc as (o & Hov & _). destruct v; [destruct Hov|discriminate]. }
    assert (argsort (map m_mjd v) = seq 0 (length v)) as Ea.
    { rewrite argsort_sorted; [rewrite map_length; reflexivity|]. apply (sorted_map m_mjd Z.le). clear -Htv. induction Htv as [|a v Hs IH Hf]; constructor; [exact IH|]. eapply Forall_impl; [|exact Hf]. intros b Hb. cbn in Hb. lia. }
    rewrite Ea, take_z_seq by (rewrite map_length; reflexivity).
    destruct (night_pos v g Hnv Hoc) as (_ & _ & H3 & H4 & _). rewrite H3. set (B := filter (fun o => m_night o =? g) v) in *. destruct B as [|b B'] eqn:EB; [cbn in H4; lia|]. exists (m_mjd b).
    assert (In b (filter (fun o => m_night o =? g) v)) as Hb by (fold B; rewrite EB; left; reflexivity). apply filter_In in Hb. destruct Hb as [Hbv Hbg]. apply Z.eqb_eq in Hbg. apply vis_in in Hbv.
    split; [reflexivity|]. split; [exists b; tauto|]. split.
    + intros o Io Do Go. assert (In o B) as HoB by (apply filter_In; split; [apply vis_in; auto|apply Z.eqb_eq, Go]). rewrite EB in HoB. destruct HoB as [<-|HoB]; [lia|].
      assert (StronglySorted (fun a b => m_mjd a < m_mjd b) B) as HB by (apply sorted_filter, Htv). rewrite EB in HB. inversion HB as [|? ? _ Hf]; subst. rewrite Forall_forall in Hf. specialize (Hf o HoB). cbn in Hf. lia.
    + intros g' Hg'. rewrite E in Hg'. assert (StronglySorted Z.lt (g :: rest)) as Hs by (rewrite <- E; apply sorted_filter, Hg). destruct Hg' as [<-|Hg']; [lia|]. inversion Hs as [|? ? _ Hf]; subst. rewrite Forall_forall in Hf. specialize (Hf g' Hg'). lia.
Qed.
Lemma last_filter_seq (q : nat -> bool) n s : (s < n)%nat -> q s = true ->
  let e := last (filter q (seq 0 n)) 0%nat in (e < n)%nat /\ q e = true /\ forall i, (i < n)%nat -> q i = true -> (i <= e)%nat.
Proof.
  intros Hs Hq e. assert (forall m, (exists i, (i < m)%nat /\ q i = true) -> let e := last (filter q (seq 0 m)) 0%nat in (e < m)%nat /\ q e = true /\ forall i, (i < m)%nat -> q i = true -> (i <= e)%nat) as H.
  { clear. induction m as [|m IH]; intros (i & Hi & Hq); [lia|]. rewrite seq_S, filter_app. cbn [plus filter]. destruct (q m) eqn:Em.
    - rewrite last_last. cbv zeta. repeat split; try lia. exact Em.
    - rewrite app_nil_r. cbv zeta. destruct IH as (H1 & H2 & H3). { exists i. split; [|exact Hq]. destruct (Nat.eq_dec i m) as [->|]; [congruence|lia]. } repeat split; [lia|exact H2|]. intros j Hj Hqj. apply H3; [|exact Hqj]. destruct (Nat.eq_dec j m) as [->|]; [congruence|lia]. }
  apply H. exists s. auto.
Qed.
Lemma discovery_n_obs_spec p l gs r g rest : in_time_order l -> 1 <= n_obs_night p -> 1 <= n_nights_window p -> 0 <= t_min p -> tracklet_nights p l gs ->
  discovery p l = Some r -> opportunities p gs = g :: rest ->
  exists g', In g' gs /\ g <= g' <= g + t_window p /\ (forall h, In h gs -> h <= g + t_window p -> h <= g') /\
  disc_n_obs r + 1 = Z.of_nat (count (fun o => visible (d_lim p) o && (g <=? m_night o) && (m_night o <=? g')) l).
Proof.
  intros Ho Hk Hw Hm Hg Hr E. rewrite (discovery_sorted p l Ho Hk Hw) in Hr. rewrite <- (dgood_eq p l gs Ho Hk Hm Hg) in Hr. destruct (Z.ltb_spec (Z.of_nat (length gs)) (n_nights_window p)) as [H|H]; [discriminate|]. injection Hr as <-.
  pose proof (dstarts_opportunities p gs (proj1 Hg) ltac:(lia)) as Ed. unfold disc_n_obs. cbn [d_start d_end].
  assert (In g (opportunities p gs)) as Hgo by (rewrite E; left; reflexivity). pose proof Hgo as Hgo'. apply filter_In in Hgo. destruct Hgo as [Hgs Hcnt]. apply Z.leb_le in Hcnt.
  rewrite E in Ed. destruct (dstarts p gs) as [|s t] eqn:Ess; [discriminate|]. injection Ed as Es _. rewrite Es.
  assert (s < length gs)%nat as Hs. { assert (In s (dstarts p gs)) as Hi by (rewrite Ess; left; reflexivity). apply filter_In in Hi. destruct Hi as [Hi _]. apply in_seq in Hi. rewrite zsub_length, roll_length in Hi. lia. }
  assert (0 <= t_window p) as Hwin.
  { destruct (between g (g + t_window p) gs) as [|h hs] eqn:Eb; [cbn in Hcnt; lia|]. assert (In h (between g (g + t_window p) gs)) as Hh by (rewrite Eb; left; reflexivity). apply filter_In in Hh. destruct Hh as [_ Hh]. apply andb_true_iff in Hh. rewrite !Z.leb_le in Hh. lia. }
  set (q := fun i => nth i gs 0 - g <=? t_window p). change (where_z (fun n => n - g <=? t_window p) gs) with (filter q (seq 0 (length gs))).
  destruct (last_filter_seq q (length gs) s Hs) as (He & Hqe & Hmax). { unfold q. apply Z.leb_le. lia. }
  set (e := last (filter q (seq 0 (length gs))) 0%nat) in *. unfold q in Hqe. apply Z.leb_le in Hqe. set (g' := nth e gs 0) in *.
  set (v := vis_obs (d_lim p) l). set (nights := map m_night v).
  assert (nth e (map (fun h => (ss_right nights h - 1)%nat) gs) 0%nat = (ss_right nights g' - 1)%nat) as Ee.
  { rewrite (nth_indep _ 0%nat ((fun h => (ss_right nights h - 1)%nat) 0)) by (rewrite map_length; exact He). rewrite (map_nth (fun h => (ss_right nights h - 1)%nat)). reflexivity. }
  rewrite Ee. assert (In g' gs) as Hg' by (apply nth_In, He). assert (g <= g') as Hle. { rewrite <- Es. apply nth_le_sorted; [apply Hg|]. split; [|exact He]. apply Hmax; [exact Hs|]. unfold q. apply Z.leb_le. lia. }
  exists g'. split; [exact Hg'|]. split; [lia|]. split.
  - intros h Hh Hhw. apply (In_nth _ _ 0) in Hh. destruct Hh as (i & Hi & <-). apply nth_le_sorted; [apply Hg|]. split; [|exact He]. apply Hmax; [exact Hi|]. unfold q. apply Z.leb_le. lia.
  - rewrite (dgood_eq p l gs Ho Hk Hm Hg) in Hg'. destruct (night_pos v g' ltac:(apply sorted_filter, Ho) (dgood_occurs p l g' Hk Hg')) as (_ & _ & _ & H4 & H5 & _). fold nights in H5.
    assert (count (fun o => visible (d_lim p) o && (g <=? m_night o) && (m_night o <=? g')) l = count (fun o => (g <=? m_night o) && (m_night o <=? g')) v) as ->.
    { unfold v, vis_obs. rewrite count_filter. apply count_ext. intros o _. rewrite andb_assoc. reflexivity. }
    assert (ss_right nights g' = ss_left nights g + count (fun o => (g <=? m_night o)%Z && (m_night o <=? g')%Z) v)%nat as E6.
    { unfold ss_right, ss_left, nights, count. rewrite !filter_map_z, !map_length. clear -Hle. induction v as [|o v IH]; [reflexivity|]. cbn [filter]. destruct (Z.leb_spec (m_night o) g'), (Z.ltb_spec (m_night o) g), (Z.leb_spec g (m_night o)); cbn [andb length]; lia. }
    lia.
Qed.
