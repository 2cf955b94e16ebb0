(** Properties C116 to C120: groups of visits and the order of reduce functions. *)
From Verif Require Import Base Technical_Model Technical_Spec Technical_Proofs Technical_Proofs3 Archive_Proofs VisitGroups_Model VisitGroups_Spec VisitGroups_Proofs.
From Coq Require Import Lia Permutation Sorted.
Open Scope Z_scope.

(** C116: the visits counted for a night.  As documented: every visit within tmin..tmax of another counts once, two visits closer
    than tmin with another in range count one and a half, two close visits alone count nothing; never more than the visits made. *)
Theorem C116_at_most_visits_refuted :
  ~ (forall tmin tmax times h, 0 < tmin <= tmax -> night_value tmin tmax times = Some h -> h <= 2 * Z.of_nat (length times)).
Proof. intros H. specialize (H 15 90 [0; 20; 25; 45] 9 ltac:(lia) eq_refl). cbn in H. lia. Qed.
Print Assumptions C116_at_most_visits_refuted.
(** two visits any time apart count as a pair *)
Theorem C116_pair_in_range_refuted :
  ~ (forall tmin tmax a b h, 0 < tmin <= tmax -> a <= b -> night_value tmin tmax [a; b] = Some h -> tmin <= b - a <= tmax).
Proof. intros H. specialize (H 15 90 0 500 4 ltac:(lia) ltac:(lia) eq_refl). lia. Qed.
Print Assumptions C116_pair_in_range_refuted.
(** the value depends on the direction of time *)
Theorem C116_mirror_refuted :
  ~ (forall tmin tmax times, 0 < tmin <= tmax -> night_value tmin tmax times = night_value tmin tmax (map Z.opp times)).
Proof. intros H. specialize (H 15 90 [0; 20; 25; 200] ltac:(lia)). vm_compute in H. discriminate. Qed.
Print Assumptions C116_mirror_refuted.
(** what holds for nights of three or more visits: the visits with a neighbour in range, and for every two visits
    that are too close between one and two halves; nothing is recorded when no neighbours are in range *)
Theorem C116_night_partial : forall tmin tmax times s,
  tmin <= tmax -> in_order times s -> (3 <= length times)%nat ->
  (night_value tmin tmax times = None <-> paired_visits tmin tmax s = 0) /\
  forall h, night_value tmin tmax times = Some h ->
    0 < paired_visits tmin tmax s <= Z.of_nat (length times) /\
    2 * paired_visits tmin tmax s + close_pairs tmin s <= h <= 2 * paired_visits tmin tmax s + 2 * close_pairs tmin s.
Proof.
  intros tmin tmax times s Ht Hs Hl. destruct (night_value_spec tmin tmax times s ltac:(lia) Hs Hl) as (c & Hc & E).
  assert (0 <= paired_visits tmin tmax s <= Z.of_nat (length times)) as Hp.
  { unfold paired_visits. split; [lia|]. apply inj_le. unfold count. eapply Nat.le_trans; [apply filter_length_le with (q := fun _ => true); reflexivity|].
    assert (forall (A : Type) (l : list A), length (filter (fun _ => true) l) = length l) as Ef by (intros A l; induction l; cbn; congruence).
    rewrite Ef, seq_length. rewrite (Permutation_length (proj1 Hs)). apply le_n. }
  rewrite E. destruct (Z.eqb_spec (paired_visits tmin tmax s) 0) as [E0|N0]; split.
  - split; intros _; [exact E0 | reflexivity].
  - intros h Hh. discriminate.
  - split; [discriminate | intros E0; contradiction].
  - intros h Hh. assert (h = 2 * paired_visits tmin tmax s + c) as -> by congruence. lia.
Qed.
Print Assumptions C116_night_partial.
(** nights with two visits in range count two, nights with fewer visits are not recorded *)
Theorem C116_small_nights_partial : forall tmin tmax,
  (forall a b, tmin <= Z.abs (b - a) <= tmax -> night_value tmin tmax [a; b] = Some 4) /\
  (forall a, night_value tmin tmax [a] = None).
Proof.
  intros tmin tmax. split; [|reflexivity]. intros a b _. unfold night_value. set (s := sort_z [a; b]).
  assert (length s = 2%nat) as Hl by (unfold s; rewrite (Permutation_length (sort_z_perm [a; b])); reflexivity).
  destruct s as [|x [|y [|z t]]]; try discriminate. reflexivity.
Qed.
Print Assumptions C116_small_nights_partial.
(** every recorded night is one of the visits', recorded once, in order, with the value of its own visits *)
Theorem C116_recorded_partial : forall tmin tmax visits mv, visit_groups tmin tmax visits = Some mv ->
  nights_ok mv /\ mv <> [] /\
  forall n h, In (n, h) mv <-> night_value tmin tmax (map fst (filter (fun v => snd v =? n) visits)) = Some h.
Proof.
  intros tmin tmax visits mv H. unfold visit_groups in H.
  set (val := fun n => night_value tmin tmax (map fst (filter (fun v => snd v =? n) visits))) in *.
  assert (mv = flat_map (fun n => match val n with Some h => [(n, h)] | None => [] end) (unique_z (map snd visits)) /\ mv <> []) as [E Hne].
  { destruct (flat_map _ _) as [|q t] eqn:El in H; [discriminate|]. injection H as <-. split; [symmetry; exact El | discriminate]. }
  split; [|split; [exact Hne|]].
  - rewrite E. unfold nights_ok. pose proof (unique_z_sorted (map snd visits)) as Hs. clear -Hs. induction (unique_z (map snd visits)) as [|n t IH]; [constructor|]. inversion Hs as [|? ? Hs' Hf]; subst. specialize (IH Hs').
    cbn [flat_map]. destruct (val n) as [h|]; [|exact IH]. cbn [app map fst]. constructor; [exact IH|]. rewrite Forall_forall in *. intros x Hx. apply in_map_iff in Hx. destruct Hx as ([n' h'] & <- & Hx).
    apply in_flat_map in Hx. destruct Hx as (m & Hm & Hx). destruct (val m); [|destruct Hx]. destruct Hx as [Hx|[]]. injection Hx as <- <-. apply Hf. exact Hm.
  - intros n h. rewrite E, in_flat_map. split.
    + intros (m & _ & Hx). destruct (val m) eqn:Em; [|destruct Hx]. destruct Hx as [Hx|[]]. injection Hx as <- <-. exact Em.
    + intros Hv. exists n. split; [|unfold val; rewrite Hv; left; reflexivity]. apply unique_z_in.
      destruct (filter (fun v => snd v =? n) visits) as [|v t] eqn:Ef; [discriminate|]. assert (In v (filter (fun v => snd v =? n) visits)) as Hi by (rewrite Ef; left; reflexivity). apply filter_In in Hi.
      destruct Hi as [Hi Hq]. apply Z.eqb_eq in Hq. rewrite <- Hq. apply in_map. exact Hi.
Qed.
Print Assumptions C116_recorded_partial.
Example C116_case :
  in_order [45; 0; 25; 20; 400] [0; 20; 25; 45; 400] /\ (3 <= length [45; 0; 25; 20; 400])%nat /\
  paired_visits 15 90 [0; 20; 25; 45; 400] = 4 /\ close_pairs 15 [0; 20; 25; 45; 400] = 1 /\ night_value 15 90 [45; 0; 25; 20; 400] = Some 9 /\
  night_value 15 90 [0; 5; 500] = None /\
  visit_groups 15 90 [(45, 7); (1000, 9); (0, 7); (1030, 9); (25, 7); (20, 7); (400, 7); (2000, 8)] = Some [(7, 9); (9, 4)].
Proof.
  split; [|split; [cbn; lia | repeat split]]. split.
  - apply (perm_trans (l' := [45; 0; 20; 25; 400])); [|apply perm_skip, perm_skip; apply perm_swap].
    apply (perm_trans (l' := [0; 20; 45; 25; 400])); [apply perm_skip, perm_skip, perm_swap|]. apply (perm_trans (l' := [0; 45; 20; 25; 400])); [apply perm_skip, perm_swap | apply perm_swap].
  - repeat constructor; lia.
Qed.

(** C117: the visits and the nights within a window are the largest over all windows of that length, wherever they begin *)
Theorem C117_nights_in_window : forall window min_visits mv r, n_nights_in_window window min_visits mv = r ->
  (forall a, Z.of_nat (length (good_nights min_visits a (a + window) mv)) <= r) /\
  exists a, Z.of_nat (length (good_nights min_visits a (a + window) mv)) = r.
Proof. exact nights_in_window_spec. Qed.
Print Assumptions C117_nights_in_window.
Theorem C117_visits_in_window : forall window min_visits mv r, 0 <= min_visits -> n_visits_in_window window min_visits mv = r ->
  (forall a, zsum (map snd (good_nights min_visits a (a + window) mv)) <= r) /\
  exists a, zsum (map snd (good_nights min_visits a (a + window) mv)) = r.
Proof. exact visits_in_window_spec. Qed.
Print Assumptions C117_visits_in_window.
(** a longer window or a smaller demand never lowers the number of nights *)
Theorem C117_monotone : forall w w' mn mn' mv, w <= w' -> mn' <= mn -> n_nights_in_window w mn mv <= n_nights_in_window w' mn' mv.
Proof.
  intros w w' mn mn' mv Hw Hm. destruct (nights_in_window_spec w mn mv _ eq_refl) as (_ & a & <-). destruct (nights_in_window_spec w' mn' mv _ eq_refl) as (H & _). specialize (H a).
  assert (length (good_nights mn a (a + w) mv) <= length (good_nights mn' a (a + w') mv))%nat; [|lia]. apply filter_length_le. intros q _ E. lia.
Qed.
Print Assumptions C117_monotone.
Example C117_case : let mv := [(1, 4); (3, 3); (10, 6); (12, 4); (40, 9)] in
  n_nights_in_window 10 2 mv = 2 /\ n_visits_in_window 10 2 mv = 10 /\ n_nights_in_window 12 2 mv = 3 /\ length (good_nights 2 0 10 mv) = 1%nat.
Proof. repeat split. Qed.

(** C118: the number of lunations is the number of the 30-night periods from the first recorded night that have a group,
    a group being enough nights with enough visits in some window, all in that period *)
Theorem C118_lunations : forall window min_visits min_nights p mv, 1 <= min_nights -> nights_ok (p :: mv) ->
  exists ks, NoDup ks /\ Z.of_nat (length ks) = n_lunations window min_visits min_nights (p :: mv) /\
  forall k, In k ks <-> 0 <= k /\ group_in window min_visits min_nights (fst p) k (p :: mv).
Proof. exact n_lunations_spec. Qed.
Print Assumptions C118_lunations.
Example C118_case : let mv := [(100, 4); (110, 4); (131, 4); (150, 4); (155, 6); (159, 2); (221, 4); (222, 4)] in
  nights_ok mv /\ n_lunations 30 2 2 mv = 3 /\ n_lunations 10 2 2 mv = 2 /\ n_lunations 30 2 3 mv = 1.
Proof. cbv zeta. split; [unfold nights_ok; cbn; repeat constructor; lia | repeat split]. Qed.

(** C119: the longest sequence of successive lunations with a group *)
Theorem C119_sequence_refuted :
  ~ (forall window min_visits min_nights p mv, 1 <= min_nights -> nights_ok (p :: mv) ->
     forall a len, run_of (fun k => group_in window min_visits min_nights (fst p) k (p :: mv)) a len -> len <= max_seq_lunations window min_visits min_nights (p :: mv)).
Proof.
  intros H. assert (nights_ok [(0, 4); (1, 4); (30, 4); (40, 4); (41, 4)]) as Hok by (unfold nights_ok; cbn; repeat constructor; lia).
  specialize (H 5 2 2 (0, 4) [(1, 4); (30, 4); (40, 4); (41, 4)] ltac:(lia) Hok 0 2).
  assert (max_seq_lunations 5 2 2 ((0, 4) :: [(1, 4); (30, 4); (40, 4); (41, 4)]) = 1) as E by reflexivity. rewrite E in H.
  enough (2 <= 1) by lia. apply H. split; [lia|]. intros j Hj. assert (j = 0 \/ j = 1) as [->| ->] by lia; [exists 0 | exists 40]; vm_compute; discriminate.
Qed.
Print Assumptions C119_sequence_refuted.
Theorem C119_sequence_partial : forall window min_visits min_nights p mv, 1 <= min_nights -> 30 <= window -> nights_ok (p :: mv) ->
  (forall a len, run_of (fun k => group_in window min_visits min_nights (fst p) k (p :: mv)) a len -> len <= max_seq_lunations window min_visits min_nights (p :: mv)) /\
  exists a, run_of (fun k => group_in window min_visits min_nights (fst p) k (p :: mv)) a (max_seq_lunations window min_visits min_nights (p :: mv)).
Proof. exact max_seq_spec. Qed.
Print Assumptions C119_sequence_partial.
Example C119_case : let mv := [(100, 4); (110, 4); (131, 4); (150, 4); (159, 2); (221, 4); (222, 4)] in
  nights_ok mv /\ max_seq_lunations 30 2 2 mv = 2 /\ n_lunations 30 2 2 mv = 3.
Proof. cbv zeta. split; [unfold nights_ok; cbn; repeat constructor; lia | repeat split]. Qed.

(** C120: every reduce function of a metric can be applied to its bundle, and gets a display order *)
Theorem C120_reduce_refuted :
  reduce_all_orders visit_groups_members (Some visit_groups_order) = Err KeyError /\
  reduce_all_orders triplet_members (Some triplet_order) = Err KeyError /\
  reduce_all_orders grb_members (Some grb_order) = Err KeyError.
Proof. repeat split; vm_compute; reflexivity. Qed.
Print Assumptions C120_reduce_refuted.
(** metrics that keep BaseMetric's order: no error, and the orders are the places of the reduce functions among the methods *)
Theorem C120_reduce_partial : forall members,
  NoDup members -> (forall m, In m members -> String.prefix "reduce" m = true -> plain_reduce m) ->
  reduce_all_orders members None = Ok (filter (fun i => String.prefix "reduce" (nth i members ""%string)) (seq 0 (length members))).
Proof.
  intros members Hn Hx. assert (forall m, In m members -> String.prefix "reduce" m = true -> exists x, m = ("reduce_" ++ x)%string) as Hx'.
  { intros m Hm E. destruct (Hx m Hm E) as (x & Ex & _). exists x. exact Ex. }
  unfold reduce_all_orders. pose proof (base_reduce_keys _ Hn Hx') as Hk. pose proof (base_reduce_spec _ Hn Hx') as Es. set (d := base_reduce members) in *. rewrite Es at 1.
  set (L := combine (seq 0 (length members)) members) in *.
  assert (forall p, In p (filter is_reduce L) -> reduce_display_order d (replace_first "reduce_" (snd p)) = Ok (fst p)) as Hd.
  { intros p Hp. unfold reduce_display_order. assert (In (replace_first "reduce_" (snd p), fst p) d) as Hi by (rewrite Es; apply (in_map (fun p => (replace_first "reduce_" (snd p), fst p))); exact Hp).
    apply filter_In in Hp. destruct Hp as [Hp Hr]. assert (In (snd p) members) as Hm by (destruct p as [i m]; apply in_combine_r in Hp; exact Hp).
    destruct (Hx (snd p) Hm Hr) as (x & Ex & Hno). rewrite Ex, replace_first_app in *. unfold replace_all. rewrite replace_all_none by exact Hno.
    rewrite (dget_some_in String.eqb String.eqb_eq d x (fst p) Hk Hi). reflexivity. }
  assert (forall l, (forall p, In p l -> In p (filter is_reduce L)) ->
    fold_right (fun n acc => do a <- acc; do x <- reduce_display_order d n; Ok (x :: a)) (Ok []) (map fst (map (fun p => (replace_first "reduce_" (snd p), fst p)) l)) = Ok (map fst l)) as Hf.
  { induction l as [|p t IH]; intros Hl; [reflexivity|]. cbn [map fold_right]. rewrite IH by (intros q Hq; apply Hl; right; exact Hq). cbn [bind fst]. rewrite Hd by (apply Hl; left; reflexivity). reflexivity. }
  rewrite Hf by auto. f_equal. unfold L. clear.
  assert (forall k pre l, length pre = k -> map fst (filter is_reduce (combine (seq k (length l)) l)) = filter (fun i => String.prefix "reduce" (nth i (pre ++ l) ""%string)) (seq k (length l))) as H; [|apply (H 0%nat []); reflexivity].
  intros k pre l. revert k pre. induction l as [|m t IH]; intros k pre Hk; [reflexivity|]. cbn [length seq combine filter]. unfold is_reduce at 1. cbn [snd].
  assert (nth k (pre ++ m :: t) ""%string = m) as -> by (rewrite app_nth2, Hk, Nat.sub_diag by lia; reflexivity).
  specialize (IH (S k) (pre ++ [m])). rewrite <- app_assoc in IH. cbn [app] in IH. rewrite app_length in IH. cbn [length] in IH. specialize (IH ltac:(lia)).
  destruct (String.prefix "reduce" m); cbn [map fst]; rewrite IH; reflexivity.
Qed.
Print Assumptions C120_reduce_partial.
Example C120_case : reduce_all_orders visit_groups_members None = Ok [3; 4; 5; 6; 7; 8]%nat /\ reduce_all_orders triplet_members None = Ok [1; 2; 3; 4; 5; 6; 7]%nat /\
  reduce_all_orders ["reduce_reduce_x"]%string None = Err KeyError.
Proof. repeat split; vm_compute; reflexivity. Qed.
