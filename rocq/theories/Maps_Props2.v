(** C304: the nearest entry of a table.  C305: distances behind dust. *)
From Coq Require Import String Ascii Reals ZArith List Lra Lia Bool.
From Verif Require Import Base Depth_Model Depth_Proofs Template_Model Sky_Spec Sky_Proofs Sky_Props Maps_Model Maps_Spec Maps_Proofs.
Import ListNotations.
Open Scope R_scope.

(** * C304 *)
(** a single point: the entry of [x] nearest to the goal, the first of several, and the entry of [y] that belongs to it *)
Theorem C304_point x y goal a b : nearest x y goal = Ok (a, b) <->
  exists i, FirstNearest x goal i /\ nth_error x i = Some a /\ nth_error y i = Some b.
Proof. exact (nearest_spec x y goal a b). Qed.
Print Assumptions C304_point.
(** there is an answer for every table that is not empty, and only then *)
Theorem C304_answers x y goal : length y = length x ->
  (x <> [] <-> exists p, nearest x y goal = Ok p) /\ (x = [] -> nearest x y goal = Err ValueError).
Proof.
  intro L. split.
  - split; [intro N; now apply nearest_exists | intros [p H] ->; discriminate].
  - now intros ->.
Qed.
Print Assumptions C304_answers.
(** a whole map: the same for each of its rows *)
Theorem C304_map xs ys goal out : length xs = length ys ->
  (nearest_rows xs ys goal = Ok out <->
   length out = length xs /\ forall k x y, nth_error xs k = Some x -> nth_error ys k = Some y ->
     exists p, nth_error out k = Some p /\ nearest x y goal = Ok p).
Proof.
  revert ys out. induction xs as [|x xs IH]; intros [|y ys] out L; try discriminate; simpl.
  - split.
    + intro H. injection H as <-. split; [reflexivity|]. intros [|k]; discriminate.
    + intros [H _]. destruct out; [reflexivity | discriminate].
  - injection L as L. destruct (nearest x y goal) as [p|e] eqn:E; simpl.
    + destruct (nearest_rows xs ys goal) as [r|e] eqn:Er; simpl.
      * destruct (proj1 (IH ys r L) Er) as [Hl Hk]. split.
        -- intro H. injection H as <-. split; [simpl; congruence|].
           intros [|k] x' y'; simpl; [intros E1 E2; injection E1 as ->; injection E2 as ->; eauto | apply Hk].
        -- intros [Hl' Hk']. destruct out as [|q out]; [discriminate|].
           destruct (Hk' O x y eq_refl eq_refl) as (q' & Eq & Hq). simpl in Eq. injection Eq as <-.
           assert (q = p) by congruence. subst q. do 2 f_equal.
           assert (Er' : Ok r = Ok out); [|now injection Er' as ->].
           rewrite <- Er. apply (IH ys out L). split; [now injection Hl'|]. intros k x' y' E1 E2. exact (Hk' (S k) x' y' E1 E2).
      * split; [discriminate|]. intros [Hl' Hk']. exfalso. destruct out as [|q out]; [discriminate|].
        assert (Er' : nearest_rows xs ys goal = Ok out); [|congruence].
        apply (IH ys out L). split; [now injection Hl'|]. intros k x' y' E1 E2. exact (Hk' (S k) x' y' E1 E2).
    + split; [discriminate|]. intros [_ Hk']. destruct (Hk' O x y eq_refl eq_refl) as (q' & Eq & Hq). congruence.
Qed.
Print Assumptions C304_map.
Example C304_case : nearest [1; 3; 5] [10; 30; 50] 2 = Ok (1, 10).
Proof.
  apply C304_point. exists O. split; [|split; reflexivity]. exists 1. split; [reflexivity|]. split; [|intros j b L; lia].
  intros j b. destruct j as [|[|[|[|j]]]]; simpl; intro H; try discriminate; injection H as <-;
    unfold Rabs; repeat destruct Rcase_abs; lra.
Qed.

(** * C305 *)
Section Sightline.
Context (k : R) (dists ebvs : list R).
(** distances grow and are positive, the dust does not decrease *)
Definition Sightline : Prop :=
  0 <= k /\ length ebvs = length dists /\ dists <> [] /\ Increasing dists /\ (forall d, In d dists -> 0 < d) /\
  (forall i j a b, (i < j)%nat -> nth_error ebvs i = Some a -> nth_error ebvs j = Some b -> a <= b).
(** the dimming at the [i]-th distance *)
Definition At (i : nat) (d m : R) : Prop := exists e, nth_error dists i = Some d /\ nth_error ebvs i = Some e /\ Dimming d (k * e) m.

Lemma m_length : length ebvs = length dists -> length (m_minus_mo k dists ebvs) = length dists.
Proof. intro L. unfold m_minus_mo. rewrite map_length, combine_length. lia. Qed.
Lemma m_nth i m : nth_error (m_minus_mo k dists ebvs) i = Some m <-> exists d, At i d m.
Proof.
  unfold m_minus_mo, At, Dimming, log10. rewrite nth_error_map. revert i ebvs.
  induction dists as [|d ds IH]; intros i [|e es].
  - simpl. split; [destruct i; discriminate|]. intros (? & ? & ? & _). destruct i; discriminate.
  - simpl. split; [destruct i; discriminate|]. intros (? & ? & ? & _). destruct i; discriminate.
  - simpl. split; [destruct i; discriminate|]. intros (? & ? & _ & ? & _). destruct i; discriminate.
  - destruct i as [|i]; simpl.
    + split.
      * intro H. injection H as <-. exists d, e. auto.
      * intros (d' & e' & E1 & E2 & ->). injection E1 as <-. injection E2 as <-. reflexivity.
    + rewrite IH. reflexivity.
Qed.
Lemma dimming_lt d1 d2 a1 a2 m1 m2 : 0 < d1 -> d1 < d2 -> a1 <= a2 -> Dimming d1 a1 m1 -> Dimming d2 a2 m2 -> m1 < m2.
Proof.
  intros P L A -> ->. assert (ln d1 / ln 10 < ln d2 / ln 10); [|lra].
  apply Rmult_lt_compat_r; [apply Rinv_0_lt_compat, ln10_pos | now apply ln_increasing].
Qed.
Lemma m_increasing : Sightline -> Increasing (m_minus_mo k dists ebvs).
Proof.
  intros (K & L & N & I & P & E) i j x y Lij Hx Hy. apply m_nth in Hx. apply m_nth in Hy.
  destruct Hx as (d1 & e1 & D1 & E1 & M1). destruct Hy as (d2 & e2 & D2 & E2 & M2).
  refine (dimming_lt d1 d2 _ _ x y _ _ _ M1 M2).
  - apply P. now apply nth_error_In in D1.
  - exact (I i j _ _ Lij D1 D2).
  - apply Rmult_le_compat_l; [exact K|]. exact (E i j _ _ Lij E1 E2).
Qed.
(** the distance at which a given extinction and dimming meet *)
Lemma far_dimming a dmag : Dimming (Rpower 10 (2/10 * (dmag - a) + 1)) a dmag.
Proof. unfold Dimming. unfold Rpower. rewrite ln_exp. field. pose proof ln10_pos; lra. Qed.
Lemma far_pos x : 0 < Rpower 10 x.
Proof. apply exp_pos. Qed.
Lemma dimming_le d1 d2 a1 a2 m1 m2 : 0 < d1 -> 0 < d2 -> Dimming d1 a1 m1 -> Dimming d2 a2 m2 -> m1 <= m2 -> a2 <= a1 -> d1 <= d2.
Proof.
  intros P1 P2 -> -> M A. destruct (Rle_lt_dec d1 d2); auto. exfalso.
  assert (ln d2 / ln 10 < ln d1 / ln 10).
  { apply Rmult_lt_compat_r; [apply Rinv_0_lt_compat, ln10_pos | now apply ln_increasing]. }
  lra.
Qed.
Lemma dimming_unique d1 d2 a m : 0 < d1 -> 0 < d2 -> Dimming d1 a m -> Dimming d2 a m -> d1 = d2.
Proof. intros P1 P2 D1 D2. apply Rle_antisym; eapply dimming_le; eauto; lra. Qed.

(** the answer: the further of the nearest entry and of the distance behind all the dust *)
Lemma row_answer dmag a d : Sightline -> dist_row k dmag dists ebvs a = Ok d ->
  exists i c m far, FirstNearest (m_minus_mo k dists ebvs) dmag i /\ At i c m /\ Dimming far a dmag /\ 0 < far /\ d = Rmax c far.
Proof.
  intros H. unfold dist_row. destruct (nearest _ _ _) as [[m c]|e] eqn:E; simpl; [|discriminate].
  intro Hd. injection Hd as <-. apply nearest_spec in E. destruct E as (i & F & Em & Ec).
  exists i, c, m, (Rpower 10 (2/10 * (dmag - a) + 1)). split; [exact F|]. split.
  - apply m_nth in Em. destruct Em as (c' & e & D & Ee & M). rewrite Ec in D. injection D as <-. exists e. auto.
  - split; [apply far_dimming|]. split; [apply far_pos|]. unfold Rmax.
    destruct (rltb c _) eqn:Er; destruct (Rle_dec c _) as [L|L]; try reflexivity.
    + apply rltb_true in Er. lra.
    + apply rltb_false in Er. lra.
Qed.
(** nearest to a value between two neighbouring entries is one of them *)
Lemma nearest_neighbour m i goal x y j : Increasing m -> nth_error m i = Some x -> nth_error m (S i) = Some y -> x <= goal <= y ->
  FirstNearest m goal j -> j = i \/ j = S i.
Proof.
  intros I Ex Ey B (a & Ea & M & F). destruct (lt_eq_lt_dec j i) as [[L|L]|L]; [exfalso | now left|].
  - pose proof (I _ _ _ _ L Ea Ex). specialize (M _ _ Ex). unfold Rabs in M. repeat destruct Rcase_abs; lra.
  - destruct (Nat.eq_dec j (S i)) as [|N]; [now right|]. exfalso. assert (L2 : (S i < j)%nat) by lia.
    pose proof (I _ _ _ _ L2 Ey Ea). specialize (M _ _ Ey). unfold Rabs in M. repeat destruct Rcase_abs; lra.
Qed.

(** a dimming that is reached between two distances of the map gives a distance between these two *)
Theorem C305_within dmag i d1 d2 m1 m2 e_far d : Sightline -> At i d1 m1 -> At (S i) d2 m2 -> m1 <= dmag <= m2 ->
  (forall e, In e ebvs -> e <= e_far) -> dist_row k dmag dists ebvs (k * e_far) = Ok d -> d1 <= d <= d2.
Proof.
  intros Sl A1 A2 B Ef H. destruct (row_answer _ _ _ Sl H) as (j & c & m & far & F & Ac & Df & Pf & ->).
  pose proof (m_increasing Sl) as I. destruct Sl as (K & L & N & Id & P & E).
  assert (Hj : j = i \/ j = S i).
  { refine (nearest_neighbour _ _ _ m1 m2 _ I _ _ B F); apply m_nth; eauto. }
  destruct A1 as (e1 & D1 & E1 & M1). destruct A2 as (e2 & D2 & E2 & M2). destruct Ac as (e & Dc & Ec & _).
  assert (d1 < d2) by exact (Id i (S i) _ _ (Nat.lt_succ_diag_r i) D1 D2).
  assert (Hc : d1 <= c <= d2) by (destruct Hj; subst j; [assert (c = d1) by congruence | assert (c = d2) by congruence]; lra).
  assert (far <= d2).
  { refine (dimming_le far d2 (k * e_far) (k * e2) dmag m2 Pf _ Df M2 _ _); [apply P; now apply nth_error_In in D2 | lra |].
    apply Rmult_le_compat_l; [exact K|]. apply Ef. now apply nth_error_In in E2. }
  pose proof (Rmax_l c far). split; [lra|]. apply Rmax_lub; lra.
Qed.
(** a dimming that the map does not reach gives the distance at which it is reached behind the dust of the last entry *)
Theorem C305_beyond dmag n d_last m_last e_last d : Sightline -> S n = length dists -> At n d_last m_last ->
  nth_error ebvs n = Some e_last -> m_last <= dmag ->
  dist_row k dmag dists ebvs (k * e_last) = Ok d -> Dimming d (k * e_last) dmag /\ d_last <= d.
Proof.
  intros Sl Ln Al El B H. destruct (row_answer _ _ _ Sl H) as (j & c & m & far & F & Ac & Df & Pf & ->).
  pose proof (m_increasing Sl) as I. destruct Sl as (K & L & N & Id & P & E).
  assert (j = n).
  { destruct F as (a & Ea & M & _). assert (Lj : (j < length (m_minus_mo k dists ebvs))%nat) by (apply nth_error_Some; congruence).
    rewrite m_length in Lj by exact L. destruct (Nat.eq_dec j n) as [|Nj]; auto. exfalso. assert (Ljn : (j < n)%nat) by lia.
    assert (En : nth_error (m_minus_mo k dists ebvs) n = Some m_last) by (apply m_nth; eauto).
    pose proof (I _ _ _ _ Ljn Ea En). specialize (M _ _ En). unfold Rabs in M. repeat destruct Rcase_abs; lra. }
  subst j. destruct Al as (e & D1 & E1 & M1). destruct Ac as (e' & D2 & E2 & M2).
  assert (e = e_last) by congruence. subst e. assert (c = d_last) by congruence. subst c.
  assert (Pl : 0 < d_last) by (apply P; now apply nth_error_In in D1).
  assert (d_last <= far) by (refine (dimming_le d_last far _ _ m_last dmag Pl Pf M1 Df B _); lra).
  rewrite Rmax_right by assumption. auto.
Qed.
(** a dimming that is reached before the first distance gives the first distance *)
Theorem C305_before dmag d0 m0 e_far d : Sightline -> At 0 d0 m0 -> dmag <= m0 -> (forall e, In e ebvs -> e <= e_far) ->
  dist_row k dmag dists ebvs (k * e_far) = Ok d -> d = d0.
Proof.
  intros Sl A0 B Ef H. destruct (row_answer _ _ _ Sl H) as (j & c & m & far & F & Ac & Df & Pf & ->).
  pose proof (m_increasing Sl) as I. destruct Sl as (K & L & N & Id & P & E).
  assert (j = O).
  { destruct F as (a & Ea & M & _). destruct j; auto. exfalso.
    assert (En : nth_error (m_minus_mo k dists ebvs) 0 = Some m0) by (apply m_nth; eauto).
    pose proof (I _ _ _ _ (Nat.lt_0_succ j) En Ea). specialize (M _ _ En). unfold Rabs in M. repeat destruct Rcase_abs; lra. }
  subst j. destruct A0 as (e & D1 & E1 & M1). destruct Ac as (e' & D2 & E2 & M2). assert (c = d0) by congruence. subst c.
  assert (P0 : 0 < d0) by (apply P; now apply nth_error_In in D1).
  assert (far <= d0).
  { refine (dimming_le far d0 _ _ dmag m0 Pf P0 Df M1 B _). apply Rmult_le_compat_l; [exact K|]. apply Ef. now apply nth_error_In in E1. }
  now rewrite Rmax_left.
Qed.
(** an object that may be fainter is never put nearer *)
Theorem C305_monotone dmag dmag' a d d' : Sightline -> dmag <= dmag' ->
  dist_row k dmag dists ebvs a = Ok d -> dist_row k dmag' dists ebvs a = Ok d' -> d <= d'.
Proof.
  intros Sl Le H H'. destruct (row_answer _ _ _ Sl H) as (i & c & m & far & (x & Ex & Mx & Fx) & Ac & Df & Pf & ->).
  destruct (row_answer _ _ _ Sl H') as (j & c' & m' & far' & (x' & Ex' & Mx' & Fx') & Ac' & Df' & Pf' & ->).
  pose proof (m_increasing Sl) as I. destruct Sl as (K & L & N & Id & P & E).
  assert (Lf : far <= far') by (refine (dimming_le _ _ _ _ _ _ Pf Pf' Df Df' Le _); lra).
  assert (Lc : c <= c').
  { destruct Ac as (e & D & _). destruct Ac' as (e' & D' & _). destruct (lt_eq_lt_dec i j) as [[Lij|Lij]|Lij].
    - left. exact (Id _ _ _ _ Lij D D').
    - subst. right. congruence.
    - exfalso. pose proof (I _ _ _ _ Lij Ex' Ex). specialize (Fx _ _ Lij Ex'). specialize (Mx' _ _ Ex).
      unfold Rabs in *. repeat destruct Rcase_abs; lra. }
  apply Rmax_lub; [eapply Rle_trans; [exact Lc | apply Rmax_l] | eapply Rle_trans; [exact Lf | apply Rmax_r]].
Qed.
End Sightline.
Print Assumptions C305_within.
Print Assumptions C305_beyond.
Print Assumptions C305_before.
Print Assumptions C305_monotone.

(** a slice point by itself and as a row of the whole map give the same distance if its last entry has the most dust *)
Theorem C305_point_in_map_partial r_x filt k dmag dists ebvs out j d e : dget String.eqb r_x filt = Some k -> 0 <= k ->
  dist_at_map r_x filt dmag dists ebvs = Ok out -> nth_error dists j = Some d -> nth_error ebvs j = Some e ->
  (forall x, In x e -> x <= last e 0) -> exists y, nth_error out j = Some y /\ dist_at_point r_x filt dmag d e = Ok y.
Proof.
  intros G K H Hd He M. unfold dist_at_map in H. rewrite G in H. unfold dist_at_point. rewrite G.
  assert (X : exists y, nth_error out j = Some y /\ e <> [] /\ dist_row k dmag d e (k * last e 0) = Ok y).
  { clear G M. revert dists ebvs out H Hd He. induction j as [|j IH]; intros [|d0 ds] [|e0 es] out H Hd He; try discriminate; simpl in H, Hd, He.
    - injection Hd as ->. injection He as ->. destruct e as [|e1 et]; [discriminate|].
      destruct (dist_row k dmag d (e1 :: et) _) as [x|] eqn:E; [|discriminate]. simpl in H.
      destruct (dist_rows _ _ ds es); [|discriminate]. simpl in H. injection H as <-. exists x. split; [reflexivity|]. split; [discriminate | reflexivity].
    - destruct e0 as [|e1 et]; [discriminate|]. destruct (dist_row k dmag d0 _ _); [|discriminate]. simpl in H.
      destruct (dist_rows k dmag ds es) as [r|] eqn:Er; [|discriminate]. simpl in H. injection H as <-. simpl. eapply IH; eauto. }
  destruct X as (y & Ey & Ne & E). exists y. split; [exact Ey|]. destruct e as [|e1 et]; [congruence|].
  replace (fold_left Rmax (map (Rmult k) et) (k * e1)) with (k * last (e1 :: et) 0); [exact E|].
  assert (Lin : In (last (e1 :: et) 0) (e1 :: et)).
  { rewrite (app_removelast_last 0 Ne) at 2. apply in_or_app. right. now left. }
  apply Rle_antisym.
  - apply fold_rmax. change (k * e1 :: map (Rmult k) et) with (map (Rmult k) (e1 :: et)). now apply in_map.
  - pose proof (fold_rmax_in (map (Rmult k) et) (k * e1)) as X.
    change (k * e1 :: map (Rmult k) et) with (map (Rmult k) (e1 :: et)) in X. apply in_map_iff in X.
    destruct X as (x & <- & Hx). apply Rmult_le_compat_l; [exact K | now apply M].
Qed.
Print Assumptions C305_point_in_map_partial.
(** refuted without that: an entry with more dust before the last *)
Theorem C305_point_in_map_refuted : exists r_x filt dmag d e x y, dist_at_map r_x filt dmag [d] [e] = Ok [x] /\
  dist_at_point r_x filt dmag d e = Ok y /\ x <> y.
Proof.
  exists [("r"%string, 1)], "r"%string, 20, [10; 100], [1; 0].
  assert (L10 : log10 10 = 1) by (unfold log10; field; pose proof ln10_pos; lra).
  assert (L100 : log10 100 = 2).
  { unfold log10. replace 100 with (10 * 10) by lra. rewrite ln_mult by lra. field. pose proof ln10_pos; lra. }
  assert (N : nearest (m_minus_mo 1 [10; 100] [1; 0]) [10; 100] 20 = Ok (5, 100)).
  { apply nearest_spec. exists 1%nat. unfold m_minus_mo. cbn [map combine fst snd]. rewrite L10, L100.
    split; [|split; [simpl; f_equal; lra | reflexivity]].
    exists (5 * 2 - 5 + 1 * 0). split; [reflexivity|]. split; intros [|[|[|j]]] b; simpl; intros H; try discriminate;
      try (intro H'; try discriminate; injection H' as <-); try (injection H as <-); try lia; unfold Rabs; repeat destruct Rcase_abs; lra. }
  exists (Rpower 10 (2/10 * (20 - 1 * 0) + 1)), (Rpower 10 (2/10 * (20 - 1 * 1) + 1)).
  unfold dist_at_map, dist_at_point. simpl. unfold dist_row. rewrite N. simpl.
  assert (P : forall a b, a < b -> Rpower 10 a < Rpower 10 b) by (intros; apply Rpower_lt; lra).
  assert (H100 : 100 = Rpower 10 2).
  { replace 2 with (INR 2) by (simpl; lra). rewrite Rpower_pow by lra. simpl. lra. }
  assert (E0 : rltb 100 (Rpower 10 (2 / 10 * (20 - 1 * 0) + 1)) = true) by (apply rltb_true; rewrite H100 at 1; apply P; lra).
  assert (E1 : rltb 100 (Rpower 10 (2 / 10 * (20 - Rmax (1 * 1) (1 * 0)) + 1)) = true).
  { apply rltb_true. rewrite H100 at 1. apply P. rewrite Rmax_left by lra. lra. }
  rewrite E0, E1. simpl. split; [reflexivity|]. rewrite Rmax_left by lra. split; [reflexivity|].
  intro H. assert (Rpower 10 (2 / 10 * (20 - 1 * 1) + 1) < Rpower 10 (2 / 10 * (20 - 1 * 0) + 1)) by (apply P; lra). lra.
Qed.
Print Assumptions C305_point_in_map_refuted.

(** DustMap3D.run adds its four keys and changes nothing else *)
Theorem C305_run ang2pix neighbours isfile data open ring2nest fmt dm st s s' :
  snd (dust3d_run ang2pix neighbours isfile data open ring2nest fmt dm st s) = Ok s' ->
  exists dists ebvs near far,
    dget String.eqb (sp_info s') "ebv3d_dists"%string = Some (Rows dists) /\
    dget String.eqb (sp_info s') "ebv3d_ebvs"%string = Some (Rows ebvs) /\
    dget String.eqb (sp_info s') ("ebv3d_ebv_at_" ++ fmt (t_dist_pc dm))%string = Some (Num near) /\
    dget String.eqb (sp_info s') ("ebv3d_dist_at_" ++ fmt (t_dmag dm))%string = Some (Num far) /\
    snd (match sp_nside s with
         | Some n => ebv_3d_hp ang2pix neighbours isfile data open ring2nest st n (t_file dm) None None (Some (sp_sid s)) false
         | None => ebv_3d_hp ang2pix neighbours isfile data open ring2nest st (t_nside dm) (t_file dm) (Some (sp_ra s)) (Some (sp_dec s)) None (t_interp dm)
         end) = Ok (dists, ebvs) /\
    (length dists = length ebvs -> length near = length dists /\ forall k d e, nth_error dists k = Some d -> nth_error ebvs k = Some e ->
       exists i, FirstNearest d (t_dist_pc dm) i /\ nth_error near k = nth_error e i) /\
    dist_at_map (t_rx dm) (t_filter dm) (t_dmag dm) dists ebvs = Ok far /\
    (forall key, key <> "ebv3d_dists"%string -> key <> "ebv3d_ebvs"%string -> key <> ("ebv3d_ebv_at_" ++ fmt (t_dist_pc dm))%string ->
       key <> ("ebv3d_dist_at_" ++ fmt (t_dmag dm))%string -> dget String.eqb (sp_info s') key = dget String.eqb (sp_info s) key) /\
    sp_nside s' = sp_nside s /\ sp_sid s' = sp_sid s /\ sp_ra s' = sp_ra s /\ sp_dec s' = sp_dec s.
Proof.
  intro H. unfold dust3d_run in H.
  match type of H with context [let '(_, _) := ?c in _] => destruct c as [st' r] eqn:Ec end. simpl in H.
  destruct r as [[dists ebvs]|e]; [|discriminate]. cbn [bind fst snd] in H.
  destruct (nearest_rows dists ebvs (t_dist_pc dm)) as [at_|] eqn:En; [|discriminate]. cbn [bind] in H.
  destruct (dist_at_map _ _ _ dists ebvs) as [far|] eqn:Ef; [|discriminate]. cbn [bind] in H. injection H as <-.
  exists dists, ebvs, (map snd at_), far. unfold put; cbn [sp_info sp_nside sp_sid sp_ra sp_dec].
  split; [rewrite !dget_dset_other by (simpl; discriminate); apply dget_dset_same|].
  split; [rewrite !dget_dset_other by (simpl; discriminate); apply dget_dset_same|].
  split; [rewrite dget_dset_other by (simpl; discriminate); apply dget_dset_same|].
  split; [apply dget_dset_same|]. split; [reflexivity|]. split.
  - intro L. apply (C304_map _ _ _ _ L) in En. destruct En as [Ll Hk]. split; [now rewrite map_length|].
    intros k d e Hd He. destruct (Hk k d e Hd He) as ([a b] & Ha & Hn). apply C304_point in Hn.
    destruct Hn as (i & F & _ & Hb). exists i. split; [exact F|]. rewrite nth_error_map, Ha. simpl. now rewrite Hb.
  - split; [exact Ef|]. split; [|auto]. intros key N1 N2 N3 N4. now rewrite !dget_dset_other by assumption.
Qed.
Print Assumptions C305_run.
Example C305_case : Sightline 2 [10; 100] [0; 1] /\ At 2 [10; 100] [0; 1] 0 10 0 /\ At 2 [10; 100] [0; 1] 1 100 7.
Proof.
  assert (L10 : ln 10 / ln 10 = 1) by (field; pose proof ln10_pos; lra).
  assert (L100 : ln 100 / ln 10 = 2) by (replace 100 with (10 * 10) by lra; rewrite ln_mult by lra; field; pose proof ln10_pos; lra).
  split; [|split].
  - repeat split; try lra; try discriminate.
    + intros i j x y L. destruct i as [|[|[|i]]], j as [|[|[|j]]]; simpl; intros H1 H2; try discriminate; try lia;
        injection H1 as <-; injection H2 as <-; lra.
    + intros d [<-|[<-|[]]]; lra.
    + intros i j x y L. destruct i as [|[|[|i]]], j as [|[|[|j]]]; simpl; intros H1 H2; try discriminate; try lia;
        injection H1 as <-; injection H2 as <-; lra.
  - exists 0. split; [reflexivity|]. split; [reflexivity|]. unfold Dimming. rewrite L10. lra.
  - exists 1. split; [reflexivity|]. split; [reflexivity|]. unfold Dimming. rewrite L100. lra.
Qed.
