(** C252-C255: streaks. *)
From Coq Require Import Reals Ascii Lia Lra Psatz Sorted.
From Verif Require Import Base SatConst_Model SatConst_Spec SatConst_Proofs2 SatConst_Props SatConst_Proofs3.
Open Scope R_scope.

Section Watch.
  Context {sat : Type} (sunlit : sat -> R -> bool) (radec : sat -> R -> R * R) (altitude : sat -> R -> R).
  Context (proj : R -> R -> R -> R -> R * R) (line_distance : R * R -> R * R -> R * R -> R) (within : list (R * R) -> R -> R).
  Lemma near_spec : forall c test p, filter (fun s => candidate sunlit radec altitude line_distance c test s p) (sat_list c) =
    filter (fun s => close_by sunlit radec altitude line_distance (alt_limit_rad c) test s p) (sat_list c).
  Proof. intros c test p. apply filter_ext. intros s. apply candidate_close. Qed.

  (** ** C252: streaks are counted, and their lengths add up, pointing by pointing *)
Theorem C252_streaks : forall c ps fov test dt lens ns, 0 < dt -> (forall l r, 0 <= within l r) ->
    check_pointings sunlit radec altitude proj line_distance within c ps fov test dt = Ok (lens, ns) ->
    length lens = length ps /\ length ns = length ps /\
    forall i p, nth_error ps i = Some p ->
      let near := filter (fun s => close_by sunlit radec altitude line_distance (alt_limit_rad c) test s p) (sat_list c) in
      (near = [] /\ nth i lens 0 = 0 /\ nth i ns 0%Z = 0%Z) \/
      exists num, Rabs (INR num - p_time p / dt) <= 1 / 2 /\ num <> 1%nat /\
        nth i lens 0 = rsum (map (fun s => streak radec proj within fov num s p) near) * 180 / PI /\
        nth i ns 0%Z = Z.of_nat (length (filter (fun s => if Rlt_dec 0 (streak radec proj within fov num s p) then true else false) near)).
  Proof.
    intros c ps fov test dt lens ns D W E. apply check_values in E. destruct E as [L1 [L2 H]]. split; [exact L1|]. split; [exact L2|]. intros i p P near.
    destruct (H i p P) as [H1 [H2 H3]]. rewrite near_spec in H1, H2, H3. fold near in H1, H2, H3. clearbody near.
    assert (X : near = [] \/ exists s, In s near) by (destruct near as [|s0 nr]; [left; reflexivity|right; exists s0; left; reflexivity]). destruct X as [-> | [s0 I0]].
    - left. split; [reflexivity|]. rewrite H2, H3. split; [unfold degrees, rsum; cbn; field; apply PI_neq0|reflexivity].
    - right. destruct (H1 s0 I0) as [x0 O0]. destruct (one_streak _ _ _ _ _ _ _ _ O0) as [num [EN [PN [NN _]]]]. exists num.
      assert (VAL : forall s, In s near -> long radec proj within fov dt (s, p) = streak radec proj within fov num s p /\
        counts radec proj within fov dt (s, p) = if Rlt_dec 0 (streak radec proj within fov num s p) then true else false).
      { intros s I. destruct (H1 s I) as [x O]. destruct (one_streak _ _ _ _ _ _ _ _ O) as [num' [EN' [_ [_ EX]]]]. rewrite <- EN in EN'. subst num'. unfold long, counts. cbn [fst snd]. rewrite O, EX.
        split; [|reflexivity]. destruct (Rlt_dec 0 (streak radec proj within fov num s p)) as [_|N]; [reflexivity|].
        assert (0 <= streak radec proj within fov num s p) by (unfold streak; destruct num; [lra|apply W]). lra. }
      split; [|split; [exact NN|split]].
      + rewrite EN, INR_IZR_INZ, Z2Nat.id by exact PN. rewrite <- (day_ratio (p_time p) dt) by lra. apply round_near.
      + rewrite H2. unfold degrees. f_equal. f_equal. f_equal. apply map_ext_in. intros s I. apply VAL. exact I.
      + rewrite H3. f_equal. f_equal. apply filter_ext_in. intros s I. apply VAL. exact I.
  Qed.
  (** every pointing on its own *)
Theorem C252_alone : forall c ps fov test dt lens ns i p,
    check_pointings sunlit radec altitude proj line_distance within c ps fov test dt = Ok (lens, ns) -> nth_error ps i = Some p ->
    check_pointings sunlit radec altitude proj line_distance within c [p] fov test dt = Ok ([nth i lens 0], [nth i ns 0%Z]).
  Proof.
    intros c ps fov test dt lens ns i p E P.
    assert (NE : sat_list c <> []) by (intros X; rewrite check_form, X in E; discriminate E).
    apply check_values in E. destruct E as [_ [_ H]]. destruct (H i p P) as [H1 [H2 H3]].
    assert (R1 : exists r, check_pointings sunlit radec altitude proj line_distance within c [p] fov test dt = Ok r).
    { rewrite check_form. destruct (sat_list c) as [|x l] eqn:SL; [contradiction|]. rewrite <- SL in *.
      destruct (loop_ok radec proj within fov dt (filter (fun q => let '(_, s, p) := q in candidate sunlit radec altitude line_distance c test s p) (pairs (sat_list c) [p])) (repeat 0 (length [p])) (repeat 0%Z (length [p]))) as [r R1].
      - intros j s q I. apply filter_In in I. destruct I as [I C]. apply in_pairs in I. destruct I as [IS J]. destruct j as [|j]; [|destruct j; discriminate J]. injection J as <-. apply H1. apply filter_In. split; assumption.
      - rewrite R1. cbn [bind]. eexists. reflexivity. }
    destruct R1 as [[l1 n1] R1]. rewrite R1. apply check_values in R1. destruct R1 as [L1 [L2 G]]. destruct (G 0%nat p eq_refl) as [_ [G2 G3]]. rewrite H2, H3, <- G2, <- G3.
    destruct l1 as [|a [|]]; try discriminate L1. destruct n1 as [|b [|]]; try discriminate L2. reflexivity.
  Qed.

  (** ** C253: check_pointings succeeds *)
Theorem C253_succeeds_partial : forall c ps fov test dt, sat_list c <> [] -> 0 < dt -> (forall p, In p ps -> 3 / 2 * dt < p_time p) ->
    exists r, check_pointings sunlit radec altitude proj line_distance within c ps fov test dt = Ok r.
  Proof.
    intros c ps fov test dt NE D H. rewrite check_form. destruct (sat_list c) as [|x l] eqn:SL; [contradiction|]. rewrite <- SL in *.
    destruct (loop_ok radec proj within fov dt (filter (fun q => let '(_, s, p) := q in candidate sunlit radec altitude line_distance c test s p) (pairs (sat_list c) ps)) (repeat 0 (length ps)) (repeat 0%Z (length ps))) as [r R1].
    - intros j s p I. apply filter_In in I. destruct I as [I _]. apply in_pairs in I. destruct I as [_ J]. apply nth_error_In in J. specialize (H p J).
      assert (Q : 3 / 2 < p_time p / dt) by (apply (Rmult_lt_reg_r dt); [exact D|]; replace (p_time p / dt * dt) with (p_time p) by (field; lra); lra).
      assert (R2 : (2 <= round_even (day (p_time p) / day dt))%Z).
      { rewrite day_ratio by lra. assert (N := round_near (p_time p / dt)). unfold Rabs in N. assert (1 < IZR (round_even (p_time p / dt))) by (destruct (Rcase_abs _); lra). apply (lt_IZR 1) in H0. lia. }
      apply one_ok; lia.
    - rewrite R1. cbn [bind]. eexists. reflexivity.
  Qed.
  (** visits of about one step raise if a satellite is near; shorter ones never have streaks; a constellation without satellites raises *)
Theorem C253_single_refuted : forall c p fov test dt s, 0 < dt -> 1 / 2 < p_time p / dt < 3 / 2 -> In s (sat_list c) ->
    close_by sunlit radec altitude line_distance (alt_limit_rad c) test s p = true ->
    check_pointings sunlit radec altitude proj line_distance within c [p] fov test dt = Err ValueError.
  Proof.
    intros c p fov test dt s D T I C. rewrite check_form. destruct (sat_list c) as [|x l] eqn:SL; [reflexivity|]. rewrite <- SL in *.
    assert (R1 : round_even (day (p_time p) / day dt) = 1%Z) by (rewrite day_ratio by lra; apply round_unique; lra).
    destruct (loop radec proj within fov dt (filter (fun q => let '(_, s, p) := q in candidate sunlit radec altitude line_distance c test s p) (pairs (sat_list c) [p])) (repeat 0 (length [p])) (repeat 0%Z (length [p]))) as [[rl rn]|e] eqn:L.
    - exfalso. apply loop_adds in L; [|reflexivity|].
      + destruct L as [_ [_ [L _]]]. destruct (L 0%nat s p) as [x1 O]; [|rewrite one_fails in O by exact R1; discriminate O].
        apply filter_In. split; [apply pairs_in; [exact I|reflexivity]|exact C].
      + intros j s' q J. apply filter_In in J. destruct J as [J _]. apply in_pairs in J. destruct J as [_ J]. destruct j as [|j]; [cbn; lia|destruct j; discriminate J].
    - cbn [bind]. apply loop_err in L. destruct L as [j [s' [q [_ O]]]]. apply one_err in O. rewrite O. reflexivity.
  Qed.
Theorem C253_short_refuted : forall c p fov test dt, sat_list c <> [] -> 0 < dt -> 0 <= p_time p / dt < 1 / 2 ->
    check_pointings sunlit radec altitude proj line_distance within c [p] fov test dt = Ok ([0], [0%Z]).
  Proof.
    intros c p fov test dt NE D T. assert (R1 : round_even (day (p_time p) / day dt) = 0%Z) by (rewrite day_ratio by lra; apply round_unique; lra).
    assert (O : forall s, one_length radec proj within fov dt s p = Ok 0) by (intros s; unfold one_length; cbv zeta; rewrite R1; reflexivity).
    rewrite check_form. destruct (sat_list c) as [|x l] eqn:SL; [contradiction|]. rewrite <- SL in *. cbn [length repeat].
    set (q := filter (fun q => let '(_, s, p) := q in candidate sunlit radec altitude line_distance c test s p) (pairs (sat_list c) [p])).
    assert (Q : forall j s r, In (j, s, r) q -> r = p).
    { intros j s r I. apply filter_In in I. destruct I as [I _]. apply in_pairs in I. destruct I as [_ J]. destruct j as [|j]; [injection J as <-; reflexivity|destruct j; discriminate J]. }
    clearbody q. assert (L : loop radec proj within fov dt q [0] [0%Z] = Ok ([0], [0%Z])).
    { induction q as [|[[j s] r] q IH]; [reflexivity|]. cbn [loop]. rewrite (Q j s r (or_introl eq_refl)), O. cbn [bind]. destruct (Rlt_dec 0 0); [lra|]. apply IH. intros j' s' r' I. eapply Q. right. exact I. }
    rewrite L. cbn [bind fst snd map]. unfold degrees. replace (0 * 180 / PI) with 0 by (field; apply PI_neq0). reflexivity.
  Qed.
Theorem C253_empty_refuted : forall c ps fov test dt, sat_list c = [] -> check_pointings sunlit radec altitude proj line_distance within c ps fov test dt = Err ValueError.
  Proof. intros c ps fov test dt E. rewrite check_form, E. reflexivity. Qed.

  (** ** C254: streaks are of satellites that are up and lit *)
Theorem C254_seen_partial : forall c ps fov test dt lens ns i p, check_pointings sunlit radec altitude proj line_distance within c ps fov test dt = Ok (lens, ns) ->
    nth_error ps i = Some p ->
    (forall s, In s (sat_list c) -> sunlit s (p_mjd p) = sunlit s (finish p) /\ (alt_limit_rad c < altitude s (p_mjd p) <-> alt_limit_rad c < altitude s (finish p))) ->
    (0 < nth i ns 0)%Z -> exists s, In s (sat_list c) /\ seen_at sunlit altitude (alt_limit_rad c) s (p_mjd p) /\ seen_at sunlit altitude (alt_limit_rad c) s (finish p).
  Proof.
    intros c ps fov test dt lens ns i p E P ST N. apply check_values in E. destruct E as [_ [_ H]]. destruct (H i p P) as [_ [_ H3]]. rewrite H3 in N. rewrite near_spec in N.
    destruct (filter (fun s => counts radec proj within fov dt (s, p)) (filter (fun s => close_by sunlit radec altitude line_distance (alt_limit_rad c) test s p) (sat_list c))) as [|s l] eqn:F; [cbn in N; lia|].
    assert (I : In s (s :: l)) by (left; reflexivity). rewrite <- F in I. apply filter_In in I. destruct I as [I _]. apply filter_In in I. destruct I as [I C]. exists s. split; [exact I|].
    destruct (ST s I) as [S1 S2]. unfold close_by in C. apply andb_prop in C. destruct C as [C _]. apply andb_prop in C. destruct C as [C1 C2]. rewrite <- S1, orb_diag in C2.
    assert (A : alt_limit_rad c < altitude s (p_mjd p)).
    { destruct (Rlt_dec (alt_limit_rad c) (altitude s (p_mjd p))) as [L|_]; [exact L|]. destruct (Rlt_dec (alt_limit_rad c) (altitude s (finish p))) as [L|_]; [apply S2; exact L|discriminate C1]. }
    split; split; [exact A|exact C2|apply S2; exact A|rewrite <- S1; exact C2].
  Qed.

  (** ** C255: satellites that can be seen; the field of view *)
Theorem C255_visible : forall c t, StronglySorted lt (visible sunlit altitude c t) /\
    forall i, In i (visible sunlit altitude c t) <-> exists s, nth_error (sat_list c) i = Some s /\ sunlit s t = true /\ alt_limit_rad c <= altitude s t.
  Proof.
    clear radec proj line_distance within. intros c t. unfold visible. generalize (sat_list c). intros l.
    set (f := fun q : nat * (option R * bool) => (let '(_, (alt, ill)) := q in match alt with None => false | Some a => if Rle_dec (alt_limit_rad c) a then true else false end && ill)%bool).
    set (g := fun s => let ill := sunlit s t in ((if ill then Some (altitude s t) else None), ill)).
    assert (X : forall l b, StronglySorted lt (map fst (filter f (combine (seq b (length l)) (map g l)))) /\
      (forall i, In i (map fst (filter f (combine (seq b (length l)) (map g l)))) <-> (b <= i)%nat /\ exists s, nth_error l (i - b) = Some s /\ sunlit s t = true /\ alt_limit_rad c <= altitude s t)).
    { clear l. induction l as [|s l IH]; intros b.
      - split; [constructor|]. intros i. cbn. split; [intros []|intros [_ [s [E _]]]; destruct (i - b)%nat; discriminate E].
      - cbn [length seq map combine filter]. destruct (IH (S b)) as [IH1 IH2].
        assert (F : f (b, g s) = true <-> sunlit s t = true /\ alt_limit_rad c <= altitude s t).
        { unfold f, g. destruct (sunlit s t); [|split; [discriminate|intros [Y _]; discriminate Y]]. destruct (Rle_dec (alt_limit_rad c) (altitude s t)); split; try discriminate; try tauto. }
        assert (TAIL : forall i, (b <= i)%nat /\ (exists s', nth_error (s :: l) (i - b) = Some s' /\ sunlit s' t = true /\ alt_limit_rad c <= altitude s' t) <->
          (i = b /\ sunlit s t = true /\ alt_limit_rad c <= altitude s t) \/ (S b <= i)%nat /\ (exists s', nth_error l (i - S b) = Some s' /\ sunlit s' t = true /\ alt_limit_rad c <= altitude s' t)).
        { intros i. split.
          - intros [L [s' [E Q]]]. destruct (Nat.eq_dec i b) as [->|D]; [left; rewrite Nat.sub_diag in E; injection E as <-; split; [reflexivity|exact Q]|].
            right. split; [lia|]. exists s'. replace (i - b)%nat with (S (i - S b)) in E by lia. split; [exact E|exact Q].
          - intros [[-> Q]|[L [s' [E Q]]]]; [split; [lia|]; exists s; rewrite Nat.sub_diag; split; [reflexivity|exact Q]|].
            split; [lia|]. exists s'. replace (i - b)%nat with (S (i - S b)) by lia. split; [exact E|exact Q]. }
        destruct (f (b, g s)) eqn:FB.
        + cbn [map fst]. split.
          * constructor; [exact IH1|]. apply Forall_forall. intros i I. apply IH2 in I. lia.
          * intros i. rewrite TAIL. cbn [In]. rewrite IH2. assert (FT := proj1 F eq_refl). intuition.
        + split; [exact IH1|]. intros i. rewrite IH2, TAIL. assert (FF : ~ (sunlit s t = true /\ alt_limit_rad c <= altitude s t)) by (intros Y; apply F in Y; discriminate Y). tauto. }
    destruct (X l 0%nat) as [X1 X2]. split; [exact X1|]. intros i. rewrite X2, Nat.sub_0_r. intuition lia.
  Qed.
  (** the field of view that a constellation is made with has no effect on its streaks *)
Theorem C255_fov_refuted : forall earth_satellite tles alt_limit fov fov' (c c' : constellation) ps radius test dt,
    new_constellation earth_satellite tles alt_limit fov = Ok c -> new_constellation earth_satellite tles alt_limit fov' = Ok c' ->
    check_pointings sunlit radec altitude proj line_distance within c ps radius test dt = check_pointings sunlit radec altitude proj line_distance within c' ps radius test dt.
  Proof.
    intros es tles al fov fov' c c' ps radius test dt E E'. unfold new_constellation in *. destruct (load_sats es tles) as [l|]; [|discriminate E]. cbn [bind] in *. injection E as <-. injection E' as <-. reflexivity.
  Qed.
  (** a constellation has the satellites of its TLEs *)
Theorem C255_loads : forall (earth_satellite : text -> text -> text -> result sat) rounded random alts incs planes sats epoch name alt_limit fov,
    (forall l1 l2 nm, tle_line l1 -> tle_line l2 -> exists s, earth_satellite l1 l2 nm = Ok s) ->
    rounds rounded -> (forall i, 0 <= random i < 1) -> ~ In (ascii_of_nat 10) name -> 0 <= epoch <= 99999 -> (forall a, In a alts -> 0 <= a) -> (forall x, In x incs -> 0 <= x <= 360) ->
    let tles := create_constellation rounded random alts incs planes sats epoch name in
    (Z.of_nat (length tles) <= 92000)%Z ->
    exists c, new_constellation earth_satellite tles alt_limit fov = Ok c /\ length (sat_list c) = length tles.
  Proof.
    intros es rounded random alts incs planes sats epoch name al fov ES RD R0 NN EP AL IC tles LE.
    assert (H : forall t, In t tles -> exists nm l1 l2, split_lines t = [nm; l1; l2] /\ tle_line l1 /\ tle_line l2).
    { intros t I. apply In_nth_error in I. destruct I as [i I]. destruct (C248_constellation_partial rounded random alts incs planes sats epoch name RD R0 NN EP AL IC LE i t I) as [nm [l1 [l2 [S1 [T1 [T2 _]]]]]].
      exists nm, l1, l2. split; [exact S1|]. split; assumption. }
    clearbody tles. clear LE. unfold new_constellation.
    assert (X : exists l, load_sats es tles = Ok l /\ length l = length tles).
    { induction tles as [|t tles IH]; [exists []; split; reflexivity|]. destruct IH as [l [EL LL]]; [intros t' I; apply H; right; exact I|].
      destruct (H t (or_introl eq_refl)) as [nm [l1 [l2 [S1 [T1 T2]]]]]. destruct (ES l1 l2 nm T1 T2) as [s E]. exists (s :: l). cbn [load_sats]. rewrite S1, E. cbn [bind]. rewrite EL. cbn [bind length]. split; [reflexivity|lia]. }
    destruct X as [l [-> LL]]. cbn [bind]. eexists. split; [reflexivity|exact LL].
  Qed.
End Watch.
Print Assumptions C252_streaks.
Print Assumptions C252_alone.
Print Assumptions C253_succeeds_partial.
Print Assumptions C253_single_refuted.
Print Assumptions C253_short_refuted.
Print Assumptions C253_empty_refuted.
Print Assumptions C254_seen_partial.
Print Assumptions C255_visible.
Print Assumptions C255_fov_refuted.
Print Assumptions C255_loads.

(** a satellite that is up in the dark, and lit when it has set *)
Definition dusk (_ : unit) (t : R) : bool := if Rle_dec t (1 / 2) then false else true.
Definition setting (_ : unit) (t : R) : R := if Rle_dec t (1 / 2) then 1 else -1.
Definition one_sat : constellation := {| sat_list := [tt]; alt_limit_rad := radians 20; fov_radius_rad := radians 1.75 |}.
Definition a_day : pointing := {| p_ra := 0; p_dec := 0; p_mjd := 0; p_time := 86400 |}.
Lemma one_counted : forall sunlit altitude, close_by sunlit (fun _ _ => (0, 0)) altitude (fun _ _ _ => 0) (radians 20) 10 tt a_day = true ->
  check_pointings sunlit (fun _ _ => (0, 0)) altitude (fun _ _ _ _ => (0, 0)) (fun _ _ _ => 0) (fun _ _ => 1) one_sat [a_day] 1.75 10 28800 = Ok ([1 * 180 / PI], [1%Z]).
Proof.
  intros sunlit altitude C. assert (P0 := PI_RGT_0).
  destruct (C253_succeeds_partial sunlit (fun _ _ => (0, 0)) altitude (fun _ _ _ _ => (0, 0)) (fun _ _ _ => 0) (fun _ _ => 1) one_sat [a_day] 1.75 10 28800) as [[lens ns] E]; [discriminate|lra| |].
  - intros p [<-|[]]. cbn [p_time a_day]. lra.
  - rewrite E. apply C252_streaks in E; [|lra|intros; lra]. destruct E as [LL [LN E]]. destruct (E 0%nat a_day eq_refl) as [[N _]|[num [NU [_ [E1 E2]]]]].
    + cbn [sat_list one_sat filter alt_limit_rad] in N. rewrite C in N. discriminate N.
    + cbn [sat_list one_sat filter alt_limit_rad] in E1, E2. rewrite C in E1, E2.
      assert (NN : num <> O).
      { intros ->. cbn [INR p_time a_day] in NU. unfold Rabs in NU. destruct (Rcase_abs _); lra. }
      assert (SK : streak (fun (_ : unit) (_ : R) => (0, 0)) (fun _ _ _ _ => (0, 0)) (fun _ _ => 1) 1.75 num tt a_day = 1) by (unfold streak; destruct num; [contradiction|reflexivity]).
      cbn [map filter] in E1, E2. rewrite SK in E1, E2. destruct (Rlt_dec 0 1) as [_|N]; [|lra]. destruct lens as [|x [|]]; try discriminate LL. destruct ns as [|y [|]]; try discriminate LN.
      cbn [nth] in E1, E2. cbn [length Z.of_nat Pos.of_succ_nat] in E2. rewrite E2. do 2 f_equal. f_equal. rewrite E1. unfold rsum. cbn [fold_right]. rewrite Rplus_0_r. reflexivity.
Qed.
Theorem C254_never_seen_refuted : exists lens,
  check_pointings dusk (fun _ _ => (0, 0)) setting (fun _ _ _ _ => (0, 0)) (fun _ _ _ => 0) (fun _ _ => 1) one_sat [a_day] 1.75 10 28800 = Ok (lens, [1%Z]) /\
  forall t, ~ seen_at dusk setting (alt_limit_rad one_sat) tt t.
Proof.
  assert (P4 := PI_4). assert (P0 := PI_RGT_0). assert (L1 : radians 20 < 1) by (unfold radians; lra). assert (L0 : 0 < radians 20) by (unfold radians; lra).
  exists [1 * 180 / PI]. split.
  - apply one_counted. unfold close_by, finish, fraction, dusk, setting, a_day. cbn [p_mjd p_time p_ra p_dec].
    destruct (Rle_dec 0 (1 / 2)) as [_|N]; [|lra]. destruct (Rle_dec (0 + 86400 / 3600 / 24) (1 / 2)) as [N|_]; [lra|]. destruct (Rlt_dec (radians 20) 1) as [_|N]; [|lra]. destruct (Rlt_dec 0 (10 * PI / 180)) as [_|N]; [|lra]. reflexivity.
  - intros t [A S]. unfold dusk, setting in *. cbn [alt_limit_rad one_sat] in A. destruct (Rle_dec t (1 / 2)); [discriminate S|lra].
Qed.
Print Assumptions C254_never_seen_refuted.
Example C252_case : exists lens, check_pointings dusk (fun _ _ => (0, 0)) setting (fun _ _ _ _ => (0, 0)) (fun _ _ _ => 0) (fun _ _ => 1) one_sat [a_day] 1.75 10 28800 = Ok (lens, [1%Z]).
Proof. destruct C254_never_seen_refuted as [lens [E _]]. exists lens. exact E. Qed.
Example C253_case : forall p, In p [a_day] -> 3 / 2 * 28800 < p_time p. Proof. intros p [<-|[]]. cbn. lra. Qed.
Example C254_case : exists lens, check_pointings (fun _ _ => true) (fun _ _ => (0, 0)) (fun _ _ => 1) (fun _ _ _ _ => (0, 0)) (fun _ _ _ => 0) (fun _ _ => 1) one_sat [a_day] 1.75 10 28800 = Ok (lens, [1%Z]).
Proof.
  assert (P4 := PI_4). assert (P0 := PI_RGT_0). exists [1 * 180 / PI]. apply one_counted. unfold close_by. destruct (Rlt_dec (radians 20) 1) as [_|N]; [|unfold radians in N; lra]. destruct (Rlt_dec 0 (10 * PI / 180)) as [_|N]; [|lra]. reflexivity.
Qed.
Example C255_case : In 0%nat (visible (fun _ _ => true) (fun _ _ => 1) one_sat 0).
Proof. apply (proj2 (C255_visible (fun _ _ => true) (fun _ _ => 1) one_sat 0)). exists tt. split; [reflexivity|]. split; [reflexivity|]. cbn [alt_limit_rad one_sat]. unfold radians. assert (P4 := PI_4). lra. Qed.
