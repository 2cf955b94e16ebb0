(** Proofs: streaks, maps and the basis function. *)
From Coq Require Import Reals Ascii Lia Lra Psatz.
From Verif Require Import Base SatConst_Model SatConst_Spec.
Open Scope R_scope.

Lemma rsum_app : forall l r, rsum (l ++ r) = rsum l + rsum r.
Proof. induction l as [|x l IH]; intros r; cbn [app]; unfold rsum in *; cbn [fold_right]; [lra|rewrite IH; lra]. Qed.
Lemma set_nth_length : forall {A} (l : list A) i x, length (set_nth l i x) = length l.
Proof. intros A l. induction l as [|h l IH]; intros [|i] x; try reflexivity. cbn [set_nth length]. f_equal. apply IH. Qed.
Lemma set_nth_same : forall {A} (l : list A) i x d, (i < length l)%nat -> nth i (set_nth l i x) d = x.
Proof. intros A l. induction l as [|h l IH]; intros [|i] x d H; cbn [length] in H; try lia; [reflexivity|]. cbn [set_nth nth]. apply IH. lia. Qed.
Lemma set_nth_other : forall {A} (l : list A) i j x d, i <> j -> nth j (set_nth l i x) d = nth j l d.
Proof. intros A l. induction l as [|h l IH]; intros [|i] [|j] x d H; try reflexivity; try contradiction. cbn [set_nth nth]. apply IH. lia. Qed.

(** * Rounding *)
Lemma round_near : forall x, Rabs (IZR (round_even x) - x) <= 1 / 2.
Proof.
  intros x. unfold round_even. cbv zeta. assert (B := base_Int_part x). set (f := Int_part x) in *.
  destruct (Rlt_dec (x - IZR f) (1 / 2)); [unfold Rabs; destruct (Rcase_abs _); lra|]. destruct (Rlt_dec (1 / 2) (x - IZR f)); [rewrite plus_IZR; unfold Rabs; destruct (Rcase_abs _); lra|].
  destruct (Z.even f); rewrite ?plus_IZR; unfold Rabs; destruct (Rcase_abs _); lra.
Qed.
Lemma round_nonneg : forall x, 0 <= x -> (0 <= round_even x)%Z.
Proof.
  intros x X. assert (N := round_near x). unfold Rabs in N. assert (Y : -1 < IZR (round_even x)) by (destruct (Rcase_abs _); lra). apply (lt_IZR (-1)) in Y. lia.
Qed.
Lemma round_unique : forall x z, - (1 / 2) < IZR z - x < 1 / 2 -> round_even x = z.
Proof.
  intros x z H. assert (N := round_near x). unfold Rabs in N.
  assert (A : -1 < IZR (round_even x) - IZR z < 1) by (destruct (Rcase_abs _); lra). rewrite <- minus_IZR in A. destruct A as [A1 A2]. apply (lt_IZR (-1)) in A1. apply (lt_IZR _ 1) in A2. lia.
Qed.
Lemma day_ratio : forall t dt, dt <> 0 -> day t / day dt = t / dt.
Proof. intros t dt D. unfold day. field. exact D. Qed.

Section Watch.
  Context {sat : Type} (sunlit : sat -> R -> bool) (radec : sat -> R -> R * R) (altitude : sat -> R -> R).
  Context (proj : R -> R -> R -> R -> R * R) (line_distance : R * R -> R * R -> R * R -> R) (within : list (R * R) -> R -> R).
  Notation cand := (candidate sunlit radec altitude line_distance).
  Notation one := (one_length radec proj within).
  Notation lp := (loop radec proj within).
  Notation check := (check_pointings sunlit radec altitude proj line_distance within).

  Lemma candidate_close : forall c test s p, cand c test s p = close_by sunlit radec altitude line_distance (alt_limit_rad c) test s p.
  Proof. reflexivity. Qed.
  Lemma one_streak : forall fov dt s p len, one fov dt s p = Ok len ->
    exists num, num = Z.to_nat (round_even (day (p_time p) / day dt)) /\ (0 <= round_even (day (p_time p) / day dt))%Z /\ num <> 1%nat /\ len = streak radec proj within fov num s p.
  Proof.
    intros fov dt s p len E. unfold one_length in E. cbv zeta in E. destruct (Z.ltb_spec (round_even (day (p_time p) / day dt)) 0) as [L|L]; [discriminate E|].
    exists (Z.to_nat (round_even (day (p_time p) / day dt))). split; [reflexivity|]. split; [exact L|]. set (num := Z.to_nat (round_even (day (p_time p) / day dt))) in *.
    unfold streak_length in E. rewrite map_map in E. destruct num as [|[|k]].
    - cbn [linspace seq map] in E. injection E as <-. split; [discriminate|reflexivity].
    - cbn [linspace map] in E. discriminate E.
    - split; [discriminate|]. unfold linspace in E. rewrite map_map in E. cbn [seq map] in E. injection E as <-. unfold streak, finish, fraction. cbn [seq map]. unfold radians, day.
      f_equal.
  Qed.
  Lemma one_ok : forall fov dt s p, (0 <= round_even (day (p_time p) / day dt))%Z -> Z.to_nat (round_even (day (p_time p) / day dt)) <> 1%nat -> exists len, one fov dt s p = Ok len.
  Proof.
    intros fov dt s p L N. unfold one_length. cbv zeta. destruct (Z.ltb_spec (round_even (day (p_time p) / day dt)) 0) as [L'|_]; [lia|]. set (num := Z.to_nat (round_even (day (p_time p) / day dt))) in *.
    unfold streak_length. destruct num as [|[|k]]; [eexists; reflexivity|contradiction|]. unfold linspace. cbn [seq map]. eexists. reflexivity.
  Qed.
  Lemma one_fails : forall fov dt s p, round_even (day (p_time p) / day dt) = 1%Z -> one fov dt s p = Err ValueError.
  Proof. intros fov dt s p E. unfold one_length. cbv zeta. rewrite E. reflexivity. Qed.

  (** what the loop adds *)
  Definition mine (i : nat) (l : list (nat * sat * pointing)) : list (sat * pointing) := map (fun q => let '(_, s, p) := q in (s, p)) (filter (fun q => let '(j, _, _) := q in Nat.eqb j i) l).
  Definition long (fov dt : R) (q : sat * pointing) : R := match one fov dt (fst q) (snd q) with Ok x => if Rlt_dec 0 x then x else 0 | Err _ => 0 end.
  Definition counts (fov dt : R) (q : sat * pointing) : bool := match one fov dt (fst q) (snd q) with Ok x => if Rlt_dec 0 x then true else false | Err _ => false end.
  Lemma loop_adds : forall fov dt l lens ns rl rn, lp fov dt l lens ns = Ok (rl, rn) -> length ns = length lens -> (forall j s p, In (j, s, p) l -> (j < length lens)%nat) ->
    length rl = length lens /\ length rn = length ns /\ (forall j s p, In (j, s, p) l -> exists x, one fov dt s p = Ok x) /\
    forall i, (i < length lens)%nat -> nth i rl 0 = nth i lens 0 + rsum (map (long fov dt) (mine i l)) /\ nth i rn 0%Z = (nth i ns 0 + Z.of_nat (length (filter (counts fov dt) (mine i l))))%Z.
  Proof.
    intros fov dt. induction l as [|[[j s] p] l IH]; intros lens ns rl rn E LN HI.
    - cbn [loop] in E. injection E as <- <-. split; [reflexivity|]. split; [reflexivity|]. split; [intros j s p []|]. intros i _. cbn. split; [unfold rsum; cbn; lra|lia].
    - cbn [loop] in E. destruct (one fov dt s p) as [x|] eqn:O; [|discriminate E]. cbn [bind] in E. assert (J := HI j s p (or_introl eq_refl)).
      assert (HI' : forall j' s' p', In (j', s', p') l -> (j' < length lens)%nat) by (intros; eapply HI; right; eassumption).
      assert (LG : long fov dt (s, p) = if Rlt_dec 0 x then x else 0) by (unfold long; cbn [fst snd]; rewrite O; reflexivity).
      assert (CG : counts fov dt (s, p) = if Rlt_dec 0 x then true else false) by (unfold counts; cbn [fst snd]; rewrite O; reflexivity).
      destruct (Rlt_dec 0 x) as [P|P].
      + apply IH in E; [|rewrite !set_nth_length; exact LN|intros; rewrite set_nth_length; eapply HI'; eassumption]. rewrite !set_nth_length in E. destruct E as [E1 [E2 [E3 E4]]].
        split; [exact E1|]. split; [exact E2|]. split; [intros j' s' p' [X|X]; [injection X as <- <- <-; exists x; exact O|eapply E3; exact X]|]. intros i I. destruct (E4 i I) as [A B]. rewrite A, B.
        unfold mine. cbn [filter]. destruct (Nat.eqb_spec j i) as [->|D].
        * rewrite !set_nth_same by lia. cbn [map filter]. rewrite LG, CG. destruct (Rlt_dec 0 x); [|contradiction]. unfold rsum in *. cbn [fold_right length]. fold (mine i l). split; [lra|lia].
        * rewrite !set_nth_other by exact D. fold (mine i l). split; reflexivity.
      + apply IH in E; [|exact LN|exact HI']. destruct E as [E1 [E2 [E3 E4]]]. split; [exact E1|]. split; [exact E2|].
        split; [intros j' s' p' [X|X]; [injection X as <- <- <-; exists x; exact O|eapply E3; exact X]|]. intros i I. destruct (E4 i I) as [A B]. rewrite A, B. unfold mine. cbn [filter].
        destruct (Nat.eqb_spec j i) as [->|D].
        * cbn [map filter]. rewrite LG, CG. destruct (Rlt_dec 0 x); [contradiction|]. unfold rsum in *. cbn [fold_right]. fold (mine i l). split; [lra|reflexivity].
        * fold (mine i l). split; reflexivity.
  Qed.
  Lemma loop_ok : forall fov dt l lens ns, (forall j s p, In (j, s, p) l -> exists x, one fov dt s p = Ok x) -> exists r, lp fov dt l lens ns = Ok r.
  Proof.
    intros fov dt. induction l as [|[[j s] p] l IH]; intros lens ns H; [eexists; reflexivity|]. cbn [loop]. destruct (H j s p (or_introl eq_refl)) as [x ->]. cbn [bind].
    destruct (Rlt_dec 0 x); apply IH; intros; eapply H; right; eassumption.
  Qed.
  Lemma loop_err : forall fov dt l lens ns e, lp fov dt l lens ns = Err e -> exists j s p, In (j, s, p) l /\ one fov dt s p = Err e.
  Proof.
    intros fov dt. induction l as [|[[j s] p] l IH]; intros lens ns e E; [discriminate E|]. cbn [loop] in E. destruct (one fov dt s p) as [x|e'] eqn:O.
    - cbn [bind] in E. destruct (Rlt_dec 0 x); apply IH in E; destruct E as [j' [s' [p' [I X]]]]; exists j', s', p'; (split; [right; exact I|exact X]).
    - cbn [bind] in E. injection E as <-. exists j, s, p. split; [left; reflexivity|exact O].
  Qed.
  Lemma one_err : forall fov dt s p e, one fov dt s p = Err e -> e = ValueError.
  Proof.
    intros fov dt s p e E. unfold one_length in E. cbv zeta in E. destruct (_ <? 0)%Z; [injection E as <-; reflexivity|]. unfold streak_length in E.
    destruct (map _ _) as [|a [|b r]]; [discriminate E|injection E as <-; reflexivity|discriminate E].
  Qed.

  (** the pairs of satellites and pointings, and those of one pointing *)
  Definition pairs (sats : list sat) (ps : list pointing) : list (nat * sat * pointing) := flat_map (fun s => map (fun q => (fst q, s, snd q)) (combine (seq 0 (length ps)) ps)) sats.
  Lemma in_pairs : forall sats ps j s p, In (j, s, p) (pairs sats ps) -> In s sats /\ nth_error ps j = Some p.
  Proof.
    intros sats ps j s p I. unfold pairs in I. apply in_flat_map in I. destruct I as [s' [IS I]]. apply in_map_iff in I. destruct I as [[j' p'] [E I]]. cbn [fst snd] in E. injection E as <- <- <-.
    split; [exact IS|]. apply In_nth_error in I. destruct I as [k K].
    assert (X : forall (ps : list pointing) b k j p, nth_error (combine (seq b (length ps)) ps) k = Some (j, p) -> j = (b + k)%nat /\ nth_error ps k = Some p).
    { clear. induction ps as [|x ps IH]; intros b k j p E; [destruct k; discriminate E|]. cbn [length seq combine] in E. destruct k as [|k].
      - cbn in E. injection E as <- <-. split; [lia|reflexivity].
      - cbn [nth_error] in *. destruct (IH _ _ _ _ E) as [-> Q]. split; [lia|exact Q]. }
    destruct (X ps 0%nat k j' p' K) as [-> Q]. exact Q.
  Qed.
  Lemma pairs_in : forall sats ps j s p, In s sats -> nth_error ps j = Some p -> In (j, s, p) (pairs sats ps).
  Proof.
    intros sats ps j s p IS E. unfold pairs. apply in_flat_map. exists s. split; [exact IS|]. apply in_map_iff. exists (j, p). split; [reflexivity|].
    assert (X : forall (ps : list pointing) b k p, nth_error ps k = Some p -> In ((b + k)%nat, p) (combine (seq b (length ps)) ps)).
    { clear. induction ps as [|x ps IH]; intros b k p E; [destruct k; discriminate E|]. cbn [length seq combine]. destruct k as [|k].
      - injection E as <-. left. rewrite Nat.add_0_r. reflexivity.
      - right. replace (b + S k)%nat with (S b + k)%nat by lia. apply IH. exact E. }
    exact (X ps 0%nat j p E).
  Qed.
  Lemma mine_combine : forall (f : nat -> sat -> pointing -> bool) s ps b i, mine i (filter (fun q => let '(j, s, p) := q in f j s p) (map (fun q => (fst q, s, snd q)) (combine (seq b (length ps)) ps))) =
    match nth_error ps (i - b) with Some p => if Nat.leb b i then if f i s p then [(s, p)] else [] else [] | None => [] end.
  Proof.
    intros f s. induction ps as [|x ps IH]; intros b i; [cbn; destruct (i - b)%nat; reflexivity|]. cbn [length seq combine map filter fst snd].
    assert (HD : forall r, mine i ((b, s, x) :: r) = (if Nat.eqb b i then [(s, x)] else []) ++ mine i r) by (intros r; unfold mine; cbn [filter]; destruct (Nat.eqb b i); reflexivity).
    destruct (Nat.eqb_spec b i) as [->|D].
    - rewrite Nat.sub_diag. cbn [nth_error]. rewrite Nat.leb_refl.
      assert (Z : mine i (filter (fun q => let '(j, s, p) := q in f j s p) (map (fun q => (fst q, s, snd q)) (combine (seq (S i) (length ps)) ps))) = []).
      { rewrite IH. destruct (nth_error ps (i - S i)); [|reflexivity]. destruct (Nat.leb_spec (S i) i); [lia|reflexivity]. }
      destruct (f i s x); [rewrite HD, Z; destruct (Nat.eqb_spec i i); [reflexivity|contradiction]|exact Z].
    - transitivity (mine i (filter (fun q => let '(j, s, p) := q in f j s p) (map (fun q => (fst q, s, snd q)) (combine (seq (S b) (length ps)) ps)))).
      + destruct (f b s x); [rewrite HD; destruct (Nat.eqb_spec b i); [contradiction|reflexivity]|reflexivity].
      + rewrite IH. destruct (Nat.leb_spec b i), (Nat.leb_spec (S b) i); try lia.
        * replace (i - b)%nat with (S (i - S b)) by lia. reflexivity.
        * replace (i - S b)%nat with 0%nat by lia. replace (i - b)%nat with 0%nat by lia. destruct ps; reflexivity.
  Qed.
  Lemma mine_pairs : forall (f : sat -> pointing -> bool) sats ps i p, nth_error ps i = Some p ->
    mine i (filter (fun q => let '(_, s, p) := q in f s p) (pairs sats ps)) = map (fun s => (s, p)) (filter (fun s => f s p) sats).
  Proof.
    intros f sats ps i p E. unfold pairs. induction sats as [|s sats IH]; [reflexivity|]. cbn [flat_map]. rewrite filter_app.
    assert (MA : forall a b, mine i (a ++ b) = mine i a ++ mine i b) by (intros a b; unfold mine; rewrite filter_app, map_app; reflexivity). rewrite MA, IH.
    rewrite (mine_combine (fun _ => f) s ps 0 i), Nat.sub_0_r, E. cbn [Nat.leb filter]. destruct (f s p); reflexivity.
  Qed.

  Lemma check_form : forall c ps fov test dt, check c ps fov test dt =
    match sat_list c with
    | [] => Err ValueError
    | _ => do r <- lp fov dt (filter (fun q => let '(_, s, p) := q in cand c test s p) (pairs (sat_list c) ps)) (repeat 0 (length ps)) (repeat 0%Z (length ps));
           Ok (map degrees (fst r), snd r)
    end.
  Proof. intros c ps fov test dt. unfold check_pointings, paths_array, pairs. destruct (sat_list c) as [|x l]; reflexivity. Qed.

  Lemma check_values : forall c ps fov test dt lens ns, check c ps fov test dt = Ok (lens, ns) ->
    length lens = length ps /\ length ns = length ps /\ forall i p, nth_error ps i = Some p ->
      let near := filter (fun s => cand c test s p) (sat_list c) in
      (forall s, In s near -> exists x, one fov dt s p = Ok x) /\
      nth i lens 0 = degrees (rsum (map (fun s => long fov dt (s, p)) near)) /\ nth i ns 0%Z = Z.of_nat (length (filter (fun s => counts fov dt (s, p)) near)).
  Proof.
    intros c ps fov test dt lens ns E. rewrite check_form in E. destruct (sat_list c) as [|s0 l0] eqn:SL; [discriminate E|]. rewrite <- SL in *.
    set (l := filter (fun q => let '(_, s, p) := q in cand c test s p) (pairs (sat_list c) ps)) in *.
    destruct (lp fov dt l (repeat 0 (length ps)) (repeat 0%Z (length ps))) as [[rl rn]|] eqn:L; [|discriminate E]. cbn [bind fst snd] in E. injection E as <- <-.
    apply loop_adds in L; [|rewrite !repeat_length; reflexivity|].
    2:{ intros j s p I. apply filter_In in I. destruct I as [I _]. apply in_pairs in I. rewrite repeat_length. apply nth_error_Some. destruct I as [_ ->]. discriminate. }
    rewrite !repeat_length in L. destruct L as [L1 [L2 [L3 L4]]]. rewrite map_length. split; [exact L1|]. split; [exact L2|]. intros i p P.
    assert (I : (i < length ps)%nat) by (apply nth_error_Some; rewrite P; discriminate). destruct (L4 i I) as [A B]. unfold l in A, B. rewrite (mine_pairs _ _ _ _ p P) in A, B.
    split; [|split].
    - intros s IS. apply filter_In in IS. destruct IS as [IS C]. apply (L3 i s p). unfold l. apply filter_In. split; [apply pairs_in; assumption|exact C].
    - replace 0 with (degrees 0) by (unfold degrees; field; apply PI_neq0). rewrite map_nth. rewrite A, nth_repeat, Rplus_0_l, map_map. reflexivity.
    - rewrite B, nth_repeat. cbn [Z.add]. clear. f_equal. induction (filter (fun s => cand c test s p) (sat_list c)) as [|s l IH]; [reflexivity|]. cbn [map filter]. destruct (counts fov dt (s, p)); cbn [length]; rewrite IH; reflexivity.
  Qed.
End Watch.
