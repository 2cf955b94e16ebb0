(** Proofs about segments, continued: the tiling. *)
From Verif Require Import Base ChebySeg_Model ChebySeg_Spec ChebySeg_Proofs.
From Coq Require Import Lia.
Open Scope Z_scope.

Lemma round_even_exact q g : 0 < g -> round_even (q * g) g = q.
Proof.
  intros H. unfold round_even. rewrite Z.div_mul, Z.mod_mul by lia. cbv zeta.
  replace (2 * 0 <? g) with true by (symmetry; apply Z.ltb_lt; lia). reflexivity.
Qed.
Section Tiling.
  Variables (z : sizes) (fit : list Z -> verdict) (choose : Z -> Z -> result Z) (P : Z -> Prop).
  Hypothesis Hg : (1 <= ngran z)%nat.
  Hypothesis Hc : forall t s l, P s -> choose t s = Ok l -> 0 < l /\ (l | s) /\ P l.
  Hypothesis He : forall t s e, choose t s = Err e -> e <> ValueError.
  Lemma tiles depth : forall t0 span len l, 0 <= span -> 0 < len -> (len | span) -> P len ->
    calc_segments depth z fit choose t0 span len = Ok l -> chain (t0 * unit_ z) l ((t0 + span) * unit_ z).
  Proof.
    induction depth as [|d IH]; intros t0 span len l Hs Hl D HP H; [discriminate|].
    cbn [calc_segments] in H. assert (U : 0 < unit_ z) by (unfold unit_; lia).
    set (N := Z.to_nat (- (- (span * unit_ z + 2 * len) / (4 * len)))).
    set (f := fun i : nat => t0 * unit_ z + Z.of_nat i * (4 * len)).
    assert (E0 : f 0%nat = t0 * unit_ z) by (unfold f; cbn; ring).
    pose proof (f_end_exact z t0 span len Hg Hs Hl D) as EN. change (f (N - 1)%nat = (t0 + span) * unit_ z) in EN.
    rewrite <- EN, <- E0. replace 0%nat with (Nat.min (ngran z * 0) (N - 1)) at 1 by lia.
    replace t0 with (t0 + Z.of_nat 0 * len) in H at 2 by (cbn; ring).
    refine (loop_chain z t0 span len Hg Hs Hl _ _ (S (Z.to_nat span)) 0%nat l _ H); [|lia].
    clear l H. intros j l HJ E H. change (fun i : nat => t0 * unit_ z + Z.of_nat i * (4 * len)) with f in H |- *.
    assert (X := exact_count z t0 span len Hg Hs Hl j D E). change (ngran z * (j + 1) <= N - 1)%nat in X.
    change (Z.to_nat (- (- (span * unit_ z + 2 * len) / (4 * len)))) with N.
    assert (C : count z span len j = S (ngran z)) by (unfold count; fold N; lia). rewrite C in H.
    rewrite Nat.min_l by lia. change (chain (f (ngran z * j)%nat) l (f (ngran z * (j + 1))%nat)). cbn [seq map] in H. cbv beta iota zeta in H.
    set (rest := map f (seq (S (ngran z * j)) (ngran z))) in H.
    assert (L : last (f (ngran z * j)%nat :: rest) (f (ngran z * j)%nat) = f (ngran z * (j + 1))%nat).
    { change (f (ngran z * j)%nat :: rest) with (map f (seq (ngran z * j) (S (ngran z)))). rewrite last_map_seq by lia. f_equal. lia. }
    rewrite L in H.
    assert (F1 : f (ngran z * j)%nat = (t0 + Z.of_nat j * len) * unit_ z) by apply (f_start z t0 len).
    assert (F2 : f (ngran z * (j + 1))%nat = (t0 + Z.of_nat j * len + len) * unit_ z).
    { unfold f. rewrite (f_start z t0 len). rewrite Nat2Z.inj_add. cbn [Z.of_nat Pos.of_succ_nat]. ring. }
    destruct (negb (fits_positions z _)); [discriminate|].
    assert (Lt : f (ngran z * j)%nat < f (ngran z * (j + 1))%nat) by (rewrite F1, F2; pose proof (Z.mul_pos_pos len (unit_ z) Hl U); lia).
    destruct (fit _) eqn:EF.
    - rewrite F1, F2 in H.
      replace ((t0 + Z.of_nat j * len + len) * unit_ z - (t0 + Z.of_nat j * len) * unit_ z) with (len * unit_ z) in H by ring.
      rewrite !round_even_exact in H by exact U.
      destruct (choose (t0 + Z.of_nat j * len) len) as [l'|e] eqn:EC.
      + destruct (Hc _ _ _ HP EC) as [A [B C']]. rewrite F1, F2. apply (IH _ _ _ _ (Z.lt_le_incl _ _ Hl) A B C' H).
      + pose proof (He _ _ _ EC) as NE. destruct e; congruence.
    - destruct (negb (fits_others z _)); [discriminate|]. injection H as <-. cbn [chain e_start e_end]. auto.
    - destruct (negb (fits_others z _)); [discriminate|]. injection H as <-. cbn [chain e_start e_end]. auto.
  Qed.
End Tiling.

(** without subdivision the events are consecutive whatever the length, up to the last ephemeris point *)
Lemma tiles_near z fit choose t0 span len l depth : (1 <= ngran z)%nat -> 0 <= span -> 0 < len -> (forall e, fit e <> TooFar) ->
  calc_segments depth z fit choose t0 span len = Ok l ->
  exists b, chain (t0 * unit_ z) l b /\ - (2 * len) <= b - (t0 + span) * unit_ z <= 2 * len.
Proof.
  intros Hg Hs Hl HF H. destruct depth as [|d]; [discriminate|]. cbn [calc_segments] in H.
  set (N := Z.to_nat (- (- (span * unit_ z + 2 * len) / (4 * len)))).
  set (f := fun i : nat => t0 * unit_ z + Z.of_nat i * (4 * len)).
  exists (f (N - 1)%nat). split; [|apply (f_end_near z t0 span len Hg Hs Hl)].
  assert (E0 : f 0%nat = t0 * unit_ z) by (unfold f; cbn; ring).
  rewrite <- E0. replace 0%nat with (Nat.min (ngran z * 0) (N - 1)) at 1 by lia.
  replace t0 with (t0 + Z.of_nat 0 * len) in H at 2 by (cbn; ring).
  refine (loop_chain z t0 span len Hg Hs Hl _ _ (S (Z.to_nat span)) 0%nat l _ H); [|lia].
  clear l H. intros j l HJ E H. change (fun i : nat => t0 * unit_ z + Z.of_nat i * (4 * len)) with f in H |- *.
  change (Z.to_nat (- (- (span * unit_ z + 2 * len) / (4 * len)))) with N. change (ngran z * j < N)%nat in HJ.
  pose proof (count_last z span len Hg j HJ) as CL. pose proof (count_pos z span len Hg j HJ) as CP.
  fold N in CL. rewrite <- CL. set (c := count z span len j) in *.
  change (chain (f (ngran z * j)%nat) l (f (ngran z * j + c - 1)%nat)).
  destruct c as [|c]; [lia|]. cbn [seq map] in H. cbv beta iota zeta in H.
  set (rest := map f (seq (S (ngran z * j)) c)) in H.
  assert (L : last (f (ngran z * j)%nat :: rest) (f (ngran z * j)%nat) = f (ngran z * j + S c - 1)%nat).
  { change (f (ngran z * j)%nat :: rest) with (map f (seq (ngran z * j) (S c))). apply last_map_seq. lia. }
  rewrite L in H. assert (LEN : length (f (ngran z * j)%nat :: rest) = S c) by (unfold rest; cbn [length]; rewrite map_length, seq_length; reflexivity).
  rewrite LEN in H. destruct (negb (fits_positions z _)); [discriminate|].
  assert (C2 : negb (fits_others z (S c)) = false -> (1 <= c)%nat).
  { unfold fits_others. cbn [forallb]. rewrite negb_false_iff, !andb_true_iff, !Nat.leb_le. lia. }
  assert (Lt : (1 <= c)%nat -> f (ngran z * j)%nat < f (ngran z * j + S c - 1)%nat) by (intros Q; unfold f; nia).
  destruct (fit _) eqn:EF; [destruct (HF _ EF)| |];
    (destruct (negb (fits_others z _)) eqn:EO; [discriminate|]; injection H as <-; cbn [chain e_start e_end]; auto).
Qed.
Lemma loop_stands fit one : forall fuel z ts s t_end len l,
  (forall ephs r, one ephs = Ok r -> Forall (stands fit) r) ->
  segments_loop fuel z ts s t_end len one = Ok l -> Forall (stands fit) l.
Proof.
  induction fuel as [|f IH]; intros z ts s t_end len l HO H; cbn [segments_loop] in H.
  - injection H as <-. constructor.
  - destruct (_ <? _); [|injection H as <-; constructor].
    destruct (one _) as [e|] eqn:E1; [|discriminate]. cbn [bind] in H.
    destruct (segments_loop f _ _ _ _ _ _) as [r|] eqn:E2; [|discriminate]. cbn [bind] in H. injection H as <-.
    apply Forall_app. split; [apply (HO _ _ E1)|apply (IH _ _ _ _ _ _ HO E2)].
Qed.
Lemma all_stand depth : forall z fit choose t0 span len l, calc_segments depth z fit choose t0 span len = Ok l -> Forall (stands fit) l.
Proof.
  induction depth as [|d IH]; intros z fit choose t0 span len l H; [discriminate|]. cbn [calc_segments] in H.
  apply (loop_stands fit _ _ _ _ _ _ _ _) in H; [exact H|]. clear l H. intros ephs l H.
  destruct ephs as [|first rest]; [discriminate|]. cbv zeta in H. destruct (negb (fits_positions z _)); [discriminate|].
  destruct (fit (first :: rest)) eqn:EF.
  - destruct (choose _ _) as [l'|e]; [apply (IH _ _ _ _ _ _ _ H)|]. destruct e; try discriminate. injection H as <-. constructor.
  - destruct (negb (fits_others z _)); [discriminate|]. injection H as <-. constructor; [|constructor].
    exists first, rest. cbn [e_start e_end e_ok]. auto.
  - destruct (negb (fits_others z _)); [discriminate|]. injection H as <-. constructor; [|constructor].
    exists first, rest. cbn [e_start e_end e_ok]. auto.
Qed.
