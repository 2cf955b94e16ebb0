(** Lemmas about the loop over the new bins. *)
From Verif Require Import Base Astrom_Model Astrom_Proofs Astrom_Proofs2 Resample_Model Resample_Spec Resample_Proofs.
From Coq Require Import Reals List Lia Lra.
Open Scope R_scope.

(** the light between two wavelengths, from the edges of the bins *)
Definition edge_light (e fs : list R) (lo hi : R) : R :=
  rsum (map (fun i => common (nth i e 0) (nth (S i) e 0) lo hi * nth i fs 0) (seq 0 (length fs))).
Definition good_state (e ws : list R) (lo hi : R) (s : rstate) : Prop :=
  (r_start s < length ws)%nat /\ (r_stop s < length ws)%nat /\ r_widths s = ws /\
  (r_start s = 0%nat \/ nth (r_start s) e 0 <= lo) /\ (r_stop s = 0%nat \/ nth (r_stop s) e 0 < hi).

Lemma seq_three st sp n : (st <= sp < n)%nat -> seq 0 n = seq 0 st ++ seq st (S sp - st) ++ seq (S sp) (n - S sp).
Proof.
  intros H. replace n with (st + ((S sp - st) + (n - S sp)))%nat at 1 by lia.
  rewrite !seq_app. rewrite Nat.add_0_l. replace (st + (S sp - st))%nat with (S sp) by lia. reflexivity.
Qed.
Lemma rsum_all0 {A} (f : A -> R) l : (forall x, In x l -> f x = 0) -> rsum (map f l) = 0.
Proof. intros H. rewrite (rsum_ext f (fun _ => 0)) by exact H. unfold rsum. induction l as [|x l IH]; [reflexivity|]. cbn [map fold_right]. rewrite IH; [lra|]. intros; apply H; right; auto. Qed.
Lemma rsum_three (g : nat -> R) st sp n : (st <= sp < n)%nat -> (forall i, (i < st)%nat -> g i = 0) ->
  (forall i, (sp < i < n)%nat -> g i = 0) -> rsum (map g (seq 0 n)) = rsum (map g (seq st (S sp - st))).
Proof.
  intros H H1 H2. rewrite (seq_three st sp n H), !map_app, !rsum_app.
  rewrite (rsum_all0 g (seq 0 st)), (rsum_all0 g (seq (S sp) (n - S sp))); [lra| |].
  - intros x Hx. apply in_seq in Hx. apply H2. lia.
  - intros x Hx. apply in_seq in Hx. apply H1. lia.
Qed.

Lemma one_bin_ok e ws fs fill lo hi s : ascending e -> length e = S (length fs) -> length ws = length fs ->
  (forall i, (i < length fs)%nat -> nth i ws 0 = nth (S i) e 0 - nth i e 0) -> good_state e ws lo hi s ->
  nth 0 e 0 <= lo -> lo < hi -> hi <= nth (length fs) e 0 ->
  exists v s', one_bin e fs fill lo hi s = Ok (Some v, s') /\ v * (hi - lo) = edge_light e fs lo hi /\ good_state e ws lo hi s'.
Proof.
  intros He Le Lw Hw (G1 & G2 & G3 & G4 & G5) H0 Hlt Hn.
  set (n := length fs) in *. rewrite Lw in G1, G2.
  assert (Ln : last e 0 = nth n e 0). { rewrite last_nth, Le. f_equal. lia. }
  assert (Lh : hd 0 e = nth 0 e 0) by (destruct e; reflexivity).
  unfold one_bin. rewrite Lh, Ln.
  rewrite (proj2 (rltb_false lo (nth 0 e 0))) by lra. rewrite (proj2 (rltb_false (nth n e 0) hi)) by lra. cbn [orb].
  destruct (advance_spec (fun x => rleb x lo) e (S n) (r_start s) n ltac:(lia) ltac:(lia)) as (st & A1 & A2 & A3 & A4 & A5).
  { apply rleb_false. lra. }
  destruct (advance_spec (fun x => rltb x hi) e (S n) (r_stop s) n ltac:(lia) ltac:(lia)) as (sp & B1 & B2 & B3 & B4 & B5).
  { apply rltb_false. lra. }
  rewrite A1. cbn [bind]. rewrite B1. cbn [bind].
  apply rleb_false in A4. apply rltb_false in B4.
  assert (St : nth st e 0 <= lo).
  { destruct (Nat.eq_dec st (r_start s)) as [->|N].
    - destruct G4 as [E|E]; [rewrite E; lra|exact E].
    - apply rleb_true. apply A5. lia. }
  assert (Sp : nth sp e 0 < hi).
  { destruct (Nat.eq_dec sp (r_stop s)) as [->|N].
    - destruct G5 as [E|E]; [rewrite E; lra|exact E].
    - apply rltb_true. apply B5. lia. }
  assert (Hle : (st <= sp)%nat).
  { destruct (le_lt_dec st sp) as [L|L]; [exact L|]. pose proof (ascending_le e (S sp) st He ltac:(lia)). lra. }
  assert (Out1 : forall i, (i < st)%nat -> common (nth i e 0) (nth (S i) e 0) lo hi = 0).
  { intros i Hi. apply common_left; [|left; apply He; lia]. pose proof (ascending_le e (S i) st He ltac:(lia)). lra. }
  assert (Out2 : forall i, (sp < i < n)%nat -> common (nth i e 0) (nth (S i) e 0) lo hi = 0).
  { intros i Hi. apply common_right; [|left; apply He; lia]. pose proof (ascending_le e (S sp) i He ltac:(lia)). lra. }
  assert (Lt : edge_light e fs lo hi = rsum (map (fun i => common (nth i e 0) (nth (S i) e 0) lo hi * nth i fs 0) (seq st (S sp - st)))).
  { unfold edge_light. apply rsum_three; [fold n; lia| |].
    - intros i Hi. rewrite Out1 by exact Hi. lra.
    - intros i Hi. rewrite Out2 by exact Hi. lra. }
  assert (Tot : rsum (map (fun i => common (nth i e 0) (nth (S i) e 0) lo hi) (seq st (S sp - st))) = hi - lo).
  { rewrite <- (common_sum e lo hi He) by (rewrite ?Le; simpl; rewrite ?Nat.sub_0_r; auto; lra || lia).
    rewrite Le. simpl. rewrite Nat.sub_0_r. symmetry. apply rsum_three; auto; lia. }
  destruct (Nat.eqb_spec sp st) as [E|E].
  - unfold arr_get. rewrite (nth_error_nth' fs 0) by (fold n; lia). cbn [bind].
    eexists _, _. split; [reflexivity|]. split.
    + rewrite Lt. subst sp. replace (S st - st)%nat with 1%nat by lia. unfold rsum. cbn [seq map fold_right].
      rewrite common_inside by lra. lra.
    + unfold good_state. cbn [r_start r_stop r_widths]. rewrite Lw. repeat split; auto; lia.
  - assert (Hsf : 0 < nth (S st) e 0 - nth st e 0) by (pose proof (He st (S st) ltac:(lia)); lra).
    assert (Hef : 0 < nth (S sp) e 0 - nth sp e 0) by (pose proof (He sp (S sp) ltac:(lia)); lra).
    set (sf := (nth (S st) e 0 - lo) / (nth (S st) e 0 - nth st e 0)).
    set (ef := (hi - nth sp e 0) / (nth (S sp) e 0 - nth sp e 0)).
    assert (Psf : 0 < sf) by (unfold sf; apply Rdiv_lt_0_compat; lra).
    assert (Pef : 0 < ef) by (unfold ef; apply Rdiv_lt_0_compat; lra).
    rewrite G3.
    set (w1 := set_nth ws st (nth st ws 0 * sf)). set (w2 := set_nth w1 sp (nth sp w1 0 * ef)).
    assert (L1 : length w1 = n) by (unfold w1; rewrite set_nth_length'; exact Lw).
    assert (L2 : length w2 = n) by (unfold w2; rewrite set_nth_length'; exact L1).
    assert (N1 : forall i, nth i w1 0 = if Nat.eqb i st then nth st ws 0 * sf else nth i ws 0).
    { intros i. unfold w1. apply nth_set_nth. rewrite Lw. lia. }
    assert (N2 : forall i, nth i w2 0 = if Nat.eqb i sp then nth sp ws 0 * ef else if Nat.eqb i st then nth st ws 0 * sf else nth i ws 0).
    { intros i. unfold w2. rewrite nth_set_nth by (rewrite L1; lia). rewrite !N1.
      destruct (Nat.eqb_spec sp st); [contradiction|]. reflexivity. }
    assert (C2 : forall i, (st <= i <= sp)%nat -> nth i w2 0 = common (nth i e 0) (nth (S i) e 0) lo hi).
    { intros i Hi. rewrite N2. destruct (Nat.eqb_spec i sp) as [->|F1]; [|destruct (Nat.eqb_spec i st) as [->|F2]].
      - rewrite Hw by lia. unfold ef. pose proof (ascending_le e (S st) sp He ltac:(lia)).
        unfold common. rewrite (Rmin_right _ hi), (Rmax_left _ lo), Rmax_right by lra. field. lra.
      - rewrite Hw by lia. unfold sf. pose proof (ascending_le e (S st) sp He ltac:(lia)).
        unfold common. rewrite (Rmin_left _ hi), (Rmax_right _ lo), Rmax_right by lra. field. lra.
      - rewrite Hw by lia. pose proof (ascending_le e (S st) i He ltac:(lia)). pose proof (ascending_le e (S i) sp He ltac:(lia)).
        pose proof (He i (S i) ltac:(lia)). unfold common. rewrite (Rmin_left _ hi), (Rmax_left _ lo), Rmax_right by lra. lra. }
    assert (Sl : slice w2 st (S sp) = map (fun i => common (nth i e 0) (nth (S i) e 0) lo hi) (seq st (S sp - st))).
    { rewrite slice_seq by (rewrite L2; lia). apply map_ext_in. intros i Hi. apply in_seq in Hi. apply C2. lia. }
    assert (Sf : slice fs st (S sp) = map (fun i => nth i fs 0) (seq st (S sp - st))).
    { apply slice_seq. fold n. lia. }
    rewrite Sl, Sf. rewrite combine_map, map_map. cbn [fst snd]. rewrite Tot.
    rewrite <- Lt.
    assert (NE : exists x t, map (fun i => common (nth i e 0) (nth (S i) e 0) lo hi) (seq st (S sp - st)) = x :: t).
    { replace (S sp - st)%nat with (S (sp - st)) by lia. cbn [seq map]. eauto. }
    destruct NE as (x & t & ->).
    eexists _, _. split; [reflexivity|]. split; [field; lra|].
    unfold good_state. cbn [r_start r_stop r_widths]. rewrite Lw. split; [lia|]. split; [lia|]. split; [|split; auto; right; auto].
    apply (nth_ext _ _ 0 0); [rewrite !set_nth_length'; congruence|].
    intros i _. rewrite nth_set_nth by (rewrite set_nth_length', L2; lia). rewrite !nth_set_nth by (rewrite L2; lia). rewrite !N2.
    destruct (Nat.eqb_spec i sp) as [->|F1].
    + destruct (Nat.eqb_spec sp st); [contradiction|]. rewrite Nat.eqb_refl. field. lra.
    + destruct (Nat.eqb_spec i st) as [->|F2].
      * destruct (Nat.eqb_spec st sp); [lia|]. rewrite Nat.eqb_refl. field. lra.
      * reflexivity.
Qed.

Lemma good_later e ws lo hi lo' hi' s : good_state e ws lo hi s -> lo <= lo' -> hi <= hi' -> good_state e ws lo' hi' s.
Proof.
  intros (G1 & G2 & G3 & [G4|G4] & [G5|G5]) H1 H2; unfold good_state; repeat split; auto; solve [left; auto | right; lra].
Qed.

(** what the loop returns for each of the new bins *)
Definition bin_result (e fs : list R) (fill : option R) (lo hi : R) (v : option R) : Prop :=
  (nth 0 e 0 <= lo /\ hi <= nth (length fs) e 0 -> exists x, v = Some x /\ x * (hi - lo) = edge_light e fs lo hi) /\
  (~ (nth 0 e 0 <= lo /\ hi <= nth (length fs) e 0) -> v = fill).
Lemma loop_ok e ws fs fill : ascending e -> length e = S (length fs) -> length ws = length fs ->
  (forall i, (i < length fs)%nat -> nth i ws 0 = nth (S i) e 0 - nth i e 0) ->
  forall ne s, ascending ne -> (forall lo hi t, ne = lo :: hi :: t -> good_state e ws lo hi s) ->
  exists vs, spectres_loop e fs fill ne s = Ok vs /\ length vs = (length ne - 1)%nat /\
    forall j, (S j < length ne)%nat -> bin_result e fs fill (nth j ne 0) (nth (S j) ne 0) (nth j vs None).
Proof.
  intros He Le Lw Hw. induction ne as [|lo [|hi t] IH]; intros s Hne Hs.
  - exists []. split; [reflexivity|]. split; [reflexivity|]. simpl. lia.
  - exists []. split; [reflexivity|]. split; [reflexivity|]. simpl. lia.
  - change (spectres_loop e fs fill (lo :: hi :: t) s) with
      (do vs <- one_bin e fs fill lo hi s; do rest <- spectres_loop e fs fill (hi :: t) (snd vs); Ok (fst vs :: rest)).
    pose proof (Hs lo hi t eq_refl) as G.
    assert (Hlt : lo < hi) by (apply (Hne 0%nat 1%nat); simpl; lia).
    assert (exists v s', one_bin e fs fill lo hi s = Ok (v, s') /\ bin_result e fs fill lo hi v /\ good_state e ws lo hi s') as (v & s' & E & Hv & G').
    { assert (Ln : last e 0 = nth (length fs) e 0). { rewrite last_nth, Le. f_equal. lia. }
      assert (Lh : hd 0 e = nth 0 e 0) by (destruct e; reflexivity).
      destruct (Rle_dec (nth 0 e 0) lo) as [C1|C1]; [destruct (Rle_dec hi (nth (length fs) e 0)) as [C2|C2]|].
      - destruct (one_bin_ok e ws fs fill lo hi s) as (v & s' & A & B & C); auto.
        exists (Some v), s'. split; [exact A|]. split; [|exact C]. split; [intros _; eauto|]. intros N. tauto.
      - exists fill, s. split; [|split; [|exact G]].
        + unfold one_bin. rewrite Ln. rewrite (proj2 (rltb_true (nth (length fs) e 0) hi)) by lra. rewrite orb_true_r. reflexivity.
        + split; [|reflexivity]. intros [_ N]. contradiction.
      - exists fill, s. split; [|split; [|exact G]].
        + unfold one_bin. rewrite Lh. rewrite (proj2 (rltb_true lo (nth 0 e 0))) by lra. reflexivity.
        + split; [|reflexivity]. intros [N _]. contradiction. }
    rewrite E. cbn [bind fst snd].
    destruct (IH s') as (vs & A & B & C).
    + eapply ascending_tail; eauto.
    + intros lo' hi' t' Et. injection Et as <- ->. apply (good_later e ws lo hi); [exact G'|lra|].
      left. apply (Hne 1%nat 2%nat). simpl. lia.
    + rewrite A. cbn [bind]. exists (v :: vs). split; [reflexivity|]. split; [simpl in *; lia|].
      intros [|j] Hj; [exact Hv|]. apply (C j). simpl in *. lia.
Qed.

(** spectres on ascending wavelengths *)
Lemma edge_light_light w f e lo hi : length f = length w ->
  (forall i, (i < length w)%nat -> nth i e 0 = bin_lo w i /\ nth (S i) e 0 = bin_hi w i) -> edge_light e f lo hi = light w f lo hi.
Proof.
  intros Hf He. unfold edge_light, light. rewrite Hf. apply (rsum_ext _ (fun i => common (bin_lo w i) (bin_hi w i) lo hi * nth i f 0)).
  intros i Hi. apply in_seq in Hi. destruct (He i ltac:(lia)) as [-> ->]. reflexivity.
Qed.
Lemma spectres_ok g w f fill : ascending g -> ascending w -> (2 <= length g)%nat -> (2 <= length w)%nat -> length f = length w ->
  exists vs, spectres g w f fill = Ok vs /\ length vs = length g /\
    forall j, (j < length g)%nat ->
      (covered w (bin_lo g j) (bin_hi g j) -> exists x, nth j vs None = Some x /\ x * (bin_hi g j - bin_lo g j) = light w f (bin_lo g j) (bin_hi g j)) /\
      (~ covered w (bin_lo g j) (bin_hi g j) -> nth j vs None = fill).
Proof.
  intros Ag Aw Lg Lw Hf.
  destruct (make_bins_spec w Lw) as (e & ws & Ew & Le & Lws & He & Hws).
  destruct (make_bins_spec g Lg) as (ne & nws & Eg & Lne & Lnws & Hne & _).
  pose proof (edges_ascending w e ws Lw Aw Ew) as Ae. pose proof (edges_ascending g ne nws Lg Ag Eg) as Ane.
  unfold spectres. rewrite Ew. cbn [bind]. rewrite Eg. cbn [bind fst snd].
  destruct (loop_ok e ws f fill Ae ltac:(lia) ltac:(lia) ltac:(rewrite Hf; exact Hws) ne {| r_start := 0; r_stop := 0; r_widths := ws |} Ane) as (vs & A & B & C).
  { intros lo hi t _. unfold good_state. cbn [r_start r_stop r_widths]. repeat split; auto; lia. }
  rewrite A. exists vs. split; [reflexivity|]. split; [lia|].
  intros j Hj. specialize (C j ltac:(lia)). destruct (Hne j Hj) as [E1 E2]. rewrite E1, E2 in C.
  destruct C as [C1 C2]. rewrite (edge_light_light w) in C1 by auto.
  assert (Q : covered w (bin_lo g j) (bin_hi g j) <-> nth 0 e 0 <= bin_lo g j /\ bin_hi g j <= nth (length f) e 0).
  { unfold covered. destruct (He 0%nat ltac:(lia)) as [-> _]. rewrite Hf.
    destruct (He (length w - 1)%nat ltac:(lia)) as [_ <-]. replace (S (length w - 1)) with (length w) by lia. tauto. }
  split; intros H; [apply C1|apply C2]; tauto.
Qed.
