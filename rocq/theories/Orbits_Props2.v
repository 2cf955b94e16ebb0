(** Properties C218-C220: Orbits - spectra, iteration, what happens to the given table. *)
From Coq Require Import Reals Lra Lia.
From Verif Require Import Base Orbits_Model Orbits_Spec Orbits_Proofs Orbits_Proofs2 Orbits_Proofs3 Orbits_Props.
Open Scope R_scope.

Lemma ok_accepted : forall draws o g, u_result (set_orbits draws o g) = Ok tt -> exists f' fmt, accepted (set_orbits draws o g) f' fmt.
Proof.
  intros draws o g A. destruct (set_ok draws o g A) as [_ [fm [f1 [fmt [f2 [k [_ [_ [_ [_ [Q [U _]]]]]]]]]]]].
  apply required_ok in Q. destruct Q as [s [els [-> _]]]. exists f2, s. split; [exact A|]. rewrite U. split; reflexivity.
Qed.
(** * C218: spectra *)
(** the semi-major axis of row i, as the elements give it *)
Inductive semi_major (f : frame) (i : nat) : R -> Prop :=
| sm_a x : holds f "a" i (Num x) -> semi_major f i x
| sm_q q e : ~ In "a"%string (names f) -> holds f "q" i (Num q) -> holds f "e" i (Num e) -> e <> 1 -> semi_major f i (q / (1 - e)).
Lemma sed_row : forall draws o f f' fmt i a x, wf f -> accepted (set_orbits draws o (DataFrame f)) f' fmt -> ~ In "sed_filename"%string (names f) ->
  axes (plain (to_frame (DataFrame f))) = Ok a -> nth_error a i = Some x ->
  forall v, holds f' "sed_filename" i v <-> v = sed_of (draws (o_draws o + i)%nat) x.
Proof.
  intros draws o f f' fmt i a x W A NS AX N v. destruct (stored draws o (DataFrame f) f' fmt (frame_wf f W) A) as [_ [H [_ [_ [_ [_ HD]]]]]].
  assert (B : holds f' "sed_filename" i (sed_of (draws (o_draws o + i)%nat) x)).
  { apply HD. right. split; [exact NS|]. split; [reflexivity|]. exists a, x. auto. }
  split; [|intros ->; exact B]. intros X. exact (holds_fun _ _ _ _ _ (proj1 (proj2 (proj2 H))) X B).
Qed.
Lemma stored_axes : forall draws o f f' fmt, wf f -> accepted (set_orbits draws o (DataFrame f)) f' fmt -> ~ In "sed_filename"%string (names f) ->
  exists a, axes (plain (to_frame (DataFrame f))) = Ok a.
Proof.
  intros draws o f f' fmt W A NS. destruct (stored draws o (DataFrame f) f' fmt (frame_wf f W) A) as [_ [_ [_ [_ [F _]]]]].
  destruct (plain_wf _ (frame_wf f W)) as [WP _]. destruct (fill_sed_ok _ _ _ _ _ WP F) as [_ [_ [_ [_ [_ SA]]]]].
  destruct SA as [_ [a [AX _]]]; [|exists a; exact AX]. rewrite plain_names. intros [X|X]; [apply NS; exact (proj1 X)|]. destruct X as [X|[X|X]]; discriminate.
Qed.
Lemma plain_kept : forall f c i v, wf f -> c <> "FORMAT"%string -> c <> "index"%string -> holds f c i v -> holds (plain (to_frame (DataFrame f))) c i v.
Proof. intros f c i v W A B H. apply plain_holds; [apply frame_wf; exact W|]. left. auto. Qed.
Lemma plain_absent : forall f c, ~ In c (names f) -> c <> "obj_id"%string -> c <> "H"%string -> c <> "g"%string -> ~ In c (names (plain (to_frame (DataFrame f)))).
Proof. intros f c N A B C. rewrite plain_names. intros [X|X]; [exact (N (proj1 X))|tauto]. Qed.
(** Statement: an object without a given spectrum is of type C with probability 0 for a < 2, 0.5 a - 1 for 2 < a < 4, 1 for a > 4, S
    otherwise: C exactly when the uniform random number is at most 0.5 a - 1.  True for Keplerian and cometary elements. *)
Theorem C218_probability_partial : forall draws o f f' fmt i x, wf f -> accepted (set_orbits draws o (DataFrame f)) f' fmt ->
  ~ In "sed_filename"%string (names f) -> semi_major f i x ->
  let chance := draws (o_draws o + i)%nat in
  (holds f' "sed_filename" i (Txt "C.dat") <-> chance <= 0.5 * x - 1) /\ (holds f' "sed_filename" i (Txt "S.dat") <-> 0.5 * x - 1 < chance) /\
  (0 <= chance < 1 -> x < 2 -> holds f' "sed_filename" i (Txt "S.dat")) /\ (0 <= chance < 1 -> 4 <= x -> holds f' "sed_filename" i (Txt "C.dat")).
Proof.
  intros draws o f f' fmt i x W A NS SM chance. destruct (stored_axes draws o f f' fmt W A NS) as [a AX]. destruct (plain_wf _ (frame_wf f W)) as [WP _].
  assert (N : nth_error a i = Some (Finite x)).
  { destruct SM as [x H|q e NA HQ HE D].
    - apply (axes_a _ _ _ _ WP AX). apply plain_kept; [exact W|discriminate|discriminate|exact H].
    - destruct (axes_q _ _ i q e WP AX) as [y [Y E]].
      + apply plain_absent; [exact NA|discriminate|discriminate|discriminate].
      + apply plain_kept; [exact W|discriminate|discriminate|exact HQ].
      + apply plain_kept; [exact W|discriminate|discriminate|exact HE].
      + unfold axis_q, number in E. cbn [bind] in E. destruct (Req_EM_T e 1) as [X|_]; [contradiction|]. congruence. }
  assert (R := sed_row draws o f f' fmt i a (Finite x) W A NS AX N). fold chance in R. unfold sed_of in R.
  rewrite !R. destruct (Rle_dec chance (0.5 * x - 1)) as [L|L].
  - split; [tauto|]. split; [split; [discriminate|intros; lra]|]. split; [intros; lra|reflexivity].
  - split; [split; [discriminate|tauto]|]. split; [split; [intros; lra|reflexivity]|]. split; [reflexivity|intros; lra].
Qed.
Print Assumptions C218_probability_partial.
(** parabolic orbits are always of type C *)
Theorem C218_parabolic : forall draws o f f' fmt i q, wf f -> accepted (set_orbits draws o (DataFrame f)) f' fmt ->
  ~ In "sed_filename"%string (names f) -> ~ In "a"%string (names f) -> holds f "q" i (Num q) -> 0 < q -> holds f "e" i (Num 1) ->
  holds f' "sed_filename" i (Txt "C.dat").
Proof.
  intros draws o f f' fmt i q W A NS NA HQ P HE. destruct (stored_axes draws o f f' fmt W A NS) as [a AX]. destruct (plain_wf _ (frame_wf f W)) as [WP _].
  destruct (axes_q _ _ i q 1 WP AX) as [y [Y E]].
  - apply plain_absent; [exact NA|discriminate|discriminate|discriminate].
  - apply plain_kept; [exact W|discriminate|discriminate|exact HQ].
  - apply plain_kept; [exact W|discriminate|discriminate|exact HE].
  - unfold axis_q, number in E. cbn [bind] in E. destruct (Req_EM_T 1 1) as [_|X]; [|congruence]. destruct (Rlt_dec 0 q); [|contradiction]. injection E as <-.
    apply (sed_row draws o f f' fmt i a PlusInf W A NS AX Y). reflexivity.
Qed.
Print Assumptions C218_parabolic.
(** Cartesian orbits: the distance is taken for the semi-major axis *)
Theorem C218_distance : forall draws o f f' fmt i x y z, wf f -> accepted (set_orbits draws o (DataFrame f)) f' fmt ->
  ~ In "sed_filename"%string (names f) -> ~ In "a"%string (names f) -> ~ In "q"%string (names f) ->
  holds f "x" i (Num x) -> holds f "y" i (Num y) -> holds f "z" i (Num z) ->
  (holds f' "sed_filename" i (Txt "C.dat") <-> draws (o_draws o + i)%nat <= 0.5 * sqrt (x ^ 2 + y ^ 2 + z ^ 2) - 1).
Proof.
  intros draws o f f' fmt i x y z W A NS NA NQ HX HY HZ. destruct (stored_axes draws o f f' fmt W A NS) as [a AX]. destruct (plain_wf _ (frame_wf f W)) as [WP _].
  assert (N := axes_x _ a i x y z WP AX).
  rewrite (sed_row draws o f f' fmt i a (Finite (sqrt (x ^ 2 + y ^ 2 + z ^ 2))) W A NS AX).
  - unfold sed_of. destruct (Rle_dec _ _) as [L|L]; [tauto|]. split; [discriminate|tauto].
  - apply N.
    + apply plain_absent; [exact NA|discriminate|discriminate|discriminate].
    + apply plain_absent; [exact NQ|discriminate|discriminate|discriminate].
    + apply plain_kept; [exact W|discriminate|discriminate|exact HX].
    + apply plain_kept; [exact W|discriminate|discriminate|exact HY].
    + apply plain_kept; [exact W|discriminate|discriminate|exact HZ].
Qed.
Print Assumptions C218_distance.
(** an object at rest at 3 au has semi-major axis 1.5 au, yet may be of type C *)
Definition resting : frame := {| f_index := [0%Z]; f_cols := [("x", [Num 3]); ("y", [Num 0]); ("z", [Num 0]); ("xdot", [Num 0]); ("ydot", [Num 0]);
  ("zdot", [Num 0]); ("epoch", [Num 59000])]%string |}.
Lemma resting_ok : wf resting /\ numeric_elements resting /\ acceptable resting "CAR".
Proof.
  split; [|split].
  - split; [cbn; repeat constructor; cbn; intuition discriminate|]. intros c l I. cbn in I. repeat (destruct I as [I|I]; [injection I as <- <-; reflexivity|]). destruct I.
  - intros c _ i s [l [J N]]. apply nth_error_In in N. cbn in J. repeat (destruct J as [J|J]; [injection J as <- <-; cbn in N; intuition discriminate|]). destruct J.
  - split; [discriminate|]. split; [apply ch_car; cbn; intuition discriminate|]. split; [eexists; split; [constructor|intros c I; cbn in I |- *; tauto]|].
    split; [|cbn; intuition discriminate]. exists (Num 59000). split; [eexists; split; [do 6 right; left; reflexivity|reflexivity]|]. intros x X. injection X as <-. lra.
Qed.
Theorem C218_cartesian_refuted : ~ (forall mu draws o f f' i x y z u v w, wf f -> accepted (set_orbits draws o (DataFrame f)) f' "CAR" ->
  ~ In "sed_filename"%string (names f) -> 0 < mu -> (forall k, 0 <= draws k < 1) ->
  holds f "x" i (Num x) -> holds f "y" i (Num y) -> holds f "z" i (Num z) -> holds f "xdot" i (Num u) -> holds f "ydot" i (Num v) -> holds f "zdot" i (Num w) ->
  1 / (2 / sqrt (x ^ 2 + y ^ 2 + z ^ 2) - (u ^ 2 + v ^ 2 + w ^ 2) / mu) < 2 -> holds f' "sed_filename" i (Txt "S.dat")).
Proof.
  intros C. destruct resting_ok as [W [N A]]. set (d := fun _ : nat => 0.1).
  destruct (ok_accepted d fresh (DataFrame resting)) as [f' [fmt AC]]; [apply C217_accepts; [exact W|exact N|exists "CAR"%string; exact A]|].
  assert (fmt = "CAR"%string).
  { destruct (C217_stored d fresh resting f' fmt W AC) as [CH _]. inversion CH as [t s I B X|I J|I J K|I J K L]; subst; [| | |reflexivity]; exfalso.
    - cbn in I. intuition discriminate.
    - cbn in J. intuition discriminate.
    - cbn in K. intuition discriminate. }
  subst fmt.
  assert (S3 : sqrt (3 ^ 2 + 0 ^ 2 + 0 ^ 2) = 3) by (replace (3 ^ 2 + 0 ^ 2 + 0 ^ 2) with (3 * 3) by ring; apply sqrt_square; lra).
  assert (HS : holds f' "sed_filename" 0 (Txt "S.dat")).
  { apply (C 1 d fresh resting f' 0%nat 3 0 0 0 0 0); try assumption; try (eexists; split; [cbn; eauto 10|reflexivity]).
    - cbn. intuition discriminate.
    - lra.
    - intros k. unfold d. lra.
    - rewrite S3. lra. }
  assert (HC : holds f' "sed_filename" 0 (Txt "C.dat")).
  { apply (C218_distance d fresh resting f' "CAR" 0 3 0 0); try assumption; try (eexists; split; [cbn; eauto 10|reflexivity]).
    - cbn. intuition discriminate.
    - cbn. intuition discriminate.
    - cbn. intuition discriminate.
    - rewrite S3. unfold d. lra. }
  destruct (C217_stored d fresh resting f' "CAR" W AC) as [_ [H _]].
  assert (X := holds_fun _ _ _ _ _ (proj1 (proj2 (proj2 H))) HS HC). discriminate.
Qed.
Print Assumptions C218_cartesian_refuted.
(** Statement: the same orbits get the same spectra.  The generator runs on: the second time they may differ *)
Definition bare : frame := {| f_index := [0%Z]; f_cols := [("a", [Num 3]); ("e", [Num 0]); ("inc", [Num 0]); ("Omega", [Num 0]); ("argPeri", [Num 0]);
  ("meanAnomaly", [Num 0]); ("epoch", [Num 59000])]%string |}.
Lemma bare_ok : wf bare /\ numeric_elements bare /\ acceptable bare "KEP".
Proof.
  split; [|split].
  - split; [cbn; repeat constructor; cbn; intuition discriminate|]. intros c l I. cbn in I. repeat (destruct I as [I|I]; [injection I as <- <-; reflexivity|]). destruct I.
  - intros c _ i s [l [J N]]. apply nth_error_In in N. cbn in J. repeat (destruct J as [J|J]; [injection J as <- <-; cbn in N; intuition discriminate|]). destruct J.
  - split; [discriminate|]. split; [apply ch_kep; cbn; intuition discriminate|]. split; [eexists; split; [constructor|intros c I; cbn in I |- *; tauto]|].
    split; [|cbn; intuition discriminate]. exists (Num 59000). split; [eexists; split; [do 6 right; left; reflexivity|reflexivity]|]. intros x X. injection X as <-. lra.
Qed.
Theorem C218_again_refuted : ~ (forall draws o f f1 f2 fmt1 fmt2, wf f -> accepted (set_orbits draws o (DataFrame f)) f1 fmt1 ->
  accepted (set_orbits draws (u_self (set_orbits draws o (DataFrame f))) (DataFrame f)) f2 fmt2 ->
  forall i v, holds f1 "sed_filename" i v -> holds f2 "sed_filename" i v).
Proof.
  intros C. destruct bare_ok as [W [N A]]. set (d := fun k : nat => match k with O => 0 | _ => 0.9 end).
  assert (NS : ~ In "sed_filename"%string (names bare)) by (cbn; intuition discriminate).
  destruct (ok_accepted d fresh (DataFrame bare)) as [f1 [fmt1 AC1]]; [apply C217_accepts; [exact W|exact N|exists "KEP"%string; exact A]|].
  set (o2 := u_self (set_orbits d fresh (DataFrame bare))) in *.
  destruct (ok_accepted d o2 (DataFrame bare)) as [f2 [fmt2 AC2]]; [apply C217_accepts; [exact W|exact N|exists "KEP"%string; exact A]|].
  assert (K : o_draws o2 = 1%nat).
  { destruct (stored d fresh (DataFrame bare) f1 fmt1 (frame_wf bare W) AC1) as [_ [_ [_ [_ [F _]]]]]. fold o2 in F.
    destruct (plain_wf _ (frame_wf bare W)) as [WP [RP _]]. destruct (fill_sed_ok _ _ _ _ _ WP F) as [_ [_ [_ [_ [_ SA]]]]].
    destruct SA as [E _]; [apply plain_absent; [exact NS|discriminate|discriminate|discriminate]|]. rewrite E, RP. reflexivity. }
  assert (SM : semi_major bare 0 3) by (apply sm_a; eexists; split; [left; reflexivity|reflexivity]).
  destruct (C218_probability_partial d fresh bare f1 fmt1 0 3 W AC1 NS SM) as [E1 _].
  destruct (C218_probability_partial d o2 bare f2 fmt2 0 3 W AC2 NS SM) as [_ [E2 _]].
  assert (H1 : holds f1 "sed_filename" 0 (Txt "C.dat")) by (apply E1; cbn; lra).
  assert (H2 : holds f2 "sed_filename" 0 (Txt "S.dat")) by (apply E2; rewrite K; cbn; lra).
  assert (H3 := C d fresh bare f1 f2 fmt1 fmt2 W AC1 AC2 0%nat _ H1).
  destruct (C217_stored d o2 bare f2 fmt2 W AC2) as [_ [H _]].
  assert (X := holds_fun _ _ _ _ _ (proj1 (proj2 (proj2 H))) H2 H3). discriminate.
Qed.
Print Assumptions C218_again_refuted.
Example C218_case : wf bare /\ acceptable bare "KEP" /\ ~ In "sed_filename"%string (names bare) /\ semi_major bare 0 3 /\ acceptable resting "CAR".
Proof.
  destruct bare_ok as [W [N A]]. split; [exact W|]. split; [exact A|]. split; [cbn; intuition discriminate|].
  split; [apply sm_a; eexists; split; [left; reflexivity|reflexivity]|]. apply resting_ok.
Qed.

(** * C219: iteration and indexing *)
(** Statement: iterating over accepted orbits, or indexing them, gives one Orbits object per row, in order, with the values, the label and
    the format of that row.  True if the columns alone tell the format and every epoch is in range. *)
Theorem C219_rows_partial : forall draws o f fmt, holding o f fmt -> ~ In "FORMAT"%string (names f) -> ~ In "index"%string (names f) ->
  chosen f fmt -> (forall i v, holds f "epoch" i v -> epoch_ok v /\ forall s, v <> Txt s) ->
  exists l, items draws o = Ok l /\ length l = rows f /\
  (forall i, (i < rows f)%nat -> exists o' f', nth_error l i = Some o' /\ holding o' f' fmt /\ rows f' = 1%nat /\
     (forall c v, holds f' c 0 v <-> holds f c i v) /\
     (exists label, nth_error (f_index f) i = Some label /\ f_index f' = [label]) /\
     get_item draws o (Z.of_nat i) = Ok o' /\ get_item draws o (Z.of_nat i - Z.of_nat (rows f)) = Ok o') /\
  (forall i, (i < - Z.of_nat (rows f) \/ Z.of_nat (rows f) <= i)%Z -> get_item draws o i = Err IndexError).
Proof.
  intros draws o f fmt H NF NI C EP. destruct (iterate draws o f fmt H C NF NI EP) as [IT GET]. exists (map (single f fmt) (seq 0 (rows f))).
  split; [exact IT|]. split; [rewrite map_length, seq_length; reflexivity|]. assert (W := proj1 (proj2 (proj2 H))). split.
  - intros i Hi. exists (single f fmt i), (to_frame (row f i)). split.
    { rewrite nth_error_map. rewrite (nth_error_nth' _ 0%nat) by (rewrite seq_length; exact Hi). rewrite seq_nth by exact Hi. reflexivity. }
    split; [apply (single_holding o); assumption|]. split; [reflexivity|]. split; [|split; [|exact (GET i Hi)]].
    2: { exists (nth i (f_index f) 0%Z). split; [apply nth_error_nth'; exact Hi|reflexivity]. }
    intros c v. rewrite (row_holds f i c 0 v W Hi). tauto.
  - intros i Hi. unfold get_item, frame_of. rewrite (proj1 H). cbn [bind].
    assert (B : ((i <? - Z.of_nat (rows f)) || (Z.of_nat (rows f) <=? i))%Z%bool = true); [|rewrite B; reflexivity].
    apply Bool.orb_true_iff. destruct Hi; [left; apply Z.ltb_lt|right; apply Z.leb_le]; assumption.
Qed.
Print Assumptions C219_rows_partial.
Lemma items_row : forall draws o f l, o_orbits o = Some f -> items draws o = Ok l -> forall i, (i < rows f)%nat ->
  u_result (set_orbits draws fresh (row f i)) = Ok tt.
Proof.
  intros draws o f l HO IT i Hi. unfold items, frame_of in IT. rewrite HO in IT. cbn [bind] in IT.
  destruct (new_orbits draws (row f i)) as [o'|e] eqn:E.
  - unfold new_orbits in E. cbv zeta in E. destruct (u_result (set_orbits draws fresh (row f i))) as [[]|]; [reflexivity|discriminate].
  - exfalso. destruct (all_ok_err (map (fun j => new_orbits draws (row f j)) (seq 0 (rows f))) i e) as [e' X]; [|congruence].
    rewrite nth_error_map. rewrite (nth_error_nth' _ 0%nat) by (rewrite seq_length; exact Hi). rewrite seq_nth by exact Hi. cbn. f_equal. exact E.
Qed.
(** with a stated format: Keplerian orbits that also carry q cannot be iterated over *)
Definition both : frame := {| f_index := [0%Z]; f_cols := [("FORMAT", [Txt "KEP"]); ("q", [Num 2]); ("a", [Num 3]); ("e", [Num 0]); ("inc", [Num 0]);
  ("Omega", [Num 0]); ("argPeri", [Num 0]); ("meanAnomaly", [Num 0]); ("epoch", [Num 59000])]%string |}.
Lemma both_ok : wf both /\ numeric_elements both /\ acceptable both "KEP".
Proof.
  split; [|split].
  - split; [cbn; repeat constructor; cbn; intuition discriminate|]. intros c l I. cbn in I. repeat (destruct I as [I|I]; [injection I as <- <-; reflexivity|]). destruct I.
  - intros c K i s [l [J N]]. apply nth_error_In in N. cbn in J.
    repeat (destruct J as [J|J]; [injection J as <- <-; cbn in N, K; intuition discriminate|]). destruct J.
  - split; [discriminate|]. split.
    { apply (ch_stated _ "KEP"); [cbn; tauto| |left; reflexivity]. intros i v [l [J N]]. apply nth_error_In in N. cbn in J.
      repeat (destruct J as [J|J]; [inversion J; subst; cbn in N; intuition congruence|]). destruct J. }
    split; [eexists; split; [constructor|intros c I; cbn in I |- *; tauto]|].
    split; [|cbn; intuition discriminate]. exists (Num 59000). split; [eexists; split; [do 8 right; left; reflexivity|reflexivity]|]. intros x X. injection X as <-. lra.
Qed.
Theorem C219_stated_refuted : ~ (forall draws o f f' fmt, wf f -> numeric_elements f -> accepted (set_orbits draws o (DataFrame f)) f' fmt ->
  (forall i v, holds f "epoch" i v -> epoch_ok v) -> exists l, items draws (u_self (set_orbits draws o (DataFrame f))) = Ok l).
Proof.
  intros C. destruct both_ok as [W [N A]]. set (d := fun _ : nat => 0).
  destruct (ok_accepted d fresh (DataFrame both)) as [f' [fmt AC]]; [apply C217_accepts; [exact W|exact N|exists "KEP"%string; exact A]|].
  destruct (C d fresh both f' fmt W N AC) as [l IT].
  { intros i v [l [J M]]. apply nth_error_In in M. cbn in J. repeat (destruct J as [J|J]; [try discriminate J|]); [|destruct J]. injection J as <-.
    cbn in M. destruct M as [<-|[]]. intros x X. injection X as <-. lra. }
  destruct (stored d fresh (DataFrame both) f' fmt (frame_wf both W) AC) as [_ [H [_ [_ [_ [NM _]]]]]].
  destruct H as [HO [_ [W' [R' _]]]].
  assert (OK := items_row d _ f' l HO IT 0 R').
  destruct (ok_accepted d fresh (row f' 0) OK) as [f2 [s AC2]].
  destruct (stored d fresh (row f' 0) f2 s (row_wf f' 0 W') AC2) as [CH [H2 [_ [_ [_ [NM2 _]]]]]].
  assert (NR : names (to_frame (row f' 0)) = names f') by apply row_names. rewrite NR in NM2.
  assert (S : s = "COM"%string).
  { inversion CH as [t s' I B X|I J|I J K|I J K L]; subst; [|reflexivity| |].
    - exfalso. rewrite NR in I. apply NM in I. cbn in I. intuition discriminate.
    - exfalso. apply J. rewrite NR. apply NM. left. split; [cbn; tauto|split; discriminate].
    - exfalso. apply J. rewrite NR. apply NM. left. split; [cbn; tauto|split; discriminate]. }
  subst s. destruct H2 as [_ [_ [_ [_ [els [EL HC]]]]]]. inversion EL; subst. assert (T : In "tPeri"%string (names f2)) by (apply HC; cbn; tauto).
  apply NM2 in T. destruct T as [[T _]|T]; [|cbn in T; intuition discriminate]. apply NM in T. cbn in T. intuition discriminate.
Qed.
Print Assumptions C219_stated_refuted.
(** and neither can orbits accepted with an epoch out of range after the first *)
Theorem C219_epoch_refuted : ~ (forall draws o f f' fmt, wf f -> numeric_elements f -> ~ In "FORMAT"%string (names f) ->
  accepted (set_orbits draws o (DataFrame f)) f' fmt -> exists l, items draws (u_self (set_orbits draws o (DataFrame f))) = Ok l).
Proof.
  intros C. set (d := fun _ : nat => 0).
  assert (W : wf mixed) by (destruct (kep_holding [Num 1; Num 2] [Num 2.5; Num 2.6] [Num 59000; Num 2459000.5]) as [_ [_ [W _]]]; [discriminate|reflexivity|reflexivity|exact W]).
  assert (N : numeric_elements mixed) by (apply kep_numeric; intros v s I; cbn in I; intuition congruence).
  destruct (ok_accepted d fresh (DataFrame mixed)) as [f' [fmt AC]].
  { apply C217_accepts; [exact W|exact N|]. exists "KEP"%string. split; [discriminate|]. split; [apply ch_kep; cbn; intuition discriminate|].
    split; [eexists; split; [constructor|intros c I; cbn in I |- *; tauto]|]. split; [|cbn; intuition discriminate].
    exists (Num 59000). split; [eexists; split; [do 7 right; left; reflexivity|reflexivity]|]. intros x X. injection X as <-. lra. }
  destruct (C d fresh mixed f' fmt W N) as [l IT]; [cbn; intuition discriminate|exact AC|].
  destruct (C217_stored d fresh mixed f' fmt W AC) as [_ [[HO [_ [W' _]]] [R' [K B]]]].
  assert (OK := items_row d _ f' l HO IT 1%nat). rewrite R' in OK. specialize (OK (Nat.lt_succ_diag_r 1)).
  assert (NR : numeric_elements (to_frame (row f' 1))).
  { intros c I i s X. apply row_holds in X; [|exact W'|rewrite R'; cbn; lia]. destruct X as [_ X]. apply B in X. destruct X as [[X _]|[_ D]]; [exact (N c I 1%nat s X)|].
    destruct D as [[-> _]|[[-> _]|[[-> _]|[-> _]]]]; cbn in I; intuition discriminate. }
  apply accepts_given in OK; [|apply row_wf; exact W'|exact NR]. destruct OK as [fmt' [_ [_ [_ [[v [HV EO]] _]]]]].
  apply row_holds in HV; [|exact W'|rewrite R'; cbn; lia]. destruct HV as [_ HV].
  assert (HE : holds f' "epoch" 1 (Num 2459000.5)).
  { apply K; [|discriminate|discriminate]. eexists. split; [do 7 right; left; reflexivity|reflexivity]. }
  rewrite (holds_fun _ _ _ _ _ W' HV HE) in EO. specialize (EO _ eq_refl). lra.
Qed.
Print Assumptions C219_epoch_refuted.
Example C219_case : holding (holder near) near "KEP" /\ ~ In "FORMAT"%string (names near) /\ ~ In "index"%string (names near) /\ chosen near "KEP" /\
  (forall i v, holds near "epoch" i v -> epoch_ok v /\ forall s, v <> Txt s).
Proof.
  split; [apply kep_holding; [discriminate|reflexivity|reflexivity]|]. split; [cbn; intuition discriminate|]. split; [cbn; intuition discriminate|].
  split; [apply ch_kep; cbn; intuition discriminate|]. intros i v [l [J N]]. apply nth_error_In in N. cbn in J.
  repeat (destruct J as [J|J]; [try discriminate J|]); [|destruct J]. injection J as <-. cbn in N. destruct N as [<-|[<-|[]]]; (split; [|discriminate]);
    intros x X; injection X as <-; lra.
Qed.

(** * C220: what set_orbits does to the object and to what it is given *)
(** Statement: a rejected table leaves the object as it was.  What holds: the orbits stay *)
Theorem C220_rejected_partial : forall draws o g e, u_result (set_orbits draws o g) = Err e -> o_orbits (u_self (set_orbits draws o g)) = o_orbits o.
Proof. exact rejected. Qed.
Print Assumptions C220_rejected_partial.
(** but not the format: Keplerian orbits are then labelled cometary *)
Definition timeless_q : frame := {| f_index := [0%Z]; f_cols := [("q"%string, [Num 2.5])] |}.
Theorem C220_rejected_refuted : ~ (forall draws o g e, u_result (set_orbits draws o g) = Err e -> u_self (set_orbits draws o g) = o).
Proof.
  intros C. assert (H := C (fun _ => 0) (holder near) (DataFrame timeless_q) KeyError eq_refl).
  assert (F : o_format (u_self (set_orbits (fun _ => 0) (holder near) (DataFrame timeless_q))) = Some (Txt "COM")) by reflexivity.
  rewrite H in F. cbn in F. discriminate.
Qed.
Print Assumptions C220_rejected_refuted.
(** nor is a format always left: after a table of no known kind the object holds orbits without a format *)
Definition formless : frame := {| f_index := [0%Z]; f_cols := [("H"%string, [Num 20])] |}.
Theorem C220_unlabelled_refuted : ~ (forall draws o g e, o_orbits o <> None -> o_format o <> None ->
  u_result (set_orbits draws o g) = Err e -> o_format (u_self (set_orbits draws o g)) <> None).
Proof.
  intros C. apply (C (fun _ => 0) (holder near) (DataFrame formless) ValueError); [cbn; discriminate|cbn; discriminate|reflexivity|reflexivity].
Qed.
Print Assumptions C220_unlabelled_refuted.
(** Statement: the caller's data are not changed.  True of Series and arrays; of a DataFrame only the row labels and the columns
    FORMAT and index are affected *)
Theorem C220_given_partial : forall draws o,
  (forall label r, u_given (set_orbits draws o (Series label r)) = Series label r) /\
  (forall n cols, u_given (set_orbits draws o (Records n cols)) = Records n cols) /\
  (forall f, exists f', u_given (set_orbits draws o (DataFrame f)) = DataFrame f' /\ rows f' = rows f /\
     forall c l, c <> "FORMAT"%string -> c <> "index"%string -> (In (c, l) (f_cols f') <-> In (c, l) (f_cols f))).
Proof.
  intros draws o. split; [intros label r; apply given_kept; discriminate|]. split; [intros n cols; apply given_kept; discriminate|].
  intros f. destruct (given_frame draws o f) as [f' [U [IX D]]]. exists f'. split; [exact U|]. split; [unfold rows; rewrite IX; apply count_length|].
  intros c l NF NI. destruct D as [-> | ->]; rewrite !drop_cols; cbn [to_frame f_cols]; tauto.
Qed.
Print Assumptions C220_given_partial.
Theorem C220_given_refuted : ~ (forall draws o f f' fmt, wf f -> accepted (set_orbits draws o (DataFrame f)) f' fmt -> u_given (set_orbits draws o (DataFrame f)) = DataFrame f).
Proof.
  intros C. destruct both_ok as [W [N A]]. set (d := fun _ : nat => 0).
  destruct (ok_accepted d fresh (DataFrame both)) as [f' [fmt AC]]; [apply C217_accepts; [exact W|exact N|exists "KEP"%string; exact A]|].
  assert (G := C d fresh both f' fmt W AC). destruct (stored d fresh (DataFrame both) f' fmt (frame_wf both W) AC) as [_ [_ [_ [G' _]]]]. rewrite G' in G.
  cbn in G. injection G as G. discriminate.
Qed.
Print Assumptions C220_given_refuted.
(** Statement: setting the same DataFrame again gives orbits of the same format.  True if it states none *)
Lemma chosen_names : forall f f' s t, ~ In "FORMAT"%string (names f) -> (forall c, c <> "index"%string -> (In c (names f) <-> In c (names f'))) ->
  chosen f s -> chosen f' t -> s = t.
Proof.
  intros f f' s t NF E C C'. assert (NF' : ~ In "FORMAT"%string (names f')) by (rewrite <- E by discriminate; exact NF).
  inversion C as [u s' I B X|I J|I J K|I J K L]; subst; [contradiction| | |];
    inversion C' as [u' s' I' B' X'|I' J'|I' J' K'|I' J' K' L']; subst; try contradiction; try reflexivity; exfalso;
    rewrite <- E in * by discriminate; tauto.
Qed.
Theorem C220_twice_partial : forall draws o o2 f f1 fmt1 f' f2 fmt2, wf f -> ~ In "FORMAT"%string (names f) ->
  accepted (set_orbits draws o (DataFrame f)) f1 fmt1 -> u_given (set_orbits draws o (DataFrame f)) = DataFrame f' ->
  accepted (set_orbits draws o2 (DataFrame f')) f2 fmt2 -> fmt1 = fmt2.
Proof.
  intros draws o o2 f f1 fmt1 f' f2 fmt2 W NF A1 G A2.
  destruct (stored draws o (DataFrame f) f1 fmt1 (frame_wf f W) A1) as [_ [_ [_ [G' _]]]]. rewrite G in G'. cbn [after] in G'. injection G' as ->.
  destruct (C217_stored draws o f f1 fmt1 W A1) as [C1 _].
  assert (W' : wf (drop "FORMAT" (drop "index" (to_frame (DataFrame f))))) by (apply drop_wf, drop_wf, frame_wf; exact W).
  destruct (C217_stored draws o2 _ f2 fmt2 W' A2) as [C2 _]. refine (chosen_names f _ fmt1 fmt2 NF _ C1 C2).
  intros c NI. rewrite !drop_names. split; [|tauto]. intros I. split; [intros ->; contradiction|]. split; [exact NI|exact I].
Qed.
Print Assumptions C220_twice_partial.
(** Keplerian orbits with q and the time of perihelion: the second time they are taken for cometary ones *)
Definition full : frame := {| f_index := [0%Z]; f_cols := [("FORMAT", [Txt "KEP"]); ("q", [Num 2]); ("a", [Num 3]); ("e", [Num 0]); ("inc", [Num 0]);
  ("Omega", [Num 0]); ("argPeri", [Num 0]); ("meanAnomaly", [Num 0]); ("epoch", [Num 59000]); ("tPeri", [Num 59000])]%string |}.
Lemma full_ok : wf full /\ numeric_elements full /\ acceptable full "KEP".
Proof.
  split; [|split].
  - split; [cbn; repeat constructor; cbn; intuition discriminate|]. intros c l I. cbn in I. repeat (destruct I as [I|I]; [injection I as <- <-; reflexivity|]). destruct I.
  - intros c K i s [l [J N]]. apply nth_error_In in N. cbn in J.
    repeat (destruct J as [J|J]; [injection J as <- <-; cbn in N, K; intuition discriminate|]). destruct J.
  - split; [discriminate|]. split.
    { apply (ch_stated _ "KEP"); [cbn; tauto| |left; reflexivity]. intros i v [l [J N]]. apply nth_error_In in N. cbn in J.
      repeat (destruct J as [J|J]; [inversion J; subst; cbn in N; intuition congruence|]). destruct J. }
    split; [eexists; split; [constructor|intros c I; cbn in I |- *; tauto]|].
    split; [|cbn; intuition discriminate]. exists (Num 59000). split; [eexists; split; [do 8 right; left; reflexivity|reflexivity]|]. intros x X. injection X as <-. lra.
Qed.
Theorem C220_twice_refuted : ~ (forall draws o o2 f f1 fmt1 f' f2 fmt2, wf f -> numeric_elements f ->
  accepted (set_orbits draws o (DataFrame f)) f1 fmt1 -> u_given (set_orbits draws o (DataFrame f)) = DataFrame f' ->
  accepted (set_orbits draws o2 (DataFrame f')) f2 fmt2 -> fmt1 = fmt2).
Proof.
  intros C. destruct full_ok as [W [N A]]. set (d := fun _ : nat => 0).
  destruct (ok_accepted d fresh (DataFrame full)) as [f1 [fmt1 A1]]; [apply C217_accepts; [exact W|exact N|exists "KEP"%string; exact A]|].
  destruct (stored d fresh (DataFrame full) f1 fmt1 (frame_wf full W) A1) as [C1 [_ [_ [G _]]]]. cbn [after] in G.
  set (f' := drop "FORMAT" (drop "index" (to_frame (DataFrame full)))) in *.
  assert (W' : wf f') by (apply drop_wf, drop_wf, frame_wf; exact W).
  assert (N' : numeric_elements f') by (apply numeric_drop, numeric_drop; exact N).
  destruct (ok_accepted d fresh (DataFrame f')) as [f2 [fmt2 A2]].
  { apply C217_accepts; [exact W'|exact N'|]. exists "COM"%string. split; [discriminate|]. split; [apply ch_com; cbn; intuition discriminate|].
    split; [eexists; split; [constructor|intros c I; cbn in I |- *; tauto]|]. split; [|cbn; intuition discriminate].
    exists (Num 59000). split; [eexists; split; [cbn; do 7 right; left; reflexivity|reflexivity]|]. intros x X. injection X as <-. lra. }
  assert (E := C d fresh fresh full f1 fmt1 f' f2 fmt2 W N A1 G A2). subst fmt2.
  destruct (C217_stored d fresh f' f2 fmt1 W' A2) as [C2 _].
  assert (fmt1 = "COM"%string).
  { inversion C2 as [t s I B X|I J|I J K|I J K L]; subst; [exfalso; cbn in I; intuition discriminate|reflexivity|exfalso; apply J; cbn; tauto|exfalso; apply J; cbn; tauto]. }
  subst fmt1. inversion C1 as [t s I B X|I J|I J K|I J K L]; [|apply I; cbn; tauto]. assert (HK : Txt "KEP" = Txt t) by (apply (B 0%nat); eexists; split; [left; reflexivity|reflexivity]).
  injection HK as <-. destruct X as [X|[X _]]; discriminate.
Qed.
Print Assumptions C220_twice_refuted.
(** Statement: the object keeps its own copy.  A DataFrame that already has every optional column is kept itself: later changes
    to it change the orbits *)
Theorem C220_alias_refuted : ~ (forall draws o f f' fmt, wf f -> accepted (set_orbits draws o (DataFrame f)) f' fmt -> u_same (set_orbits draws o (DataFrame f)) = false).
Proof.
  intros C. set (d := fun _ : nat => 0). destruct C217_case as [W [N A]].
  assert (OK : u_result (set_orbits d fresh (DataFrame near)) = Ok tt) by (apply C217_accepts; [exact W|exact N|exists "KEP"%string; exact A]).
  destruct (ok_accepted d fresh (DataFrame near) OK) as [f' [fmt AC]]. assert (S := C d fresh near f' fmt W AC). clear C AC f' fmt A.
  set (g := DataFrame near) in *. unfold set_orbits in S, OK. set (f0 := drop "index" (to_frame g)) in *.
  assert (NX : ~ In "FORMAT"%string (names f0)) by (cbn; intuition discriminate).
  assert (D : defaults f0 = f0) by (apply defaults_id; cbn; tauto).
  assert (F : fill_sed d (o_draws fresh) f0 = Ok (f0, 0%nat)) by reflexivity.
  rewrite (stated_absent f0 NX) in S, OK. destruct (Nat.eqb (rows f0) 0); [discriminate|].
  destruct (guess f0); [|discriminate]. destruct (check_epoch f0); [|discriminate]. rewrite D, F in S, OK. destruct (required a f0); [|discriminate].
  cbn [u_same] in S. unfold g in S. rewrite Nat.eqb_refl in S. discriminate.
Qed.
Print Assumptions C220_alias_refuted.
Example C220_case : (exists e, u_result (set_orbits (fun _ => 0) (holder near) (DataFrame timeless_q)) = Err e) /\ wf full /\ numeric_elements full /\
  acceptable full "KEP" /\ wf near /\ ~ In "FORMAT"%string (names near).
Proof.
  split; [eexists; reflexivity|]. destruct full_ok as [A [B C]]. split; [exact A|]. split; [exact B|]. split; [exact C|].
  split; [exact (proj1 C217_case)|]. cbn. intuition discriminate.
Qed.
