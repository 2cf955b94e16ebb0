(** Property theorems: C40, C41, C46, C90-C94. *)
From Verif Require Import Base Calendar_Model Calendar_Spec Calendar_Proofs Prenight_Model Prenight_Spec Prenight_Proofs.
From Coq Require Import Lia QArith Lqa Permutation Ascii.
Open Scope Z_scope.

(** C40 *)
Theorem C40_latest_selected : forall now rows tags max_age,
  match select_latest now rows tags max_age with
  | Some s => exists i, nth_error rows i = Some s /\ eligible (now i) tags max_age s /\
      forall j r, nth_error rows j = Some r -> eligible (now j) tags max_age r ->
        ps_created r < ps_created s \/ (ps_created r = ps_created s /\ (j <= i)%nat)
  | None => forall j r, nth_error rows j = Some r -> ~ eligible (now j) tags max_age r
  end.
Proof. intros. apply select_latest_best. Qed.
Print Assumptions C40_latest_selected.
(** for two nights and any order in which the set of labels is listed: a simulation of both nights, the newest
    eligible one when the clock stands still *)
Theorem C40_for_nights : forall now idx reorder first last tags max_age,
  (forall l, Permutation (reorder l) l) ->
  let both r := In r (idx first) /\ (first <> last -> exists r', In r' (idx last) /\ ps_id r' = ps_id r) in
  match find_latest_for_nights (fun _ => now) idx reorder first last tags max_age with
  | Ok s => both s /\ eligible now tags max_age s /\
      forall r, both r -> eligible now tags max_age r -> ps_created r <= ps_created s
  | Err e => e = ValueError /\ forall r, both r -> ~ eligible now tags max_age r
  end.
Proof.
  intros now idx reorder first last tags m Hp both. unfold find_latest_for_nights.
  set (cand := if first =? last then idx first else _).
  assert (forall r, In r cand <-> both r) as Hc.
  { intros r. unfold cand, both. destruct (Z.eqb_spec first last) as [->|Hne]; [tauto|]. rewrite filter_In, existsb_exists.
    split; intros [A B]; split; auto.
    - intros _. destruct B as (x & Hx & E). apply Nat.eqb_eq in E. exists x. auto.
    - destruct (B Hne) as (x & Hx & E). exists x. split; auto. apply Nat.eqb_eq. auto. }
  assert (forall r, In r (reorder cand) <-> both r) as Hr.
  { intros r. rewrite <- Hc. split; apply Permutation_in; auto using Permutation_sym. }
  pose proof (C40_latest_selected (fun _ => now) (reorder cand) tags m) as H.
  destruct (select_latest (fun _ => now) (reorder cand) tags m) as [s|].
  - destruct H as (i & Hi & Ei & Hm). split; [apply Hr; eapply nth_error_In; eauto|]. split; auto.
    intros r Br Er. apply Hr in Br. apply In_nth_error in Br as [j Hj]. specialize (Hm j r Hj Er). lia.
  - split; auto. intros r Br. apply Hr in Br. apply In_nth_error in Br as [j Hj]. eauto.
Qed.
Print Assumptions C40_for_nights.
Example C40_case : let d := 86400000000 in
  select_latest (fun _ => 10 * d) [mkPsim 1 ["ideal"; "nominal"] (8 * d); mkPsim 2 ["ideal"] (9 * d); mkPsim 3 ["nominal"; "ideal"] (8 * d);
     mkPsim 4 ["ideal"; "nominal"] (7 * d + 1)]%string ["ideal"; "nominal"]%string 2 = Some (mkPsim 3 ["nominal"; "ideal"]%string (8 * d)).
Proof. reflexivity. Qed.

(** C41 (false of the code): a simulation of a later day with a smaller daily index never replaces the best one *)
Theorem C41_newest_refuted : forall lower, exists sims s b, In s sims /\
  covers lower 5 5 "simonyi" [] s /\ newer s b /\ proto_find lower 5 5 "simonyi" [] sims = Some b.
Proof.
  intros. set (a := mkOsim 1 9 None [] 100 7). set (s := mkOsim 1 9 None [] 101 1). exists [a; s], s, a.
  split; [right; left; auto|]. split.
  - unfold covers; simpl. split; [lia|]. split; [lia|]. split; [intros g []|discriminate].
  - split; [left; simpl; lia|]. reflexivity.
Qed.
Print Assumptions C41_newest_refuted.
(** what holds: a simulation is found exactly when one covers the nights, and no candidate is newer than the one
    found in date and at least equal in index, or the other way round; with all candidates of one day the newest
    is returned *)
Theorem C41_undominated_partial : forall lower first last tel tags sims,
  match proto_find lower first last tel tags sims with
  | None => forall s, In s sims -> ~ covers lower first last tel tags s
  | Some b => In b sims /\ covers lower first last tel tags b /\
      (forall s, In s sims -> covers lower first last tel tags s ->
         ~ (os_exec b <= os_exec s /\ os_index b < os_index s) /\ ~ (os_exec b < os_exec s /\ os_index b <= os_index s)) /\
      ((forall s, In s sims -> covers lower first last tel tags s -> os_exec s = os_exec b) ->
         forall s, In s sims -> covers lower first last tel tags s -> ~ newer s b)
  end.
Proof.
  intros. pose proof (proto_find_best lower first last tel tags sims) as H.
  destruct (proto_find lower first last tel tags sims) as [b|]; [|exact H].
  destruct H as (Hi & Hc & Hm).
  assert (forall s, In s sims -> covers lower first last tel tags s ->
         ~ (os_exec b <= os_exec s /\ os_index b < os_index s) /\ ~ (os_exec b < os_exec s /\ os_index b <= os_index s)) as U.
  { intros s Hs Cs. specialize (Hm s Hs Cs). unfold at_least in Hm. split; intros X; lia. }
  split; auto. split; auto. split; auto. intros Heq s Hs Cs [N|[N1 N2]].
  - rewrite (Heq s Hs Cs) in N. lia.
  - specialize (U s Hs Cs). lia.
Qed.
Print Assumptions C41_undominated_partial.
Example C41_case : proto_find (fun s => s) 5 6 "simonyi" ["ideal"]%string
  [mkOsim 1 9 None ["ideal"]%string 100 7; mkOsim 1 5 None ["ideal"]%string 100 9; mkOsim 1 9 (Some "auxtel"%string) ["ideal"]%string 100 9;
   mkOsim 1 9 (Some "simonyi"%string) ["ideal"; "x"]%string 100 8] = Some (mkOsim 1 9 (Some "simonyi"%string) ["ideal"; "x"]%string 100 8).
Proof. reflexivity. Qed.

(** C46 *)
Theorem C46_minimum_overhead : forall p slewtime o z scatter off st vt et checked,
  dget String.eqb o "slewtime"%string = Some st -> dget String.eqb o "visittime"%string = Some vt ->
  dget String.eqb o "exptime"%string = Some et ->
  overhead_offset p slewtime (Some o) z scatter = Ok (off, checked) ->
  checked = true /\ (min_overhead p <= (st + vt - et) + off)%Q /\
  (forall sp, slew_part p slewtime (Some o) z = Ok sp ->
     (min_overhead p <= (st + vt - et) + (sp + scatter))%Q -> (off == sp + scatter)%Q) /\
  (forall sp, slew_part p slewtime (Some o) z = Ok sp -> (sp + scatter <= off)%Q).
Proof.
  intros p slewtime o z scatter off st vt et checked H1 H2 H3 H. unfold overhead_offset in H.
  destruct (slew_part p slewtime (Some o) z) as [sp|e]; [|discriminate]. cbn [bind] in H.
  unfold model_overhead in H. rewrite H1, H2, H3 in H.
  destruct (qltb (st + vt - et + (sp + scatter)) (min_overhead p)) eqn:E; injection H as <- <-.
  - apply qltb_spec in E. split; auto. split; [lra|]. split; intros sp' X; injection X as <-; intros; lra.
  - apply qltb_false in E. split; auto. split; [lra|]. split; intros sp' X; injection X as <-; intros; lra.
Qed.
Print Assumptions C46_minimum_overhead.
(** the slew part never makes the slew take negative time *)
Theorem C46_slew_part : forall p slewtime obs z sp, slew_part p slewtime obs z = Ok sp ->
  (slew_scale p <= 0 /\ slew_loc p <= 0)%Q /\ (sp == 0)%Q \/
  exists st, (slewtime = Some st \/ slewtime = None /\ exists o, obs = Some o /\ dget String.eqb o "slewtime"%string = Some st) /\
    (0 <= st + sp)%Q /\ ((0 <= st + st * z)%Q -> (sp == st * z)%Q).
Proof.
  intros p slewtime obs z sp H. unfold slew_part in H.
  destruct (qltb 0 (slew_scale p) || qltb 0 (slew_loc p)) eqn:E.
  - right.
    assert (forall st, Ok (if qltb (st + st * z) 0 then ((-1) * st)%Q else (st * z)%Q) = Ok sp ->
      (0 <= st + sp)%Q /\ ((0 <= st + st * z)%Q -> (sp == st * z)%Q)) as K.
    { intros st X. injection X as <-. destruct (qltb (st + st * z) 0) eqn:F.
      - apply qltb_spec in F. split; [lra|]. intros; lra.
      - apply qltb_false in F. split; [lra|]. intros; lra. }
    destruct slewtime as [st|].
    + exists st. split; auto.
    + destruct obs as [o|]; [|discriminate]. destruct (dget String.eqb o "slewtime"%string) as [st|] eqn:D; [|discriminate].
      exists st. split; [right; split; auto; exists o; auto|]. apply K. exact H.
  - left. apply orb_false_iff in E as [E1 E2]. apply qltb_false in E1, E2. injection H as <-. split; [split; auto|reflexivity].
Qed.
Print Assumptions C46_slew_part.
Example C46_case :
  overhead_offset (mkOv (1#10) 0 2) None (Some [("slewtime"%string, 5%Q); ("visittime"%string, 34%Q); ("exptime"%string, 30%Q)]) (-2) (-7)
  = Ok ((-7)%Q, true) /\
  overhead_offset (mkOv (1#10) 0 2) None (Some [("slewtime"%string, 5%Q); ("exptime"%string, 30%Q)]) 1 3 = Ok (8%Q, false).
Proof. split; reflexivity. Qed.

(** C94 (false of the code): a negative slew_loc without slew_scale has no effect *)
Theorem C94_slew_loc_refuted : exists p st, (slew_scale p == 0)%Q /\ ~ (slew_loc p == 0)%Q /\ (0 < st)%Q /\
  forall z scatter off c, (z == slew_loc p)%Q -> overhead_offset p (Some st) None z scatter = Ok (off, c) -> (off == scatter)%Q.
Proof.
  exists (mkOv 0 (-(1#2)) 0), 10%Q. split; [reflexivity|]. split; [intros H; discriminate|]. split; [reflexivity|].
  intros z scatter off c _ H. unfold overhead_offset, slew_part in H. simpl in H. injection H as <- _. lra.
Qed.
Print Assumptions C94_slew_loc_refuted.
(** what holds: without an observation record, the offset is slew time times the draw when slew_loc or slew_scale
    is positive and the draw is at least -1 *)
Theorem C94_slew_loc_partial : forall p st z scatter, (0 < slew_scale p \/ 0 < slew_loc p)%Q -> (0 <= st)%Q -> (-1 <= z)%Q ->
  exists off, overhead_offset p (Some st) None z scatter = Ok (off, false) /\ (off == st * z + scatter)%Q.
Proof.
  intros p st z scatter Hp Hs Hz. unfold overhead_offset, slew_part.
  assert (qltb 0 (slew_scale p) || qltb 0 (slew_loc p) = true) as ->.
  { apply orb_true_iff. destruct Hp as [Hp|Hp]; apply qltb_spec in Hp; auto. }
  cbn [bind]. assert (qltb (st + st * z) 0 = false) as -> by (apply qltb_false; nra).
  exists (st * z + scatter)%Q. split; reflexivity.
Qed.
Print Assumptions C94_slew_loc_partial.
Example C94_case : overhead_offset (mkOv 0 (1#2) 0) (Some 10%Q) None (1#2) 0 = Ok ((10#2)%Q, false).
Proof. reflexivity. Qed.

(** C90: the requested nights are simulated *)
Theorem C90_sim_interval : forall al n0 d k i nights delay,
  regular_almanac al n0 delay -> 0 <= delay -> counted k d -> year d <= 9999 ->
  Z.of_nat k - 678575 = n0 + Z.of_nat i -> 1 <= nights -> Z.of_nat i + nights <= Z.of_nat (length al) ->
  exists a b, nth_error al i = Some a /\ nth_error al (i + Z.to_nat nights - 1) = Some b /\
    sim_start_and_end al (year d * 10000 + month d * 100 + day d) nights delay =
      Ok (sun_n12_setting a + delay, sunrise b - (sun_n12_setting a + delay)) /\
    observing_day (sun_n12_setting a) d /\ (nights = 1 -> observing_day (sunrise b) d).
Proof.
  intros al n0 d k i nights delay [R1 R2] Hd C Y E Hn Hl.
  destruct (py_get_pos al (Z.of_nat i) ltac:(lia)) as (a & Ga & Na). rewrite Nat2Z.id in Na.
  destruct (py_get_pos al (Z.of_nat i + nights - 1) ltac:(lia)) as (b & Gb & Nb).
  destruct (py_get_pos al 0 ltac:(lia)) as (c & Gc & Nc). change (Z.to_nat 0) with 0%nat in Nc.
  replace (Z.to_nat (Z.of_nat i + nights - 1)) with (i + Z.to_nat nights - 1)%nat in Nb by lia.
  exists a, b. split; auto. split; auto.
  pose proof (R1 _ _ Na) as Ra. pose proof (R1 _ _ Nb) as Rb. pose proof (R1 _ _ Nc) as Rc. cbv zeta in Ra, Rb, Rc.
  pose proof (R2 _ _ _ _ Na Nb) as Rab.
  assert (real_date d) as RD by (exists k; auto).
  pose proof (int_round_trip d RD Y) as Ed.
  assert ((sunset c - (15019 * day_us + half_us)) / day_us = n0 - 15019) as E0.
  { symmetry. apply Z.div_unique with (r := sunset c - n0 * 86400000000 - 43200000000); unfold day_us, half_us; lia. }
  split.
  - unfold sim_start_and_end. rewrite Gc. cbn [bind]. rewrite Ed. cbn [bind]. rewrite E0.
    rewrite (ymd2ord_real d k C). change (ymd2ord (mkDate 1899 12 31)) with 693595.
    replace (Z.of_nat k + 1 - 693595 - (n0 - 15019)) with (Z.of_nat i) by lia.
    rewrite Ga. cbn [bind]. rewrite Gb. cbn [bind].
    assert (ceil_days (sunrise b - (sun_n12_setting a + delay)) = nights) as ->.
    { apply ceil_days_spec. lia. }
    rewrite Z.eqb_refl. reflexivity.
  - split.
    + exists k. split; auto. cbv zeta. lia.
    + intros ->. exists k. split; auto. cbv zeta. lia.
Qed.
Print Assumptions C90_sim_interval.
(** nights after the end of the almanac are rejected *)
Theorem C90_past_end : forall al n0 d k i nights delay,
  regular_almanac al n0 delay -> counted k d -> year d <= 9999 ->
  Z.of_nat k - 678575 = n0 + Z.of_nat i -> 1 <= nights -> Z.of_nat i + nights > Z.of_nat (length al) ->
  sim_start_and_end al (year d * 10000 + month d * 100 + day d) nights delay = Err IndexError.
Proof.
  intros al n0 d k i nights delay [R1 R2] C Y E Hn Hl.
  assert (forall j, Z.of_nat (length al) <= j -> py_get al j = Err IndexError) as Out.
  { intros j Hj. unfold py_get. destruct (Z.ltb_spec j 0); [lia|]. destruct (Z.ltb_spec j (Z.of_nat (length al))); [lia|].
    rewrite andb_false_r. reflexivity. }
  unfold sim_start_and_end. destruct (Nat.eq_dec (length al) 0) as [Z0|Z0].
  { rewrite (Out 0) by lia. reflexivity. }
  destruct (py_get_pos al 0 ltac:(lia)) as (c & Gc & Nc). change (Z.to_nat 0) with 0%nat in Nc. rewrite Gc. cbn [bind].
  pose proof (R1 _ _ Nc) as Rc. cbv zeta in Rc.
  assert (real_date d) as RD by (exists k; auto).
  pose proof (int_round_trip d RD Y) as Ed.
  rewrite Ed. cbn [bind].
  assert ((sunset c - (15019 * day_us + half_us)) / day_us = n0 - 15019) as ->.
  { symmetry. apply Z.div_unique with (r := sunset c - n0 * 86400000000 - 43200000000); unfold day_us, half_us; lia. }
  rewrite (ymd2ord_real d k C). change (ymd2ord (mkDate 1899 12 31)) with 693595.
  replace (Z.of_nat k + 1 - 693595 - (n0 - 15019)) with (Z.of_nat i) by lia.
  destruct (Z.lt_ge_cases (Z.of_nat i) (Z.of_nat (length al))) as [L|L].
  - destruct (py_get_pos al (Z.of_nat i) ltac:(lia)) as (a & Ga & Na). rewrite Ga. cbn [bind]. rewrite Out by lia. reflexivity.
  - rewrite Out by lia. reflexivity.
Qed.
Print Assumptions C90_past_end.
(** (false of the code) nights before the almanac are taken from its end *)
Definition three_nights : list night :=
  let d := 86400000000 in let h := 3600000000 in
  map (fun i => mkNight (i * d + 23 * h) (i * d + 24 * h) (i * d + 34 * h)) [60000; 60001; 60002].
Lemma three_nights_regular : regular_almanac three_nights 60000 0.
Proof.
  split.
  - intros [|[|[|i]]] n H; simpl in H; try (injection H as <-; simpl; lia). destruct i; discriminate.
  - intros i j n m H1 H2. 
    destruct i as [|[|[|i]]]; simpl in H1; try (destruct i; discriminate);
    destruct j as [|[|[|j]]]; simpl in H2; try (destruct j; discriminate);
      injection H1 as <-; injection H2 as <-; simpl; lia.
Qed.
Theorem C90_before_almanac_refuted : exists al n0 k d start dur,
  regular_almanac al n0 0 /\ counted k d /\ Z.of_nat k - 678575 < n0 /\
  sim_start_and_end al (year d * 10000 + month d * 100 + day d) 1 0 = Ok (start, dur) /\ ~ observing_day start d.
Proof.
  exists three_nights, 60000, (Z.to_nat 738574), (mkDate 2023 2 24), (60002 * 86400000000 + 24 * 3600000000), (10 * 3600000000).
  split; [apply three_nights_regular|]. split.
  { apply counted_iff. rewrite Z2Nat.id by lia. vm_compute. reflexivity. }
  split; [rewrite Z2Nat.id by lia; lia|]. split; [vm_compute; reflexivity|].
  intros D. apply observing_day_iff in D as [_ D]. vm_compute in D. discriminate.
Qed.
Print Assumptions C90_before_almanac_refuted.
Example C90_case : sim_start_and_end three_nights 20230226 2 0 = Ok (60001 * day_us + 24 * 3600000000, 34 * 3600000000).
Proof. reflexivity. Qed.

(** C91 (false of the code): the simulation is in the index of one telescope, but there is no index for the other *)
Theorem C91_lookup_refuted : exists rows r, In r rows /\
  lookup_uuid [Some rows; None] (ir_day r) (ir_daily r) = Err AttributeError /\
  lookup_uuid [None; Some rows] (ir_day r) (ir_daily r) = Err AttributeError.
Proof. exists [mkIrow 5 60000 1], (mkIrow 5 60000 1). split; [left; auto|]. split; reflexivity. Qed.
Print Assumptions C91_lookup_refuted.
(** what holds: with an index for every telescope, the only row with that creation day and daily id is found, and
    ValueError is raised when there is none *)
Theorem C91_lookup_partial : forall tables sim_date daily_id,
  let matches := filter (fun r => (ir_day r =? sim_date) && (ir_daily r =? daily_id)) (concat tables) in
  (forall r, matches = [r] -> lookup_uuid (map Some tables) sim_date daily_id = Ok (ir_uuid r)) /\
  (matches = [] -> lookup_uuid (map Some tables) sim_date daily_id = Err ValueError).
Proof.
  intros tables sd di. cbv zeta. unfold lookup_uuid.
  assert (forall ts m, filter (fun r => (ir_day r =? sd) && (ir_daily r =? di)) (concat ts) = [] ->
    fold_left (lookup_step sd di) (map Some ts) (Ok m) = Ok m) as N.
  { induction ts as [|t ts IH]; intros m H; auto. simpl concat in H. rewrite filter_app in H.
    apply app_eq_nil in H as [H1 H2]. cbn [map fold_left]. unfold lookup_step at 2. cbn [bind]. rewrite H1. auto. }
  split.
  - intros r H. assert (fold_left (lookup_step sd di) (map Some tables) (Ok None) = Ok (Some (ir_uuid r))) as ->; auto.
    generalize (@None nat) as m. revert H. induction tables as [|t ts IH]; intros H m; [discriminate|].
    simpl concat in H. rewrite filter_app in H. cbn [map fold_left]. unfold lookup_step at 2. cbn [bind].
    destruct (filter _ t) as [|x l] eqn:E.
    + auto.
    + simpl in H. injection H as -> H. apply app_eq_nil in H as [-> H]. apply N; auto.
  - intros H. rewrite N by auto. reflexivity.
Qed.
Print Assumptions C91_lookup_partial.
Example C91_case : lookup_uuid [Some [mkIrow 5 60000 1; mkIrow 6 60000 2]; Some [mkIrow 7 60000 3]] 60000 3 = Ok 7%nat /\
  lookup_uuid [Some [mkIrow 5 60000 1]; Some []] 60001 1 = Err ValueError.
Proof. split; reflexivity. Qed.

(** C92: day_obs as integer, date, or text of digits means the same night in both lookups *)
Lemma compact_digits d : year4 d -> parse_int (pad4 (year d) ++ pad2 (month d) ++ pad2 (day d))%string = Ok (year d * 10000 + month d * 100 + day d).
Proof. intros H. rewrite <- drop_dashes_iso. apply parse_compact; auto. Qed.
Theorem C92_day_obs_forms_partial : forall d s, real_date d -> year d <= 9999 -> iso_text s d ->
  let n := year d * 10000 + month d * 100 + day d in
  uuid_day_obs (DStr s) = Ok n /\ uuid_day_obs (DDate d) = Ok n /\ uuid_day_obs (DInt n) = Ok n /\
  metadata_day_obs (DStr (drop_dashes s)) = Ok n /\ metadata_day_obs (DDate d) = Ok n /\ metadata_day_obs (DInt n) = Ok n.
Proof.
  intros d s R Y T n. assert (year4 d) as Y4 by (apply real_date_iff in R as [? ?]; split; auto; lia).
  apply iso_text_unique in T; auto. subst s.
  split; [apply parse_compact; auto|]. split; [apply compact_digits; auto|]. split; [reflexivity|].
  split; [apply parse_compact; auto|]. split; [apply compact_digits; auto|reflexivity].
Qed.
Print Assumptions C92_day_obs_forms_partial.
(** (false of the code) the metadata lookup rejects every date written YYYY-MM-DD *)
Theorem C92_iso_text_refuted : forall y m e, String.length y = 4%nat -> metadata_day_obs (DStr (y ++ "-" ++ m ++ "-" ++ e)%string) = Err ValueError.
Proof.
  intros y m e L. cbn [metadata_day_obs].
  assert (forall s u acc, digits_from acc (s ++ String "-"%char u) = None) as K.
  { induction s as [|c s IH]; intros u acc; cbn [append digits_from]; [reflexivity|]. destruct (digit_val c); auto. }
  change (y ++ "-" ++ m ++ "-" ++ e)%string with (y ++ String "-"%char (m ++ "-" ++ e))%string.
  unfold parse_int. rewrite K. destruct (y ++ _)%string; reflexivity.
Qed.
Print Assumptions C92_iso_text_refuted.
Example C92_case : uuid_day_obs (DStr "2025-03-01"%string) = Ok 20250301 /\ metadata_day_obs (DStr "2025-03-01"%string) = Err ValueError.
Proof. split; reflexivity. Qed.

(** C93 (false of the code): the same age limit is whole days rounded down in one search, exact in the other *)
Theorem C93_age_limits_refuted : exists now s, eligible now [] 2 s /\
  select_latest (fun _ => now) [s] [] 2 = Some s /\ query_age_ok now (ps_created s) 2 = false.
Proof.
  exists (3 * 86400000000 - 1), (mkPsim 1 [] 0). split; [split; [intros g []|simpl; lia]|]. split; reflexivity.
Qed.
Print Assumptions C93_age_limits_refuted.
Theorem C93_age_limits_partial : forall now s tags max_age, tagged_all tags (ps_tags s) ->
  (query_age_ok now (ps_created s) max_age = true -> select_latest (fun _ => now) [s] tags max_age = Some s) /\
  (select_latest (fun _ => now) [s] tags max_age = Some s -> query_age_ok now (ps_created s) (max_age + 1) = true).
Proof.
  intros now s tags m T. pose proof (C40_latest_selected (fun _ => now) [s] tags m) as H. unfold query_age_ok, day_us.
  rewrite !Z.leb_le. split; intros Q.
  - destruct (select_latest _ [s] tags m) as [r|].
    + destruct H as ([|[|i]] & Hi & _); simpl in Hi; congruence.
    + exfalso. apply (H 0%nat s eq_refl). split; auto. lia.
  - rewrite Q in H. destruct H as (i & _ & [_ E] & _). lia.
Qed.
Print Assumptions C93_age_limits_partial.
Example C93_case : query_age_ok (5 * day_us) (3 * day_us) 2 = true /\ query_age_ok (5 * day_us) (3 * day_us - 1) 2 = false.
Proof. split; reflexivity. Qed.
