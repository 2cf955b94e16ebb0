(** Property theorems: C44, C45, C88, C89. *)
From Verif Require Import Base Calendar_Model Calendar_Spec Calendar_Proofs.
From Coq Require Import Ascii Lia.
Open Scope Z_scope.

(** C44: every way in which the code computes the observing day of a time gives the date d whose noon-to-noon day
    contains the time *)
Theorem C44_day_obs_agree : forall t d, observing_day t d -> year d <= 9999 ->
  (day_obs_mjd t * 86400000000 + 43200000000 <= t < day_obs_mjd t * 86400000000 + 43200000000 + 86400000000) /\
  iso_text (day_obs_iso t) d /\
  day_obs_int t = Ok (year d * 10000 + month d * 100 + day d) /\
  stats_day_obs t = d /\
  iso_text (convert_mjd_to_dayobs t) d /\
  now_day_obs t = d /\
  dayobs_to_date (DTime t) = Ok d /\
  dayobs_to_date (DStr (day_obs_iso t)) = Ok d.
Proof.
  intros t d H Hy. pose proof (observing_day_fields t d H) as [F Y]. assert (year4 d) as Y4 by (split; auto; lia).
  assert (valid_date d = true) as V by (apply valid_date_iff; split; auto; apply real_date_iff; auto).
  apply observing_day_iff in H as [Hr Hd].
  assert (day_obs_iso t = isoformat d) as E by (unfold day_obs_iso; rewrite iso_of_midnight, Hd; auto).
  assert (datetime_date (t - half_us) = d) as E2 by (rewrite Hd; reflexivity).
  split; [apply (day_bounds t)|]. split; [rewrite E; apply iso_text_isoformat; auto|].
  split; [unfold day_obs_int; rewrite E; apply parse_compact; auto|]. split; [exact E2|].
  split. { unfold convert_mjd_to_dayobs. fold (day_obs_mjd t). rewrite iso_of_midnight, <- Hd. apply iso_text_isoformat; auto. }
  split; [exact E2|]. split; [simpl; rewrite E2; auto|]. simpl. rewrite E. apply fromiso_iso; auto.
Qed.
Print Assumptions C44_day_obs_agree.
(** every time from noon of 1 January of year 1 on has one and only one observing day *)
Theorem C44_one_day : forall t, (-678575) * 86400000000 + 43200000000 <= t ->
  exists d, observing_day t d /\ forall d', observing_day t d' -> d' = d.
Proof.
  intros t H. pose proof (day_bounds t) as B. cbv zeta in B. unfold day_us, half_us in B.
  exists (date_of_mjd (day_obs_mjd t)). split.
  - apply observing_day_iff. split; auto. unfold mjd_ordinal. lia.
  - intros d' D. apply observing_day_iff in D. tauto.
Qed.
Print Assumptions C44_one_day.
(** MJD 60000.4 and 60000.6 *)
Example C44_case :
  day_obs_iso (60000 * day_us + 34560000000) = "2023-02-24"%string /\
  day_obs_iso (60000 * day_us + 51840000000) = "2023-02-25"%string /\
  day_obs_int (60000 * day_us + 51840000000) = Ok 20230225 /\
  observing_day (60000 * day_us + 51840000000) (mkDate 2023 2 25).
Proof.
  split; [reflexivity|]. split; [reflexivity|]. split; [reflexivity|]. apply observing_day_iff. split; [|reflexivity].
  vm_compute. discriminate.
Qed.

(** C45 *)
Theorem C45_int_round_trip : forall d, real_date d -> year d <= 9999 ->
  dayobs_to_date (DInt (year d * 10000 + month d * 100 + day d)) = Ok d.
Proof. exact int_round_trip. Qed.
Print Assumptions C45_int_round_trip.
Theorem C45_only_dates : forall n,
  match dayobs_to_date (DInt n) with
  | Ok d => real_date d /\ year d <= 9999 /\ n = year d * 10000 + month d * 100 + day d
  | Err e => e = ValueError /\ forall d, real_date d -> year d <= 9999 -> n <> year d * 10000 + month d * 100 + day d
  end.
Proof.
  intros n. destruct (dayobs_to_date (DInt n)) as [d|e] eqn:E.
  - simpl in E. unfold make_date in E. destruct (valid_date _) eqn:V in E; [|discriminate]. injection E as <-.
    apply valid_date_iff in V as [R Y]. split; auto. split; auto. simpl.
    pose proof (Z.div_mod n 100 ltac:(lia)). pose proof (Z.div_mod (n / 100) 100 ltac:(lia)).
    rewrite Z.div_div in * by lia. change (100 * 100) with 10000 in *. lia.
  - split.
    + simpl in E. unfold make_date in E. destruct (valid_date _) in E; congruence.
    + intros d R Y ->. rewrite C45_int_round_trip in E by auto. discriminate.
Qed.
Print Assumptions C45_only_dates.
(** false of the code for the integers of a column (numpy integers), which are not instances of int *)
Theorem C45_column_refuted : ~ (forall d, real_date d -> year d <= 9999 -> dayobs_to_date (DNumpyInt (year d * 10000 + month d * 100 + day d)) = Ok d).
Proof.
  intros C. assert (real_date (mkDate 2024 2 29)) as R by (apply (valid_date_iff (mkDate 2024 2 29)); reflexivity). specialize (C _ R ltac:(simpl; lia)). discriminate C.
Qed.
Print Assumptions C45_column_refuted.
Example C45_case : dayobs_to_date (DInt 20240229) = Ok (mkDate 2024 2 29) /\ dayobs_to_date (DInt 20230229) = Err ValueError
  /\ dayobs_to_date (DInt 20241301) = Err ValueError /\ dayobs_to_date (DInt (-20240101)) = Err ValueError.
Proof. repeat split. Qed.

(** C88: comparing texts compares dates *)
Theorem C88_night_range_filter : forall s1 s2 first last ts,
  real_date first -> year first <= 9999 -> iso_text s1 first ->
  real_date last -> year last <= 9999 -> iso_text s2 last ->
  (forall t, In t ts -> exists d, observing_day t d /\ year d <= 9999) ->
  forall t, In t (on_requested_dates s1 s2 ts) <->
    In t ts /\ exists d, observing_day t d /\ not_later first d /\ not_later d last.
Proof.
  intros s1 s2 first last ts R1 Y1 T1 R2 Y2 T2 Hts t.
  assert (year4 first) as F1 by (apply real_date_iff in R1 as [? ?]; split; auto; lia).
  assert (year4 last) as F2 by (apply real_date_iff in R2 as [? ?]; split; auto; lia).
  apply iso_text_unique in T1, T2; auto. subst. unfold on_requested_dates. rewrite filter_In, andb_true_iff.
  split; intros [Hi H]; split; auto; destruct (Hts t Hi) as (d & D & Yd);
    assert (year4 d) as F by (destruct (observing_day_fields t d D); split; auto; lia);
    assert (day_obs_iso t = isoformat d) as E by
      (apply observing_day_iff in D as [_ ->]; unfold day_obs_iso; apply iso_of_midnight).
  - rewrite E, !leb_iso in H by auto. exists d. tauto.
  - rewrite E, !leb_iso by auto. destruct H as (d' & D' & H). 
    apply observing_day_iff in D as [_ ->], D' as [_ ->]. auto.
Qed.
Print Assumptions C88_night_range_filter.
(** the order of the visits and their multiplicity are kept *)
Theorem C88_order_kept : forall s1 s2 ts us,
  on_requested_dates s1 s2 (ts ++ us) = on_requested_dates s1 s2 ts ++ on_requested_dates s1 s2 us.
Proof. intros. apply filter_app. Qed.
Print Assumptions C88_order_kept.
Example C88_case : on_requested_dates "2023-02-24" "2023-02-25"
  [60000 * day_us; 59999 * day_us; 60001 * day_us + half_us; 60001 * day_us + half_us - 1; 59999 * day_us + half_us]
  = [60000 * day_us; 60001 * day_us + half_us - 1; 59999 * day_us + half_us].
Proof. reflexivity. Qed.

(** C89 (false of the code): in the last half millisecond before noon UTC the text made without rounding down to
    a whole day first is that of the following night *)
Theorem C89_shifted_text_refuted : exists t d d', observing_day t d /\ iso_text (shifted_iso t) d' /\ next_date d d' /\
  iso_text (day_obs_iso t) d.
Proof.
  exists (60001 * day_us + half_us - 500), (mkDate 2023 2 25), (mkDate 2023 2 26).
  assert (observing_day (60001 * day_us + half_us - 500) (mkDate 2023 2 25)) as D.
  { apply observing_day_iff. split; [vm_compute; discriminate|reflexivity]. }
  split; auto. split; [|split].
  - assert (shifted_iso (60001 * day_us + half_us - 500) = isoformat (mkDate 2023 2 26)) as -> by reflexivity.
    apply iso_text_isoformat. unfold year4, fields, days_in_month, month_len; simpl. lia.
  - apply Next_day. intros H. apply last_of_month_spec in H; [vm_compute in H; discriminate|lia].
  - apply C44_day_obs_agree; auto. simpl; lia.
Qed.
Print Assumptions C89_shifted_text_refuted.
(** what holds: it is the observing day of the time half a millisecond later, hence right outside that interval *)
Theorem C89_shifted_text_partial : forall t d, year d <= 9999 ->
  (observing_day (t + 500) d -> iso_text (shifted_iso t) d) /\
  (observing_day t d -> (t - 43200000000) mod 86400000000 < 86400000000 - 500 -> iso_text (shifted_iso t) d).
Proof.
  intros t d Y.
  assert (observing_day (t + 500) d -> iso_text (shifted_iso t) d) as A.
  { intros D. unfold shifted_iso. rewrite iso_of_time. pose proof (observing_day_fields _ _ D) as [F ?].
    apply observing_day_iff in D as [_ E]. unfold day_obs_mjd in E.
    replace (t - half_us + 500) with (t + 500 - half_us) by lia. rewrite <- E. apply iso_text_isoformat. split; auto; lia. }
  split; auto. intros D H. apply A. apply observing_day_iff in D as [D1 D2]. apply observing_day_iff.
  assert (day_obs_mjd (t + 500) = day_obs_mjd t) as ->; auto.
  unfold day_obs_mjd. unfold half_us, day_us.
  pose proof (Z.div_mod (t - 43200000000) 86400000000 ltac:(lia)). pose proof (Z.mod_pos_bound (t - 43200000000) 86400000000 ltac:(lia)).
  symmetry. apply Z.div_unique with (r := (t - 43200000000) mod 86400000000 + 500); lia.
Qed.
Print Assumptions C89_shifted_text_partial.
Example C89_case : shifted_iso (60000 * day_us) = "2023-02-24"%string.
Proof. reflexivity. Qed.
