(** Theorems about outbursts (cases and limits of C348 and C349), generated events and the colours of kilonovae: C350, C352. *)
From Coq Require Import String Reals Lra Lia ZArith List Bool Permutation.
From Verif Require Import Base Depth_Model Depth_Proofs Template_Model Sky_Proofs Pop_Model Pop_Spec Runs_Spec Plane_Spec Pop_Props Pop_Props2 Pop_Props7.
From Verif Require Runs_Props.
Import ListNotations.
Open Scope R_scope.

(** * Outbursts *)
Lemma rb_t a b : a <= b -> rleb a b = true. Proof. apply rleb_true. Qed.
Lemma rb_f a b : b < a -> rleb a b = false. Proof. apply rleb_false. Qed.
Lemma rl_t a b : a < b -> rltb a b = true. Proof. apply rltb_true. Qed.
Lemma rl_f a b : b <= a -> rltb a b = false. Proof. apply rltb_false. Qed.
(** an outburst that is brightest two days after its start and then of magnitude [m0 - 5] *)
Definition burst (m0 : R) : outburst :=
  {| b_rise := 1; b_decay := 4; b_amplitude := 100; b_duration := 9; b_abs := [("u", m0); ("g", m0); ("r", m0); ("i", m0); ("z", m0); ("y", m0)]%string |}.
Definition clear_sky : list (string * R) := [("u", 0); ("g", 0); ("r", 0); ("i", 0); ("z", 0); ("y", 0)]%string.
Lemma burst_peak : fred 2 100 1 4 = 100.
Proof. apply C347_peak; try lra. replace (1 * 4) with (2 * 2) by ring. rewrite sqrt_square; lra. Qed.
Lemma log100 : log10 100 = 2.
Proof. unfold log10. pose proof ln10_pos. replace 100 with (10 * 10) by ring. rewrite ln_mult by lra. field. lra. Qed.
Lemma log_ten : log10 (1 / 100 * 1000) = 1.
Proof. unfold log10. pose proof ln10_pos. replace (1 / 100 * 1000) with 10 by field. field. lra. Qed.
Lemma burst_two m0 band : In band ["u"; "g"; "r"; "i"; "z"; "y"]%string -> xrb_apparent clear_sky (burst m0) 0 (1 / 100) 2 band = Ok (Some (m0 - 5)).
Proof.
  intros B. unfold xrb_apparent, xrb_mag, burst. cbn [b_duration b_abs b_amplitude b_rise b_decay].
  rewrite (rb_t 0 2) by lra. rewrite (rb_t 2 9) by lra. cbn [andb]. destruct (Req_EM_T 2 0) as [Z|_]; [lra|]. rewrite burst_peak, log100.
  cbn in B. repeat (destruct B as [<-|B]; [unfold dimmed, lookup, clear_sky; cbn [dget String.eqb Ascii.eqb Bool.eqb bind]; rewrite log_ten; do 2 f_equal; lra|]). destruct B.
Qed.
Lemma burst_over m0 band : In band ["u"; "g"; "r"; "i"; "z"; "y"]%string -> xrb_apparent clear_sky (burst m0) 0 (1 / 100) 10 band = Ok (Some 99).
Proof.
  intros B. unfold xrb_apparent, xrb_mag, burst. cbn [b_duration b_abs b_amplitude b_rise b_decay].
  rewrite (rb_t 0 10) by lra. rewrite (rb_f 10 9) by lra. cbn [andb bind].
  cbn in B. repeat (destruct B as [<-|B]; [unfold dimmed, lookup, clear_sky; cbn [dget String.eqb Ascii.eqb Bool.eqb bind]; rewrite log_ten; do 2 f_equal; lra|]). destruct B.
Qed.
Lemma burst_range m0 : detectable_duration clear_sky (burst m0) 0 (1 / 100) [2; 10] = Ok (if rleb (m0 - 5) 25 then Some (2, 2) else None).
Proof.
  unfold detectable_duration, depths. cbn [duration_loop]. unfold visible_in. cbn [each].
  rewrite !(burst_two m0) by (cbn; tauto). rewrite !(burst_over m0) by (cbn; tauto). cbn [bind combine filter map fst snd].
  rewrite (rb_f 99 23.9), (rb_f 99 25), (rb_f 99 24.7), (rb_f 99 24), (rb_f 99 23.3), (rb_f 99 22.1) by lra.
  assert (R0 : rltb 2 2 = false) by (apply rltb_false; lra). assert (R1 : rleb 2 2 = true) by (apply rleb_true; lra).
  destruct (rleb (m0 - 5) 25) eqn:G; [apply rleb_true in G|apply rleb_false in G].
  - destruct (rleb (m0 - 5) 23.9), (rleb (m0 - 5) 24.7), (rleb (m0 - 5) 24), (rleb (m0 - 5) 23.3), (rleb (m0 - 5) 22.1);
      cbn [map fst bind]; unfold widen; cbn [last]; rewrite ?R0, ?R1; reflexivity.
  - rewrite (rb_f (m0 - 5) 23.9), (rb_f (m0 - 5) 24.7), (rb_f (m0 - 5) 24), (rb_f (m0 - 5) 23.3), (rb_f (m0 - 5) 22.1) by lra. reflexivity.
Qed.
Example C348_case : detectable_duration clear_sky (burst 3) 0 (1 / 100) [2; 10] = Ok (Some (2, 2)) /\ Increasing [2; 10] /\ VisibleAt clear_sky (burst 3) 0 (1 / 100) 2.
Proof.
  assert (E : detectable_duration clear_sky (burst 3) 0 (1 / 100) [2; 10] = Ok (Some (2, 2))) by (rewrite burst_range; rewrite (rb_t (3 - 5) 25) by lra; reflexivity).
  assert (I : Increasing [2; 10]). { intros i j x y L X Y. destruct i as [|[|[|]]], j as [|[|[|]]]; cbn in X, Y; try discriminate; try lia. injection X as <-; injection Y as <-; lra. }
  split; [exact E|]. split; [exact I|]. assert (D : 0 < b_duration (burst 3)) by (cbn; lra). apply (C348_range _ _ _ _ _ _ D I) in E. cbn in E. tauto.
Qed.
Lemma burst_seen m0 m5 n : m0 - 5 < m5 -> xrb_seen clear_sky (burst m0) 0 (1 / 100) (0 + 0) (repeat {| e_mjd := 2; e_m5 := m5; e_band := "r" |} n) = Ok (repeat 2 n).
Proof.
  intros L. unfold xrb_seen. assert (E : each (fun v => xrb_apparent clear_sky (burst m0) 0 (1 / 100) (e_mjd v - (0 + 0)) (e_band v)) (repeat {| e_mjd := 2; e_m5 := m5; e_band := "r" |} n) = Ok (repeat (Some (m0 - 5)) n)).
  { induction n as [|n IH]; [reflexivity|]. cbn [repeat each e_mjd e_band]. replace (2 - (0 + 0)) with 2 by ring. rewrite burst_two by (cbn; tauto). cbn [bind]. rewrite IH. reflexivity. }
  rewrite E. cbn [bind]. f_equal. clear E. induction n as [|n IH]; [reflexivity|]. cbn [repeat combine filter snd fst e_m5]. rewrite (rl_t (m0 - 5) m5) by lra. cbn [map fst e_mjd]. rewrite IH. f_equal. ring.
Qed.
(** two detections at the peak of an outburst visible from then on for a while *)
Example C349_case : exists r, xrb_run clear_sky 2 2 7 0 (burst 3) 0 (1 / 100) 0 (Some (1, 7)) (repeat {| e_mjd := 2; e_m5 := 24; e_band := "r" |} 2) = Ok r
  /\ x_ever r = true /\ x_early r = true /\ x_number r = 2%nat /\ x_mean r = Some 2.
Proof.
  unfold xrb_run. rewrite (burst_seen 3 24 2) by lra. cbn [bind]. eexists. split; [reflexivity|]. cbn [x_ever x_early x_number x_mean repeat length Nat.leb filter].
  rewrite (rb_t 2 7) by lra. cbn. repeat (split; [reflexivity|]). apply f_equal. field.
Qed.
(** detected, though the metric says that it cannot be detected: the visits go deeper than the depths assumed; and the mean time between
    detections is then NaN and not badval *)
Theorem C349_possible_refuted : exists times b ebv dist range vs r, Increasing times /\ 0 < b_duration b
  /\ detectable_duration clear_sky b ebv dist times = Ok range /\ xrb_run clear_sky 2 2 7 0 b ebv dist 0 range vs = Ok r
  /\ x_possible r = false /\ x_ever r = true /\ x_early r = true /\ (forall badval, reduce_mean badval (x_mean r) = None).
Proof.
  exists [2; 10], (burst 31), 0, (1 / 100), None, (repeat {| e_mjd := 2; e_m5 := 27; e_band := "r" |} 2). unfold xrb_run. rewrite (burst_seen 31 27 2) by lra. cbn [bind].
  eexists. split; [|split; [|split; [|split; [reflexivity|]]]].
  - apply C348_case.
  - cbn. lra.
  - rewrite burst_range. rewrite (rb_f (31 - 5) 25) by lra. reflexivity.
  - cbn [x_possible x_ever x_early x_mean repeat length Nat.leb filter]. rewrite (rb_t 2 7) by lra. cbn. auto.
Qed.
Print Assumptions C349_possible_refuted.

(** * Generated events *)
Lemma pow4_pos x : 0 < x -> 0 < x ^ 4.
Proof. intros. apply pow_lt. assumption. Qed.
Lemma pow4_lt x y : 0 < x -> x < y -> x ^ 4 < y ^ 4.
Proof. intros X L. assert (A : x * x < y * y) by nra. assert (B : 0 < x * x) by nra. replace (x ^ 4) with ((x * x) * (x * x)) by ring. replace (y ^ 4) with ((y * y) * (y * y)) by ring. nra. Qed.
Lemma pow4_le x y : 0 < x -> 0 < y -> (x ^ 4 <= y ^ 4 <-> x <= y).
Proof.
  intros X Y. split; intros H.
  - destruct (Rle_lt_dec x y) as [L|L]; [exact L|]. pose proof (pow4_lt y x Y L). lra.
  - destruct H as [L| ->]; [left; apply pow4_lt; assumption|lra].
Qed.
Lemma root4 z : 0 < z -> 0 < Rpower z (1 / 4) /\ (Rpower z (1 / 4)) ^ 4 = z.
Proof.
  intros Z. assert (P : 0 < Rpower z (1 / 4)) by apply exp_pos. split; [exact P|].
  rewrite <- Rpower_pow by exact P. rewrite Rpower_mult. replace (1 / 4 * INR 4) with 1 by (cbn; field). apply Rpower_1. exact Z.
Qed.
(** C350: a distance is in the range asked for; the part of the events nearer than [x] is (x^4 - a^4) / (b^4 - a^4) *)
Theorem C350_distance : forall a b r, 0 < a -> a < b -> 0 <= r < 1 ->
  a <= rndm a b r < b /\ forall x, a <= x <= b -> (rndm a b r <= x <-> r <= (x ^ 4 - a ^ 4) / (b ^ 4 - a ^ 4)).
Proof.
  intros a b r A AB Rr. unfold rndm. pose proof (pow4_pos a A) as A4. pose proof (pow4_lt a b A AB) as B4. set (z := a ^ 4 + (b ^ 4 - a ^ 4) * r).
  assert (Z0 : a ^ 4 <= z) by (unfold z; nra). assert (Z1 : z < b ^ 4) by (unfold z; nra). destruct (root4 z ltac:(lra)) as [P Q]. set (w := Rpower z (1 / 4)) in *. split.
  - split.
    + apply pow4_le; try assumption. lra.
    + destruct (Rlt_le_dec w b) as [L|L]; [exact L|]. apply pow4_le in L; lra.
  - intros x X. rewrite <- (pow4_le w x P ltac:(lra)). rewrite Q. unfold z.
    assert (D : 0 < b ^ 4 - a ^ 4) by lra. split; intros H.
    + apply (Rmult_le_reg_r (b ^ 4 - a ^ 4)); [exact D|]. unfold Rdiv. rewrite Rmult_assoc, Rinv_l by lra. lra.
    + apply (Rmult_le_compat_r (b ^ 4 - a ^ 4)) in H; [|lra]. unfold Rdiv in H. rewrite Rmult_assoc, Rinv_l in H by lra. lra.
Qed.
Print Assumptions C350_distance.
(** so not in proportion to the volume: only a sixteenth, not an eighth, of the volume's events are within half the largest distance *)
Theorem C350_volume_refuted : exists a b r x, 0 < a /\ a < b /\ 0 <= r < 1 /\ a <= x <= b /\ r <= (x ^ 3 - a ^ 3) / (b ^ 3 - a ^ 3) /\ x < rndm a b r.
Proof.
  exists 1, 2, (1 / 3), (3 / 2). destruct (C350_distance 1 2 (1 / 3)) as [_ H]; try lra. repeat (split; [lra|]).
  destruct (Rle_lt_dec (rndm 1 2 (1 / 3)) (3 / 2)) as [L|L]; [|exact L]. apply H in L; [|lra]. exfalso. lra.
Qed.
Print Assumptions C350_volume_refuted.
(** the light curves are used equally often, and only those that there are *)
Theorem C350_files : forall n q k, (0 < n)%nat -> 0 <= q < 1 ->
  (0 <= file_index (INR n) q < Z.of_nat n)%Z /\ (file_index (INR n) q = k <-> IZR k / INR n <= q < IZR (k + 1) / INR n).
Proof.
  intros n q k N Q. unfold file_index. replace (0 + (INR n - 0) * q) with (INR n * q) by ring. assert (N0 : 0 < INR n) by (apply lt_0_INR; exact N).
  destruct (base_Int_part (INR n * q)) as [B1 B2]. set (f := Int_part (INR n * q)) in *. split.
  - split.
    + apply Z.lt_succ_r. apply lt_IZR. rewrite succ_IZR. nra.
    + apply lt_IZR. rewrite <- INR_IZR_INZ. nra.
  - assert (S1 : IZR k / INR n <= q <-> IZR k <= INR n * q).
    { split; intros H.
      - apply (Rmult_le_compat_r (INR n)) in H; [|lra]. unfold Rdiv in H. rewrite Rmult_assoc, Rinv_l in H by lra. lra.
      - apply (Rmult_le_reg_r (INR n)); [exact N0|]. unfold Rdiv. rewrite Rmult_assoc, Rinv_l by lra. lra. }
    assert (S2 : q < IZR (k + 1) / INR n <-> INR n * q < IZR (k + 1)).
    { split; intros H.
      - apply (Rmult_lt_compat_r (INR n)) in H; [|lra]. unfold Rdiv in H. rewrite Rmult_assoc, Rinv_l in H by lra. lra.
      - apply (Rmult_lt_reg_r (INR n)); [exact N0|]. unfold Rdiv. rewrite Rmult_assoc, Rinv_l by lra. lra. }
    rewrite S1, S2, plus_IZR. split.
    + intros <-. lra.
    + intros [L1 L2]. assert (f < k + 1)%Z by (apply lt_IZR; rewrite plus_IZR; lra). assert (k < f + 1)%Z by (apply lt_IZR; rewrite plus_IZR; lra). lia.
Qed.
Print Assumptions C350_files.
(** so that every generated event has a light curve when as many files are announced as there are, and may not when there are fewer *)
Theorem C350_found : forall (curves : list curve) q, curves <> [] -> 0 <= q < 1 -> exists lc, nth_error curves (Z.to_nat (file_index (INR (length curves)) q)) = Some lc.
Proof.
  intros curves q N Q. assert (L : (0 < length curves)%nat) by (destruct curves; [congruence|cbn; lia]). destruct (C350_files (length curves) q 0 L Q) as [B _].
  destruct (nth_error curves (Z.to_nat (file_index (INR (length curves)) q))) as [lc|] eqn:E; [exists lc; reflexivity|]. apply nth_error_None in E. lia.
Qed.
Print Assumptions C350_found.
Theorem C350_missing_refuted : forall curves ax1 ebv d t band, (length curves < 308)%nat -> exists q, 0 <= q < 1 /\ apparent curves ax1 (Z.to_nat (file_index (INR 308) q)) ebv (Some d) t band = Err IndexError.
Proof.
  intros curves ax1 ebv d t band L. exists (307 / 308). split; [lra|]. assert (I : INR 308 = 308) by (rewrite INR_IZR_INZ; reflexivity).
  destruct (C350_files 308 (307 / 308) 307) as [_ H]; [lia|lra|]. rewrite (proj2 H) by (rewrite I; cbn; lra). unfold apparent, arr_get.
  change (Z.to_nat 307) with 307%nat. rewrite (proj2 (nth_error_None curves 307)) by lia. reflexivity.
Qed.
Print Assumptions C350_missing_refuted.
(** and an event happens within the survey *)
Theorem C350_time : forall a b q, a < b -> 0 <= q < 1 -> a <= peak_time a b q < b /\ forall x, a <= x <= b -> (peak_time a b q < x <-> q < (x - a) / (b - a)).
Proof.
  intros a b q L Q. unfold peak_time. split; [nra|]. intros x X. assert (D : 0 < b - a) by lra. split; intros H.
  - apply (Rmult_lt_reg_r (b - a)); [exact D|]. unfold Rdiv. rewrite Rmult_assoc, Rinv_l by lra. lra.
  - apply (Rmult_lt_compat_r (b - a)) in H; [|lra]. unfold Rdiv in H. rewrite Rmult_assoc, Rinv_l in H by lra. lra.
Qed.
Print Assumptions C350_time.
Example C350_case : file_index (INR 4) (1 / 2) = 2%Z /\ peak_time 1 3 (1 / 2) = 2.
Proof. split; [|unfold peak_time; lra]. apply C350_files; [lia|lra|]. assert (I : INR 4 = 4) by (cbn; lra). rewrite I. cbn. lra. Qed.

(** * The colours of kilonovae *)
Lemma nodup_two l : (2 <= length (nodup string_dec l))%nat <-> exists a b, In a l /\ In b l /\ a <> b.
Proof.
  split.
  - intros H. pose proof (NoDup_nodup string_dec l) as N. destruct (nodup string_dec l) as [|a [|b r]] eqn:E; cbn in H; try lia. exists a, b.
    assert (A : In a (nodup string_dec l)) by (rewrite E; left; reflexivity). assert (B : In b (nodup string_dec l)) by (rewrite E; right; left; reflexivity).
    apply nodup_In in A, B. split; [exact A|]. split; [exact B|]. inversion N as [|? ? X _]; subst. intros ->. apply X. left. reflexivity.
  - intros (a & b & A & B & D). apply (nodup_In string_dec) in A, B. destruct (nodup string_dec l) as [|x [|y r]]; cbn in A, B |- *; [tauto| |lia]. exfalso. apply D. destruct A as [<-|[]], B as [<-|[]]. reflexivity.
Qed.
Lemma count_two l f : (2 <= count_occ string_dec l f)%nat <-> exists i j, (i < j)%nat /\ nth_error l i = Some f /\ nth_error l j = Some f.
Proof.
  induction l as [|x l IH]; [cbn; split; [lia|]; intros (i & j & _ & H & _); destruct i; discriminate|]. cbn [count_occ]. destruct (string_dec x f) as [->|N].
  - split.
    + intros H. assert (0 < count_occ string_dec l f)%nat as C by lia. apply count_occ_In in C. apply In_nth_error in C. destruct C as [j J]. exists O, (S j). split; [lia|]. split; [reflexivity|exact J].
    + intros (i & j & L & I & J). destruct j as [|j]; [lia|]. cbn in J. apply nth_error_In in J. apply (count_occ_In string_dec) in J. lia.
  - rewrite IH. split.
    + intros (i & j & L & I & J). exists (S i), (S j). split; [lia|]. auto.
    + intros (i & j & L & I & J). destruct i as [|i]; [cbn in I; congruence|]. destruct j as [|j]; [lia|]. exists i, j. split; [lia|]. auto.
Qed.
(** C352: three detections, two of them in different bands and two of them in the same *)
Theorem C352_meaning : forall l, YesNo (presto_detect (length l) l)
  ((3 <= length l)%nat /\ (exists a b, In a l /\ In b l /\ a <> b) /\ exists f i j, (i < j)%nat /\ nth_error l i = Some f /\ nth_error l j = Some f).
Proof.
  intros l. unfold YesNo, presto_detect.
  assert (E : existsb (Nat.leb 2) (counts_of l) = true <-> exists f i j, (i < j)%nat /\ nth_error l i = Some f /\ nth_error l j = Some f).
  { rewrite existsb_exists. unfold counts_of. split.
    - intros (n & I & L). apply in_map_iff in I. destruct I as (f & <- & _). apply Nat.leb_le in L. apply count_two in L. exists f. exact L.
    - intros (f & i & j & L & I & J). exists (count_occ string_dec l f). split; [|apply Nat.leb_le; apply count_two; eauto]. apply in_map_iff. exists f. split; [reflexivity|]. apply nodup_In. apply nth_error_In in I. exact I. }
  rewrite <- E, <- nodup_two. destruct (Nat.ltb (length l) 3) eqn:E3; [apply Nat.ltb_lt in E3|apply Nat.ltb_ge in E3]; cbn [negb andb flag]; [right; split; [reflexivity|lia]|].
  destruct (Nat.ltb (length (nodup string_dec l)) 2) eqn:E2; [apply Nat.ltb_lt in E2|apply Nat.ltb_ge in E2]; cbn [negb andb flag]; [right; split; [reflexivity|lia]|].
  destruct (existsb (Nat.leb 2) (counts_of l)); cbn [flag]; [left; auto|right; split; [reflexivity|]; intros (_ & _ & X); discriminate].
Qed.
Print Assumptions C352_meaning.
(** the order does not matter, and one more detection never undoes a detection *)
Theorem C352_more : forall l l' s, Permutation l' (l ++ s) -> presto_detect (length l) l = 1%nat -> presto_detect (length l') l' = 1%nat.
Proof.
  intros l l' s P H. destruct (C352_meaning l) as [(_ & N & (a & b & A & B & D) & (f & F))|(E & _)]; [|congruence]. destruct (C352_meaning l') as [(E & _)|(_ & X)]; [exact E|]. exfalso. apply X.
  apply count_two in F. split; [|split].
  - rewrite (Permutation_length P), app_length. lia.
  - exists a, b. split; [|split; [|exact D]]; apply (Permutation_in _ (Permutation_sym P)), in_or_app; auto.
  - exists f. apply count_two. rewrite (proj1 (Permutation_count_occ string_dec l' (l ++ s)) P f), count_occ_app. lia.
Qed.
Print Assumptions C352_more.
(** three detections in three bands are not a detection, although they give two colours *)
Theorem C352_three_refuted : exists l, (3 <= length l)%nat /\ NoDup l /\ presto_detect (length l) l = 0%nat.
Proof.
  exists ["g"; "r"; "i"]%string. split; [cbn; lia|]. split; [|reflexivity]. repeat constructor; cbn; intuition discriminate.
Qed.
Print Assumptions C352_three_refuted.
Theorem C352_all_different : forall l, NoDup l -> presto_detect (length l) l = 0%nat.
Proof.
  intros l N. destruct (C352_meaning l) as [(_ & _ & _ & f & i & j & L & I & J)|(E & _)]; [|exact E]. exfalso.
  pose proof (proj1 (NoDup_nth_error l) N i j) as U. assert (i < length l)%nat by (apply nth_error_Some; congruence). specialize (U ltac:(assumption) ltac:(congruence)). lia.
Qed.
Print Assumptions C352_all_different.
Example C352_case : presto_detect 3 ["g"; "r"; "g"]%string = 1%nat.
Proof. reflexivity. Qed.
