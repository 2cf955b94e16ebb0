(** Properties C121 to C126: the transient metric. *)
From Verif Require Import Base Technical_Model Technical_Proofs Technical_Proofs3 Transient_Model Transient_Spec Transient_Proofs.
From Coq Require Import Lia Permutation Sorted.
Open Scope Z_scope.

(** parameters for examples: duration n*u, peak at [pk], flat light curve of magnitude 20 in three bands *)
Definition ex_params (u : Z) (n : nat) (pk sv : Z) (start : option Z) (npre nlc nf : Z) (part : bool) : params :=
  {| unit := u; n_phase := n; peak_time := pk; rise_slope := -1; decline_slope := 1; peaks := [("g", 20); ("r", 20); ("i", 21)]%string;
     survey := sv; survey_start := start; m5_plus := 0; n_pre_peak := npre; n_per_lc := nlc; n_filters := nf; partial_lc := part |}.
Definition ex_visit (t : Z) (b : string) : visit := {| vt := t; vm5 := 40; vband := b |}.
Lemma ex_sane u n pk sv npre nlc nf part : 0 < u -> (1 <= n)%nat -> 0 <= npre -> 1 <= nlc -> 1 <= nf -> sane (ex_params u n pk sv None npre nlc nf part).
Proof. intros. repeat split; assumption. Qed.

(** C121: the fraction detected is between 0 and 1 *)
Theorem C121_fraction_refuted :
  ~ (forall p visits start d m, sane p -> zmin_list (map vt visits) = Some start -> (forall v, In v visits -> vt v - start < survey p) ->
     run p visits = Ok (d, m) -> d <= m).
Proof.
  intros H. specialize (H (ex_params 10 1 3 25 None 0 1 1 false) [ex_visit 0 "r"; ex_visit 10 "r"; ex_visit 20 "r"] 0 3 2
    (ex_sane 10 1 3 25 0 1 1 false ltac:(lia) ltac:(lia) ltac:(lia) ltac:(lia) ltac:(lia)) eq_refl).
  assert (forall v, In v [ex_visit 0 "r"; ex_visit 10 "r"; ex_visit 20 "r"] -> vt v - 0 < 25) as Hv by (intros v [<-|[<-|[<-|[]]]]; cbn; lia). specialize (H Hv eq_refl). lia.
Qed.
Print Assumptions C121_fraction_refuted.
(** nor does counting partial light curves help when several phases are checked *)
Theorem C121_fraction_phases_refuted :
  ~ (forall p visits start d m, sane p -> partial_lc p = true -> zmin_list (map vt visits) = Some start -> (forall v, In v visits -> vt v - start < survey p) ->
     run p visits = Ok (d, m) -> d <= m).
Proof.
  intros H. specialize (H (ex_params 5 2 3 20 None 0 1 1 true) [ex_visit 0 "r"; ex_visit 10 "r"] 0 4 3
    (ex_sane 5 2 3 20 0 1 1 true ltac:(lia) ltac:(lia) ltac:(lia) ltac:(lia) ltac:(lia)) eq_refl eq_refl).
  assert (forall v, In v [ex_visit 0 "r"; ex_visit 10 "r"] -> vt v - 0 < 20) as Hv by (intros v [<-|[<-|[]]]; cbn; lia). specialize (H Hv eq_refl). lia.
Qed.
Print Assumptions C121_fraction_phases_refuted.
Theorem C121_fraction_partial : forall p visits start d m,
  sane p -> n_phase p = 1%nat -> partial_lc p = true -> zmin_list (map vt visits) = Some start -> (forall v, In v visits -> vt v - start < survey p) ->
  run p visits = Ok (d, m) -> 0 <= d <= m /\ 0 < m.
Proof.
  intros p visits start d m Hs H1 Hp Hz Hv H. pose proof (duration_pos p Hs) as Hd. unfold run in H. assert (survey_start p = None) as Es by apply Hs. rewrite Es, H1, Hz in H. cbn [seq map] in H. unfold zsum in H. cbn [fold_right] in H.
  injection H as Ed Em. apply zmin_spec in Hz. destruct Hz as [Hi Hmin]. unfold max_lcs in Em. rewrite Hp in Em.
  assert (forall g, In g (detected_lcs p start visits 0) -> 0 <= g < m) as Hg.
  { intros g Hg. apply filter_In in Hg. destruct Hg as [Hg _]. apply (proj1 (unique_z_in _ g)) in Hg. apply in_map_iff in Hg. destruct Hg as (v & <- & Hvi). pose proof (Hmin (vt v) (in_map vt _ _ Hvi)) as Hge. specialize (Hv v Hvi).
    unfold lc_number. split; [apply Z.div_pos; lia|]. apply Z.div_lt_upper_bound; [exact Hd|]. pose proof (Z.div_mod (survey p + duration p - 1) (duration p) ltac:(lia)). pose proof (Z.mod_pos_bound (survey p + duration p - 1) (duration p) Hd). nia. }
  apply in_map_iff in Hi. destruct Hi as (v0 & E0 & Hv0). specialize (Hv v0 Hv0).
  assert (0 < m) as Hm. { rewrite <- Em. pose proof (Z.div_mod (survey p + duration p - 1) (duration p) ltac:(lia)). pose proof (Z.mod_pos_bound (survey p + duration p - 1) (duration p) Hd). nia. }
  split; [|exact Hm]. assert (length (detected_lcs p start visits 0) <= length (zrange 0 (m - 1)))%nat as Hle.
  { apply NoDup_incl_length; [apply NoDup_filter, sorted_lt_nodup, unique_z_sorted|]. intros g Hgi. apply zrange_in. specialize (Hg g Hgi). lia. }
  unfold zrange in Hle. rewrite map_length, seq_length in Hle. lia.
Qed.
Print Assumptions C121_fraction_partial.
Example C121_case : let vs := [ex_visit 3 "r"; ex_visit 10 "r"; ex_visit 29 "u"; ex_visit 50 "y"] in
  run (ex_params 10 1 3 48 None 0 1 1 true) vs = Ok (3, 5) /\ run (ex_params 10 1 3 48 None 0 1 1 false) vs = Ok (3, 4) /\ run (ex_params 5 2 3 48 None 0 1 1 true) vs = Ok (6, 9).
Proof. repeat split; vm_compute; reflexivity. Qed.

(** C122: the survey may be said to start at a given time *)
Theorem C122_survey_start_refuted : forall p visits s, survey_start p = Some s -> (1 <= n_phase p)%nat -> run p visits = Err UnboundLocalError.
Proof. intros p visits s E Hn. unfold run. rewrite E. destruct (n_phase p); [lia | reflexivity]. Qed.
Print Assumptions C122_survey_start_refuted.
(** without it every slice with visits gives a value, which does not change when all times are shifted *)
Theorem C122_first_visit_partial : forall p visits, survey_start p = None -> visits <> [] ->
  (exists r, run p visits = Ok r) /\
  forall x, run p (map (fun v => {| vt := vt v + x; vm5 := vm5 v; vband := vband v |}) visits) = run p visits.
Proof.
  intros p visits Es Hne. set (sh := fun x v => {| vt := vt v + x; vm5 := vm5 v; vband := vband v |}). unfold run. rewrite Es.
  destruct (zmin_list (map vt visits)) as [start|] eqn:Ez; [|destruct visits; [contradiction | discriminate]]. split; [eexists; reflexivity|].
  intros x. change (fun v : visit => {| vt := vt v + x; vm5 := vm5 v; vband := vband v |}) with (sh x). assert (zmin_list (map vt (map (sh x) visits)) = Some (start + x)) as ->.
  { apply zmin_spec in Ez. destruct Ez as [Hi Hm]. destruct (zmin_list (map vt (map (sh x) visits))) as [m|] eqn:E2; [|destruct visits; [contradiction | discriminate]]. apply zmin_spec in E2. destruct E2 as [Hi2 Hm2]. rewrite map_map in *. f_equal.
    apply in_map_iff in Hi2. destruct Hi2 as (v & Ev & Hv). apply in_map_iff in Hi. destruct Hi as (w & Ew & Hw). specialize (Hm (vt v) (in_map vt _ _ Hv)). specialize (Hm2 _ (in_map (fun v => vt (sh x v)) _ _ Hw)). cbn in *. lia. }
  assert (forall v, lc_number p (start + x) (sh x v) = lc_number p start v) as E1 by (intros v; unfold lc_number; cbn [sh vt]; f_equal; lia).
  assert (forall i v, phase_time p (start + x) i (sh x v) = phase_time p start i v) as E2 by (intros i v; unfold phase_time; cbn [sh vt]; f_equal; lia).
  assert (forall i v, bright p (start + x) i (sh x v) = bright p start i v) as E3 by (intros i v; unfold bright; rewrite E2; reflexivity).
  assert (forall (P Q : visit -> bool) l, (forall v, P (sh x v) = Q v) -> filter P (map (sh x) l) = map (sh x) (filter Q l)) as Ef.
  { intros P Q l HPQ. induction l as [|v t IH]; [reflexivity|]. cbn [map filter]. rewrite HPQ. destruct (Q v); cbn [map]; rewrite IH; reflexivity. }
  assert (forall g, group p (start + x) (map (sh x) visits) g = map (sh x) (group p start visits g)) as Eg by (intros g; apply Ef; intros v; rewrite E1; reflexivity).
  assert (forall i grp, pre_ok p (start + x) i (map (sh x) grp) = pre_ok p start i grp) as Ep.
  { intros i grp. unfold pre_ok. rewrite (Ef _ (fun v => (phase_time p start i v <? peak_time p) && bright p start i v)) by (intros v; rewrite E2, E3; reflexivity). rewrite map_length. reflexivity. }
  assert (forall i grp v, det1 p (start + x) i (map (sh x) grp) (sh x v) = det1 p start i grp v) as E4 by (intros i grp v; unfold det1; rewrite E3, Ep; reflexivity).
  assert (forall i grp, bands_ok p (start + x) i (map (sh x) grp) = bands_ok p start i grp) as E5.
  { intros i grp. unfold bands_ok. cbv zeta. rewrite (Ef _ (fun v => 0 <? det1 p start i grp v)) by (intros v; rewrite E4; reflexivity). rewrite map_map. cbn [sh vband]. change (fun x0 => vband x0) with vband. f_equal. f_equal. apply filter_ext. intros f.
    rewrite (Ef _ (fun v => String.eqb (vband v) f)) by reflexivity. rewrite map_map. do 4 f_equal. apply map_ext. intros v. unfold section. rewrite E2. reflexivity. }
  do 3 f_equal. apply map_ext. intros i. do 2 f_equal. unfold detected_lcs. rewrite map_map. rewrite (map_ext _ (lc_number p start) E1). apply filter_ext. intros g. unfold counted. rewrite Eg.
  assert (forall l, existsb (fun v => thresh p <=? det2 p (start + x) i (map (sh x) (group p start visits g)) v) (map (sh x) l) = existsb (fun v => thresh p <=? det2 p start i (group p start visits g) v) l) as Ee; [|apply Ee].
  induction l as [|v t IH]; [reflexivity|]. cbn [map existsb]. rewrite IH. f_equal. unfold det2. rewrite E4, E5. reflexivity.
Qed.
Print Assumptions C122_first_visit_partial.
Example C122_case : run (ex_params 10 1 3 48 (Some 0) 0 1 1 true) [ex_visit 3 "r"] = Err UnboundLocalError /\ run (ex_params 10 1 3 48 None 0 1 1 true) [ex_visit 3 "r"] = Ok (1, 5) /\
  run (ex_params 10 1 3 48 None 0 1 1 true) [] = Err ValueError.
Proof. repeat split; vm_compute; reflexivity. Qed.

(** C123: a light curve counts as detected exactly when it meets the documented criteria *)
Lemma run_pairs p visits start d m : survey_start p = None -> zmin_list (map vt visits) = Some start -> run p visits = Ok (d, m) ->
  exists l, NoDup l /\ Z.of_nat (length l) = d /\ forall i g, In (i, g) l <-> (i < n_phase p)%nat /\ In g (map (lc_number p start) visits) /\ counted p start visits i g = true.
Proof.
  intros Es Ez H. unfold run in H. rewrite Es, Ez in H. assert (d = zsum (map (fun i => Z.of_nat (length (detected_lcs p start visits i))) (seq 0 (n_phase p)))) as -> by congruence. clear H.
  exists (flat_map (fun i => map (pair i) (detected_lcs p start visits i)) (seq 0 (n_phase p))). split; [|split].
  - apply nodup_flat_map; [apply seq_NoDup | |].
    + intros i _. apply FinFun.Injective_map_NoDup; [intros a b E; congruence | apply NoDup_filter, sorted_lt_nodup, unique_z_sorted].
    + intros i j z _ _ H1 H2. apply in_map_iff in H1. apply in_map_iff in H2. destruct H1 as (a & E1 & _), H2 as (b & E2 & _). congruence.
  - rewrite zsum_lengths. f_equal. apply length_flat_map_map.
  - intros i g. rewrite in_flat_map. split.
    + intros (j & Hj & Hi). apply in_map_iff in Hi. destruct Hi as (g' & E & Hg). injection E as <- <-. apply filter_In in Hg. apply in_seq in Hj. split; [lia | split; [apply unique_z_in; apply Hg | apply Hg]].
    + intros (Hi & Hg & Hc). exists i. split; [apply in_seq; lia|]. apply in_map. apply filter_In. split; [apply unique_z_in; exact Hg | exact Hc].
Qed.
Lemma counted_lc p start visits i g : counted p start visits i g = true -> In g (map (lc_number p start) visits).
Proof. intros H. apply counted_iff in H. destruct H as (v & Hv & _). unfold group in Hv. apply filter_In in Hv. destruct Hv as [Hv E]. apply Z.eqb_eq in E. rewrite <- E. apply in_map. exact Hv. Qed.
Theorem C123_criteria_refuted :
  ~ (forall p visits start d m, sane p -> zmin_list (map vt visits) = Some start -> run p visits = Ok (d, m) -> 0 < d -> exists i g, criteria p start visits i g).
Proof.
  intros H. set (p := ex_params 10 1 3 10 None 1 1 2 true). set (vs := [{| vt := 0; vm5 := 10; vband := "r" |}; ex_visit 5 "g"; ex_visit 5 "r"; ex_visit 5 "i"]).
  specialize (H p vs 0 1 1 (ex_sane 10 1 3 10 1 1 2 true ltac:(lia) ltac:(lia) ltac:(lia) ltac:(lia) ltac:(lia)) eq_refl ltac:(vm_compute; reflexivity) ltac:(lia)).
  destruct H as (i & g & _ & (places & Hn & Hl & Hp) & _). destruct places as [|k places]; [cbn in Hl; lia|]. destruct (Hp k (or_introl eq_refl)) as (v & Ev & Hlc & Hs & Ht).
  assert (phase_time p 0 i v = (vt v + Z.of_nat i * 10) mod 10) as Ep by (unfold phase_time; rewrite Z.sub_0_r; reflexivity). rewrite Z.mod_add in Ep by lia.
  destruct k as [|[|[|[|k]]]]; cbn in Ev; try (destruct k; discriminate); injection Ev as <-; cbn in Ep; rewrite ?Ep in Ht; unfold sees in Hs; rewrite ?Ep in Hs; vm_compute in Hs, Ht; discriminate.
Qed.
Print Assumptions C123_criteria_refuted.
(** unless points before the peak are demanded together with several bands or sections, the detected light curves are
    exactly those that meet the criteria *)
Theorem C123_criteria_partial : forall p visits start d m,
  sane p -> n_pre_peak p = 0 \/ n_per_lc p = 1 /\ n_filters p = 1 -> zmin_list (map vt visits) = Some start -> run p visits = Ok (d, m) ->
  exists l, NoDup l /\ Z.of_nat (length l) = d /\ forall i g, In (i, g) l <-> (i < n_phase p)%nat /\ criteria p start visits i g.
Proof.
  intros p visits start d m Hs Hor Ez H. destruct (run_pairs p visits start d m ltac:(apply Hs) Ez H) as (l & H1 & H2 & H3). exists l. split; [exact H1 | split; [exact H2|]]. intros i g. rewrite H3. split.
  - intros (Hi & _ & Hc). split; [exact Hi | apply counted_criteria; assumption].
  - intros (Hi & Hc). apply (criteria_counted p start visits i g Hs) in Hc. split; [exact Hi | split; [apply (counted_lc _ _ _ _ _ Hc) | exact Hc]].
Qed.
Print Assumptions C123_criteria_partial.
(** in all cases a light curve that meets the criteria is counted *)
Theorem C123_complete_partial : forall p visits start d m,
  sane p -> zmin_list (map vt visits) = Some start -> run p visits = Ok (d, m) ->
  forall l, NoDup l -> (forall i g, In (i, g) l -> (i < n_phase p)%nat /\ criteria p start visits i g) -> Z.of_nat (length l) <= d.
Proof.
  intros p visits start d m Hs Ez H l Hn Hl. destruct (run_pairs p visits start d m ltac:(apply Hs) Ez H) as (l' & H1 & <- & H3). apply inj_le. apply NoDup_incl_length; [exact Hn|]. intros [i g] Hi. apply H3.
  destruct (Hl i g Hi) as (Hi' & Hc). apply (criteria_counted p start visits i g Hs) in Hc. split; [exact Hi' | split; [apply (counted_lc _ _ _ _ _ Hc) | exact Hc]].
Qed.
Print Assumptions C123_complete_partial.
Example C123_case : let vs := [ex_visit 0 "r"; ex_visit 6 "r"; ex_visit 7 "g"; ex_visit 11 "g"; ex_visit 12 "r"; ex_visit 18 "g"] in
  run (ex_params 10 1 3 20 None 0 2 1 true) vs = Ok (2, 2) /\ run (ex_params 10 1 3 20 None 0 1 2 true) vs = Ok (2, 2) /\ run (ex_params 10 1 3 20 None 0 2 2 true) vs = Ok (0, 2) /\
  run (ex_params 10 1 3 20 None 2 1 1 true) vs = Ok (1, 2).
Proof. repeat split; vm_compute; reflexivity. Qed.

(** C124: the visits of one light curve are as far apart in phase as in time *)
Theorem C124_phase_refuted :
  ~ (forall p start g i v v', sane p -> (i < n_phase p)%nat -> in_lc p start g v -> in_lc p start g v' -> phase_time p start i v' - phase_time p start i v = vt v' - vt v).
Proof.
  intros H. specialize (H (ex_params 5 2 3 20 None 0 1 1 true) 0 0 1%nat (ex_visit 0 "r") (ex_visit 8 "r") (ex_sane 5 2 3 20 0 1 1 true ltac:(lia) ltac:(lia) ltac:(lia) ltac:(lia) ltac:(lia)) ltac:(cbn; lia)).
  unfold in_lc in H. specialize (H ltac:(vm_compute; split; [discriminate | reflexivity]) ltac:(vm_compute; split; [discriminate | reflexivity])). vm_compute in H. discriminate.
Qed.
Print Assumptions C124_phase_refuted.
Theorem C124_phase_partial : forall p start g v, sane p -> in_lc p start g v -> phase_time p start 0 v = vt v - (start + g * duration p).
Proof.
  intros p start g v Hs Hl. pose proof (duration_pos p Hs) as Hd. unfold phase_time, in_lc in *. cbn [Z.of_nat]. rewrite Z.mul_0_l, Z.add_0_r. symmetry. apply (Z.mod_unique _ _ g); [left; lia | lia].
Qed.
Print Assumptions C124_phase_partial.
Example C124_case : in_lc (ex_params 5 2 3 20 None 0 1 1 true) 0 1 (ex_visit 18 "r") /\ phase_time (ex_params 5 2 3 20 None 0 1 1 true) 0 0 (ex_visit 18 "r") = 8.
Proof. split; [vm_compute; split; [discriminate | reflexivity] | reflexivity]. Qed.

(** C125: deeper visits never lower the fraction, whatever the criteria *)
Theorem C125_deeper : forall p vs vs' d m d' m', sane p -> deeper vs vs' -> run p vs = Ok (d, m) -> run p vs' = Ok (d', m') -> m' = m /\ d <= d'.
Proof.
  intros p vs vs' d m d' m' Hs Hd H H'. unfold run in *. assert (survey_start p = None) as Es by apply Hs. rewrite Es in *. rewrite (deeper_times _ _ Hd) in H. destruct (zmin_list (map vt vs')) as [start|]; [|discriminate].
  assert (d = zsum (map (fun i => Z.of_nat (length (detected_lcs p start vs i))) (seq 0 (n_phase p)))) as -> by congruence.
  assert (d' = zsum (map (fun i => Z.of_nat (length (detected_lcs p start vs' i))) (seq 0 (n_phase p)))) as -> by congruence.
  split; [congruence|]. clear H H'. induction (seq 0 (n_phase p)) as [|i t IH]; [apply Z.le_refl|]. cbn [map]. unfold zsum in *. cbn [fold_right]. pose proof (detected_mono p start i vs vs' Hs Hd). lia.
Qed.
Print Assumptions C125_deeper.
Example C125_case : let f m := {| vt := 4; vm5 := m; vband := "r"%string |} in
  deeper [ex_visit 0 "r"; f 20] [ex_visit 0 "r"; f 25] /\ run (ex_params 10 1 8 20 None 2 1 1 true) [ex_visit 0 "r"; f 20] = Ok (0, 2) /\
  run (ex_params 10 1 8 20 None 2 1 1 true) [ex_visit 0 "r"; f 25] = Ok (1, 2).
Proof. cbv zeta. split; [apply Forall2_cons; [repeat split; cbn; lia | apply Forall2_cons; [repeat split; cbn; lia | apply Forall2_nil]] | repeat split; vm_compute; reflexivity]. Qed.

(** C126: the light curve is brightest at the peak, where it has the magnitude given for the band *)
Theorem C126_peak : forall p f m t, dget String.eqb (peaks p) f = Some m -> rise_slope p <= 0 -> 0 <= decline_slope p ->
  light_curve p (peak_time p) f = m /\ m <= light_curve p t f /\
  (forall t', t <= t' <= peak_time p -> light_curve p t' f <= light_curve p t f) /\
  (forall t', peak_time p <= t <= t' -> light_curve p t f <= light_curve p t' f).
Proof.
  intros p f m t E Hr Hd. unfold light_curve. rewrite E. split; [rewrite Z.leb_refl; lia|]. split; [destruct (Z.leb_spec t (peak_time p)); nia|]. split; intros t' Ht; destruct (Z.leb_spec t (peak_time p)), (Z.leb_spec t' (peak_time p)); nia.
Qed.
Print Assumptions C126_peak.
Example C126_case : light_curve (ex_params 10 1 3 20 None 0 1 1 true) 3 "i" = 21 /\ light_curve (ex_params 10 1 3 20 None 0 1 1 true) 1 "i" = 23 /\ light_curve (ex_params 10 1 3 20 None 0 1 1 true) 9 "i" = 27.
Proof. repeat split. Qed.
