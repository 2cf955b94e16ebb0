(** Transients given by a spectrum: the slices one after the other, the number possible, deeper visits, bands without a threshold. *)
From Coq Require Import Reals Lra.
From Verif Require Import Base Technical_Model Technical_Proofs Technical_Proofs3 Transient_Proofs MoObs_Proofs2 Template_Model Sky_Proofs Pop_Props2 Ascii_Model Plane_Spec Plane_Props Micro_Proofs Ascii_Spec Ascii_Proofs Ascii_Proofs2 Ascii_Proofs3 Ascii_Proofs4 Ascii_Props.
From Coq Require Import Lia Permutation Sorted.
Open Scope Z_scope.

(** C370: the value of a slice and the slices before it *)
Lemma fold_dur search c d1 d2 start vs : forall l a b, num a = num b -> id_start a = id_start b ->
  num (fold_left (step search c d1 start vs) l a) = num (fold_left (step search c d2 start vs) l b).
Proof.
  induction l as [|i t IH]; intros a b Hn Hi; [exact Hn|]. cbn [fold_left]. apply IH; unfold step; cbn [num id_start]; rewrite Hi; [rewrite Hn|]; reflexivity.
Qed.
Lemma run_given search c s1 s2 t visits : survey_start s1 = Some t -> survey_start s2 = Some t ->
  SameValue (snd (run search c s1 visits)) (snd (run search c s2 visits)) /\ survey_start (fst (run search c s1 visits)) = Some t.
Proof.
  intros H1 H2. unfold run. rewrite H1, H2. destruct (zmin_list _) as [lo|]; [|cbn; split; [reflexivity | exact H1]]. destruct (zmax_list _) as [hi|]; [|cbn; split; [reflexivity | exact H1]]. cbn [fst snd survey_start survey_duration]. split; [|reflexivity].
  destruct (match phases c with O => Ok tt | S _ => thresholds c (sort_time visits) end) as [u|e]; cbn [bind SameValue]; [|reflexivity]. apply fold_dur; reflexivity.
Qed.
Theorem C370_given : forall search c t slices s s0 k r visits, survey_start s = Some t -> survey_start s0 = Some t ->
  nth_error (run_all search c s slices) k = Some r -> nth_error slices k = Some visits -> SameValue r (snd (run search c s0 visits)).
Proof.
  intros search c t slices. induction slices as [|w ws IH]; intros s s0 k r visits Hs H0 Er Ev; [destruct k; discriminate|]. cbn [run_all] in Er. destruct (run search c s w) as [s' r'] eqn:E. destruct k as [|k].
  - cbn in Er, Ev. injection Er as <-. injection Ev as <-. pose proof (proj1 (run_given search c s s0 t w Hs H0)) as X. rewrite E in X. exact X.
  - cbn in Er, Ev. apply (IH s' s0 k r visits); try assumption. pose proof (proj2 (run_given search c s s0 t w Hs H0)) as X. rewrite E in X. exact X.
Qed.
Print Assumptions C370_given.
Theorem C370_first_partial : forall search c d w ws t k r visits, (exists v, In v w /\ at_ v = t) -> (forall v, In v w -> t <= at_ v) ->
  nth_error (run_all search c {| survey_duration := d; survey_start := None |} (w :: ws)) k = Some r -> nth_error (w :: ws) k = Some visits ->
  SameValue r (snd (run search c {| survey_duration := d; survey_start := Some t |} visits)).
Proof.
  intros search c d w ws t k r visits (v & Hv & Ev) Hmin Er Es.
  assert (run search c {| survey_duration := d; survey_start := None |} w = run search c {| survey_duration := d; survey_start := Some t |} w) as HR.
  { unfold run. pose proof (sort_perm w) as HP. destruct (zmin_list (map at_ (sort_time w))) as [lo|] eqn:E1.
    2: { exfalso. apply (Permutation_in _ (Permutation_sym HP)) in Hv. destruct (sort_time w); [exact Hv | discriminate]. }
    destruct (zmax_list (map at_ (sort_time w))) as [hi|] eqn:E2.
    2: { exfalso. apply (Permutation_in _ (Permutation_sym HP)) in Hv. destruct (sort_time w); [exact Hv | discriminate]. }
    cbn [survey_start].
    assert (lo = t) as ->; [|reflexivity]. apply zmin_spec in E1. destruct E1 as [A1 A2]. apply in_map_iff in A1. destruct A1 as (x & <- & Hx). specialize (Hmin x (Permutation_in _ HP Hx)). specialize (A2 (at_ v) (in_map at_ _ _ (Permutation_in _ (Permutation_sym HP) Hv))). lia. }
  apply (C370_given search c t (w :: ws) {| survey_duration := d; survey_start := Some t |} _ k r visits); [reflexivity | reflexivity | | exact Es].
  cbn [run_all] in Er |- *. rewrite <- HR. exact Er.
Qed.
Print Assumptions C370_first_partial.
Definition one_metric : conf := metric 1 10 2 None.
Definition slice1 := [vis 5 "g"; vis 8 "r"].
Definition slice2 := [vis 10 "g"; vis 16 "r"].
Theorem C370_alone_refuted : ~ (forall search c slices s k r visits, nth_error (run_all search c s slices) k = Some r -> nth_error slices k = Some visits -> SameValue r (snd (run search c s visits))).
Proof.
  intros H. specialize (H counting one_metric [slice1; slice2] fresh 1%nat). cbn [run_all] in H.
  destruct (run counting one_metric fresh slice1) as [s1 r1] eqn:E1. destruct (run counting one_metric s1 slice2) as [s2 r2] eqn:E2. specialize (H r2 slice2 eq_refl eq_refl).
  assert (s1 = {| survey_duration := 3; survey_start := Some 5 |}) as -> by (cbn in E1; injection E1 as <- _; reflexivity).
  assert (exists vs lp, r2 = Ok (vs, lp) /\ num lp = 0) as (vs & lp & -> & Hlp) by (cbn in E2; injection E2 as _ <-; do 2 eexists; split; [reflexivity|]; all_seen).
  assert (exists vs' lp', snd (run counting one_metric fresh slice2) = Ok (vs', lp') /\ num lp' = 1) as (vs' & lp' & E & Hlp') by (do 2 eexists; split; [reflexivity|]; all_seen).
  rewrite E in H. cbn in H. lia.
Qed.
Print Assumptions C370_alone_refuted.
Example C370_case : exists r visits, nth_error (run_all counting one_metric {| survey_duration := 0; survey_start := Some 0 |} [slice1; slice2]) 1 = Some r /\ nth_error [slice1; slice2] 1 = Some visits /\
  exists vs lp, r = Ok (vs, lp) /\ num lp = 1.
Proof. do 2 eexists. split; [reflexivity|]. split; [reflexivity|]. do 2 eexists. split; [reflexivity|]. all_seen. Qed.

(** C371: the number that is possible *)
Lemma possible_of search c dur start vs : forall l acc, possible (fold_left (step search c dur start vs) l acc) = possible acc + Z.of_nat (length l) * ((dur + duration c - 1) / duration c).
Proof. induction l as [|i t IH]; intros acc; cbn [fold_left length]; [lia|]. rewrite IH. cbn [step possible]. lia. Qed.
Lemma ceil_bound x L : 0 < L -> ((x + L - 1) / L - 1) * L < x <= (x + L - 1) / L * L.
Proof. intros P. pose proof (Z.div_mod (x + L - 1) L ltac:(lia)). pose proof (Z.mod_pos_bound (x + L - 1) L P). nia. Qed.
Theorem C371_possible_partial : forall search c L s visits s' vs lp start, Long c L -> run search c s visits = (s', Ok (vs, lp)) -> Starts s visits start ->
  exists n, possible lp = Z.of_nat (phases c) * n /\ (n - 1) * L < survey_duration s' <= n * L /\
  ((forall v, In v visits -> start <= at_ v < start + survey_duration s') -> num lp <= possible lp) /\
  ((forall v, In v visits -> start <= at_ v <= start + survey_duration s') -> num lp <= possible lp + Z.of_nat (phases c)).
Proof.
  intros search c L s visits s' vs lp start HL HR HS. pose proof (run_pairs _ _ _ _ _ _ _ _ _ HL HR HS) as [Ev HM]. destruct (run_ok _ _ _ _ _ _ _ HR) as (st & lo & hi & HS' & _ & _ & Es & _ & El & _). rewrite (starts_unique _ _ _ _ HS' HS) in *. clear HS'. destruct (duration_long _ _ HL) as [ED PL].
  set (dur := Z.max (hi - lo) (survey_duration s)) in *. assert (survey_duration s' = dur) as -> by (rewrite Es; reflexivity). exists ((dur + L - 1) / L). assert (possible lp = Z.of_nat (phases c) * ((dur + L - 1) / L)) as EP by (rewrite El, possible_of, seq_length, ED; cbn [initial possible]; lia). split; [exact EP|]. split; [apply ceil_bound; exact PL|].
  assert (forall m, 0 <= m -> (forall v, In v visits -> 0 <= number c start v < m) -> num lp <= Z.of_nat (phases c) * m) as HB.
  { intros m Hm HV. destruct HM as (l & N1 & N2 & <-). set (all := flat_map (fun i => map (pair i) (zrange 0 (m - 1))) (seq 0 (phases c))).
    assert (length all = (phases c * Z.to_nat (m - 1 - 0 + 1))%nat) as EL.
    { unfold all. clear. generalize (phases c) as n, 0%nat as z. intros n. induction n as [|k IH]; intros z; cbn [seq flat_map]; [reflexivity|]. rewrite app_length, map_length, IH. unfold zrange. rewrite map_length, seq_length. lia. }
    assert (length l <= length all)%nat as HLe.
    { apply NoDup_incl_length; [exact N1|]. intros (i, g) Hin. apply N2 in Hin. cbn [fst snd] in Hin. destruct Hin as (Hi & ((v & Hv & Ho) & _) & _). apply in_flat_map. exists i. split; [apply in_seq; lia|]. apply in_map. apply zrange_in. rewrite Ev in Hv. apply (Permutation_in _ (sort_perm visits)) in Hv. specialize (HV v Hv). apply (number_of c L start v g HL) in Ho. lia. }
    nia. }
  pose proof (ceil_bound dur L PL) as CB. set (q := (dur + L - 1) / L) in *. rewrite EP. split; intros HV.
  - destruct visits as [|v0 vt] eqn:Evs. { unfold run in HR. cbn in HR. discriminate. } assert (0 < dur) as Pd by (specialize (HV v0 (or_introl eq_refl)); lia). apply HB; [nia|]. intros v Hv. specialize (HV v Hv). unfold number. rewrite ED. split; [apply Z.div_pos; lia|]. apply Z.div_lt_upper_bound; nia.
  - destruct visits as [|v0 vt] eqn:Evs. { unfold run in HR. cbn in HR. discriminate. } assert (0 <= dur) as Pd by (specialize (HV v0 (or_introl eq_refl)); lia). replace (Z.of_nat (phases c) * q + Z.of_nat (phases c)) with (Z.of_nat (phases c) * (q + 1)) by lia. apply HB; [nia|]. intros v Hv. specialize (HV v Hv). unfold number. rewrite ED. split; [apply Z.div_pos; lia|]. apply Z.div_lt_upper_bound; nia.
Qed.
Print Assumptions C371_possible_partial.
Definition edges := [vis 0 "g"; vis 10 "r"].
Theorem C371_bound_refuted : ~ (forall search c L s visits s' vs lp start, Long c L -> run search c s visits = (s', Ok (vs, lp)) -> Starts s visits start ->
  (forall v, In v visits -> start <= at_ v <= start + survey_duration s') -> num lp <= possible lp).
Proof.
  intros H. pose (c := metric 1 10 1 None). destruct (run counting c fresh edges) as [s' r] eqn:HR. pose proof HR as HR'. unfold c in HR'. cbn in HR'. injection HR' as <- <-. specialize (H counting c 10 fresh edges _ _ _ 0 ltac:(unfold Long; cbn; lia) HR).
  assert (1 + 1 <= 1) as X; [|lia]. revert H. match goal with |- (_ -> _ -> ?a <= ?b) -> _ => assert (a = 2) as -> by all_seen; assert (b = 1) as -> by all_seen end. intros H. apply H.
  - right. cbn. split; [reflexivity|]. split; [exists (vis 0 "g"); cbn; tauto | intros v [<-|[<-|[]]]; cbn; lia].
  - intros v [<-|[<-|[]]]; cbn; lia.
Qed.
Print Assumptions C371_bound_refuted.
Theorem C371_fraction_refuted : ~ (forall search c L s visits s' vs lp, Long c L -> run search c s visits = (s', Ok (vs, lp)) -> num lp <= 1).
Proof.
  intros H. pose (c := metric 1 10 1 None). destruct (run counting c fresh edges) as [s' r] eqn:HR. pose proof HR as HR'. unfold c in HR'. cbn in HR'. injection HR' as <- <-. specialize (H counting c 10 fresh edges _ _ _ ltac:(unfold Long; cbn; lia) HR).
  assert (2 <= 1) as X; [|lia]. revert H. match goal with |- ?a <= _ -> _ => assert (a = 2) as -> by all_seen end. auto.
Qed.
Print Assumptions C371_fraction_refuted.
Example C371_case : exists s' vs lp, Long (metric 2 5 1 None) 10 /\ run counting (metric 2 5 1 None) {| survey_duration := 30; survey_start := Some 0 |} edges = (s', Ok (vs, lp)) /\ num lp = 4 /\ possible lp = 6 /\
  (forall v, In v edges -> 0 <= at_ v < 0 + survey_duration s').
Proof. do 3 eexists. split; [unfold Long; cbn; lia|]. split; [reflexivity|]. split; [all_seen|]. split; [all_seen|]. intros v [<-|[<-|[]]]; cbn; lia. Qed.

(** C372: deeper visits, a brighter spectrum and lower thresholds never lower the number *)
Lemma seen_kinder c c' L start i v v' : Kinder c c' -> Deeper v v' -> Seen c L start i v -> Seen c' L start i v'.
Proof.
  intros (Eu & En & Hm & Hd & _) (Et & Eb & H5) (e & s & He & Es & Hs). destruct (Hd _ _ Es) as (s2 & Es2 & Hs2). exists e, s2. split; [unfold Epoch in *; rewrite Et, Eu; exact He|]. rewrite Eb. split; [exact Es2|].
  specialize (Hm e (aband v)). assert (Rpower 10 (2/5 * (am5 v - mags c e (aband v))) <= Rpower 10 (2/5 * (am5 v' - mags c' e (aband v))))%R as HR by (apply Rle_Rpower; lra). lra.
Qed.
Lemma detects_kinder c c' L start g i v v' : Kinder c c' -> Deeper v v' -> Detects c L start g i v -> Detects c' L start g i v'.
Proof. intros HK HD [Ho Hs]. split; [|eapply seen_kinder; eauto]. unfold Of in *. destruct HD as (-> & _). exact Ho. Qed.
Lemma epoch_kinder c c' L start i v v' e : Kinder c c' -> Deeper v v' -> Epoch c L start i v e -> Epoch c' L start i v' e.
Proof. intros (Eu & _) (Et & _) H. unfold Epoch in *. rewrite Et, Eu. exact H. Qed.
Lemma forall2_in {A B} (R : A -> B -> Prop) l l' : Forall2 R l l' -> forall x, In x l -> exists y, In y l' /\ R x y.
Proof. induction 1 as [|a b t t' H HF IH]; intros x []; [subst; exists b; split; [now left | exact H]|]. destruct (IH x H0) as (y & Hy & HR). exists y. split; [now right | exact HR]. Qed.
Lemma counts_kinder c c' L start vs vs' i g : Long c L -> Kinder c c' -> Forall2 Deeper vs vs' -> Counts c L start vs i g -> Counts c' L start vs' i g.
Proof.
  intros HL HK HF ((v & Hv & Ho) & (n & Hc & Hn) & Hs & Hb). pose proof (forall2_in _ _ _ HF) as HI. pose proof HK as (Eu & Eph & _ & _ & Enp & Ept & Enf & _ & Eper). assert (Long c' L) as HL' by (unfold Long in *; rewrite Eu, Eph; exact HL). split; [|split; [|split]].
  - destruct (HI v Hv) as (w & Hw & Et & _). exists w. split; [exact Hw|]. unfold Of in *. rewrite Et. exact Ho.
  - unfold EarlyEnough. rewrite Enp. pose (P' := fun v0 => Detects c' L start g i v0 /\ exists e, Epoch c' L start i v0 e /\ e < pre_time c'). assert (exists b, forall v0, b v0 = true <-> P' v0) as (b & Hb').
    { exists (fun v0 => is_det c' start g i v0 && (epoch c' start i v0 <? pre_time c')). intros v0. unfold P'. rewrite andb_true_iff, (is_det_iff c' L), Z.ltb_lt by exact HL'. split; intros [X1 X2]; (split; [exact X1|]).
      - exists (epoch c' start i v0). split; [apply epoch_of; auto | exact X2].
      - destruct X2 as (e & He & Hl). apply (epoch_of _ _ _ _ _ _ HL') in He. rewrite He. exact Hl. }
    exists (length (filter b vs')). split; [apply countP_filter; exact Hb'|]. assert (n <= length (filter b vs'))%nat as Q; [|lia]. clear -Hc HF Hb' HK Ept. revert n Hc. induction HF as [|x y t t' Hxy HF IH]; intros n Hc; inversion Hc as [|? ? m Hx Hm|? ? m Hx Hm]; subst; [lia| |]; specialize (IH _ Hm); cbn [filter].
    + assert (b y = true) as ->; [|cbn; lia]. apply Hb'. destruct Hx as [X1 (e & X2 & X3)]. split; [eapply detects_kinder; eauto|]. exists e. split; [eapply epoch_kinder; eauto | lia].
    + destruct (b y); cbn; lia.
  - intros k Hk. rewrite Eper in Hk |- *. destruct (Hs k Hk) as (w & e & Hw & Hd & He & B). destruct (HI w Hw) as (w' & Hw' & HD). exists w', e. split; [exact Hw'|]. split; [eapply detects_kinder; eauto|]. split; [eapply epoch_kinder; eauto | exact B].
  - rewrite Eper, Enf. intros H1 H2. destruct (Hb H1 H2) as (bands & B1 & B2 & B3). exists bands. split; [exact B1|]. split; [exact B2|]. intros b Hb1. destruct (B3 b Hb1) as (w & Hw & Hd & E). destruct (HI w Hw) as (w' & Hw' & HD). exists w'. split; [exact Hw'|]. split; [eapply detects_kinder; eauto|]. destruct HD as (_ & -> & _). exact E.
Qed.
Lemma later_kinder c c' L start vs vs' i g ft : Kinder c c' -> Forall2 Deeper vs vs' -> WithinLater c L start vs i g ft -> WithinLater c' L start vs' i g ft.
Proof.
  intros HK HF (e0 & bands & B1 & B2 & B3). pose proof (forall2_in _ _ _ HF) as HI. exists e0, bands. split; [exact B1|]. split; [destruct HK as (_ & _ & _ & _ & _ & _ & -> & _); exact B2|]. intros b Hb. destruct (B3 b Hb) as (v & Hv & (Hd & (e & He & Be) & (u & Hu & Hdu & Hlt)) & E). destruct (HI v Hv) as (v' & Hv' & HD). destruct (HI u Hu) as (u' & Hu' & HDu). exists v'. split; [exact Hv'|]. split; [|destruct HD as (_ & -> & _); exact E].
  split; [eapply detects_kinder; eauto|]. split; [exists e; split; [eapply epoch_kinder; eauto | exact Be]|]. exists u'. split; [exact Hu'|]. split; [eapply detects_kinder; eauto|]. destruct HD as (-> & _). destruct HDu as (-> & _). exact Hlt.
Qed.
Lemma starts_deeper s vs vs' start : Forall2 Deeper vs vs' -> Starts s vs start -> Starts s vs' start.
Proof.
  intros HF [H|(H & (v & Hv & Et) & Hm)]; [now left|]. right. split; [exact H|]. split; [destruct (forall2_in _ _ _ HF v Hv) as (w & Hw & E & _); exists w; split; [exact Hw | lia]|].
  intros w Hw. clear -HF Hm Hw. induction HF as [|a b t t' Hab HF IH]; [destruct Hw|]. destruct Hw as [<-|Hw]; [destruct Hab as (-> & _); apply Hm; now left | apply IH; [intros x Hx; apply Hm; now right | exact Hw]].
Qed.
Theorem C372_deeper_partial : forall search c c' L s visits visits' s1 vs1 lp1 s2 vs2 lp2, Search search -> Long c L -> Kinder c c' -> Forall2 Deeper visits visits' ->
  filter_time c = None \/ (phases c = 1%nat /\ NoDup (map at_ visits)) ->
  run search c s visits = (s1, Ok (vs1, lp1)) -> run search c' s visits' = (s2, Ok (vs2, lp2)) -> num lp1 <= num lp2.
Proof.
  intros search c c' L s visits visits' s1 vs1 lp1 s2 vs2 lp2 HSr HL HK HF Hcase R1 R2. pose proof HK as (Eu & Eph & _ & _ & _ & _ & Enf & Eft & Eper). assert (Long c' L) as HL' by (unfold Long in *; rewrite Eu, Eph; exact HL).
  destruct (run_ok _ _ _ _ _ _ _ R1) as (start & _ & _ & HS & _). pose proof (starts_deeper _ _ _ _ HF HS) as HS'.
  assert (filter_time c = None \/ num_filters_arg c <= 1 \/ num_per c = 0 \/ (exists ft, filter_time c = Some ft /\ 1 < num_filters_arg c /\ num_per c <> 0 /\ phases c = 1%nat /\ NoDup (map at_ visits))) as HC.
  { destruct (filter_time c) as [ft|]; [|now left]. destruct Hcase as [Q|Q]; [discriminate|]. right. destruct (Z_le_gt_dec (num_filters_arg c) 1); [now left|]. right. destruct (Z.eq_dec (num_per c) 0); [now left|]. right. exists ft. split; [reflexivity|]. split; [lia|]. tauto. }
  assert ((filter_time c = None \/ num_filters_arg c <= 1 \/ num_per c = 0) \/ (exists ft, filter_time c = Some ft /\ 1 < num_filters_arg c /\ num_per c <> 0 /\ phases c = 1%nat /\ NoDup (map at_ visits))) as [HN|(ft & Hft & Hn & Hp & H1 & ND)] by tauto.
  - eapply howmany_le; [|apply (C368_criteria _ _ _ _ _ _ _ _ _ HL R1 HS HN)|apply (C368_criteria _ _ _ _ _ _ _ _ _ HL' R2 HS'); rewrite Eft, Enf, Eper; exact HN]. intros (i, g) [X1 X2]. split; [rewrite Eph; exact X1 | exact (counts_kinder c c' L start visits visits' i g HL HK HF X2)].
  - assert (map at_ visits' = map at_ visits) as Em by (clear -HF; induction HF as [|a b t t' (E & _) HF IH]; cbn; [reflexivity | rewrite E, IH; reflexivity]).
    eapply howmany_le; [|apply (C369_later_partial search c L s visits s1 vs1 lp1 start ft)|apply (C369_later_partial search c' L s visits' s2 vs2 lp2 start ft)]; auto; try congruence; try (rewrite Enf; exact Hn).
    intros g [X1 X2]. split; [exact (counts_kinder c c' L start visits visits' 0 g HL HK HF X1) | exact (later_kinder c c' L start visits visits' 0 g ft HK HF X2)].
Qed.
Print Assumptions C372_deeper_partial.
Example C372_case : Kinder (metric 1 10 2 (Some 5)) (metric 1 10 2 (Some 5)) /\ Forall2 Deeper [vis 0 "g"] [{| at_ := 0; am5 := 21%R; aband := "g" |}] /\ Search counting.
Proof.
  split; [|split; [|exact counting_search]].
  - unfold Kinder. repeat split; try reflexivity; [intros; lra|]. intros b s E. exists s. split; [exact E | lra].
  - repeat constructor. cbn. lra.
Qed.

(** C374: bands without a threshold *)
Theorem C374_covered : forall search c s visits, (phases c <> 0)%nat -> visits <> [] ->
  (Covered c visits -> exists r, snd (run search c s visits) = Ok r) /\ (~ Covered c visits -> snd (run search c s visits) = Err KeyError).
Proof.
  intros search c s visits Hn Hv. pose proof (sort_perm visits) as HP. unfold run. set (w := sort_time visits) in *.
  assert (w <> []) as Hw by (intros E; rewrite E in HP; apply Permutation_nil in HP; contradiction). destruct w as [|x t] eqn:Ew; [now elim Hw|]. cbn [map zmin_list zmax_list snd]. destruct (phases c) as [|n]; [now elim Hn|]. unfold thresholds.
  destruct (forallb (fun v => match detect_snr c (aband v) with Some _ => true | None => false end) (x :: t)) eqn:Ef; cbn [bind]; split; intros H.
  - eexists. reflexivity.
  - exfalso. apply H. intros v Hin. rewrite forallb_forall in Ef. specialize (Ef v (Permutation_in _ (Permutation_sym HP) Hin)). destruct (detect_snr c (aband v)); [discriminate | discriminate Ef].
  - exfalso. assert (forallb (fun v => match detect_snr c (aband v) with Some _ => true | None => false end) (x :: t) = true) as Q; [|congruence]. apply forallb_forall. intros v Hin. specialize (H v (Permutation_in _ HP Hin)). destruct (detect_snr c (aband v)); [reflexivity | contradiction].
  - reflexivity.
Qed.
Print Assumptions C374_covered.
(** the visits in the other bands are not left out *)
Theorem C374_left_out_refuted : ~ (forall search c s visits kept, (phases c <> 0)%nat -> kept <> [] -> (forall v, In v kept <-> In v visits /\ detect_snr c (aband v) <> None) ->
  exists r, snd (run search c s visits) = Ok r).
Proof.
  intros H. pose (c := metric 1 10 1 None). specialize (H counting c fresh [vis 0 "g"; vis 1 "i"] [vis 0 "g"] ltac:(discriminate) ltac:(discriminate)).
  assert (~ Covered c [vis 0 "g"; vis 1 "i"]) as N by (intros C; apply (C (vis 1 "i")); [cbn; tauto | reflexivity]).
  assert (exists r, snd (run counting c fresh [vis 0 "g"; vis 1 "i"]) = Ok r) as (r & E).
  { apply H. intros v. cbn [In]. split; [intros [<-|[]]; split; [tauto | discriminate]|]. intros [[<-|[<-|[]]] Hv]; [tauto|]. now elim Hv. }
  rewrite (proj2 (C374_covered counting c fresh [vis 0 "g"; vis 1 "i"] ltac:(discriminate) ltac:(discriminate)) N) in E. discriminate.
Qed.
Print Assumptions C374_left_out_refuted.
Example C374_case : Covered (metric 1 10 1 None) [vis 0 "g"] /\ ~ Covered (metric 1 10 1 None) [vis 0 "g"; vis 1 "i"].
Proof. split; [intros v [<-|[]]; discriminate|]. intros C. apply (C (vis 1 "i")); [cbn; tauto | reflexivity]. Qed.
