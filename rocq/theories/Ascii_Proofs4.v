(** The value of the metric and the criteria. *)
From Coq Require Import Reals.
From Verif Require Import Base Technical_Model Technical_Proofs Technical_Proofs3 Transient_Proofs MoObs_Proofs2 Ascii_Model Plane_Spec Plane_Props Micro_Proofs Ascii_Spec Ascii_Proofs Ascii_Proofs2 Ascii_Proofs3.
From Coq Require Import Lia Permutation Sorted.
Open Scope Z_scope.

Lemma filter_sorted {A} (R : A -> A -> Prop) P l : StronglySorted R l -> StronglySorted R (filter P l).
Proof.
  induction 1 as [|x t H IH HF]; cbn; [constructor|]. destruct (P x); [|exact IH]. constructor; [exact IH|]. rewrite Forall_forall in *. intros y Hy. apply filter_In in Hy. apply HF, Hy.
Qed.
Lemma epoch0 c L start g v : Long c L -> Of L start g v -> epoch c start 0 v = at_ v - start - g * L.
Proof. intros HL H. apply (epoch_of c L); [exact HL|]. unfold Epoch, Of in *. split; [lia|]. exists g. lia. Qed.
Lemma det_sorted c L start g vs : Long c L -> StronglySorted by_at vs ->
  StronglySorted (fun a b => epoch c start 0 a <= epoch c start 0 b) (filter (is_det c start g 0) vs).
Proof.
  intros HL H. assert (forall v, In v (filter (is_det c start g 0) vs) -> Of L start g v) as HO.
  { intros v Hv. apply filter_In in Hv. destruct Hv as [_ Hv]. apply (is_det_iff c L) in Hv; [|exact HL]. apply Hv. }
  apply (filter_sorted _ (is_det c start g 0)) in H. revert HO. induction H as [|x t H IH HF]; intros HO; constructor.
  - apply IH. intros v Hv. apply HO. now right.
  - rewrite Forall_forall in *. intros y Hy. rewrite (epoch0 c L start g x), (epoch0 c L start g y); [| |apply HO; now right| |apply HO; now left]; try exact HL. specialize (HF y Hy). unfold by_at in HF. lia.
Qed.
Lemma num_filters_two c : 1 < num_filters c -> num_filters c = num_filters_arg c.
Proof. unfold num_filters. destruct (num_per c =? 0); lia. Qed.
Lemma in_time_within search c L start g vs ft : Search search -> Long c L -> StronglySorted by_at vs -> filter_time c = Some ft -> 1 < num_filters c ->
  in_time_ok search c (map (epoch c start 0) (filter (is_det c start g 0) vs)) (map aband (filter (is_det c start g 0) vs)) = true ->
  Within c L start vs 0 g ft /\ (NoDup (map at_ vs) -> WithinLater c L start vs 0 g ft).
Proof.
  intros HS HL Hs Hf Hn H. set (d := filter (is_det c start g 0) vs) in *. pose proof (det_sorted c L start g vs HL Hs) as HsE. fold d in HsE.
  apply (in_time_spec search c d (epoch c start 0) ft HS Hf Hn HsE) in H. destruct H as (j & v0 & Ej & HB). rewrite (num_filters_two c Hn) in HB.
  assert (forall v, In v d -> In v vs /\ Detects c L start g 0 v) as HD by (intros v Hv; apply filter_In in Hv; rewrite (is_det_iff c L) in Hv by exact HL; exact Hv).
  assert (forall v k, nth_error d k = Some v -> (j <= k)%nat -> epoch c start 0 v0 <= epoch c start 0 v) as HE.
  { intros v k Ek Hjk. destruct (Nat.eq_dec j k) as [<-|N]; [rewrite Ej in Ek; injection Ek as <-; lia|]. apply (sorted_nth _ _ HsE j k v0 v); [lia | exact Ej | exact Ek]. }
  destruct HB as (bands & H1 & H2 & H3). split.
  - exists (epoch c start 0 v0), bands. split; [exact H1|]. split; [exact H2|]. intros b Hb. destruct (H3 b Hb) as (v & Hv & (k & Ek & Hjk & _ & Hle) & E). exists v. destruct (HD v Hv) as [Hin Hdv]. split; [exact Hin|]. split; [|exact E]. split; [exact Hdv|]. exists (epoch c start 0 v). split; [apply epoch_of; auto|]. specialize (HE v k Ek Hjk). lia.
  - intros ND. exists (epoch c start 0 v0), bands. split; [exact H1|]. split; [exact H2|]. intros b Hb. destruct (H3 b Hb) as (v & Hv & (k & Ek & Hjk & Hlast & Hle) & E). exists v. destruct (HD v Hv) as [Hin Hdv]. split; [exact Hin|]. split; [|exact E]. split; [exact Hdv|]. split; [exists (epoch c start 0 v); split; [apply epoch_of; auto|]; specialize (HE v k Ek Hjk); lia|].
    destruct (nth_error d (S k)) as [v'|] eqn:Ek'; [|apply nth_error_None in Ek'; lia]. exists v'. destruct (HD v' (nth_error_In _ _ Ek')) as [Hin' Hdv']. split; [exact Hin'|]. split; [exact Hdv'|].
    assert (StronglySorted by_at d) as Hsd by (apply filter_sorted; exact Hs). pose proof (sorted_nth _ _ Hsd k (S k) v v' ltac:(lia) Ek Ek') as Hle'. unfold by_at in Hle'.
    assert (NoDup (map at_ d)) as NDd.
    { unfold d. clear -ND. induction vs as [|x t IH]; [constructor|]. cbn [map] in ND. inversion ND as [|? ? Hx Ht]; subst. cbn [filter]. destruct (is_det c start g 0 x); [|apply IH, Ht]. cbn [map]. constructor; [|apply IH, Ht]. intros Hi. apply Hx. apply in_map_iff in Hi. destruct Hi as (y & Ey & Hy). apply filter_In in Hy. apply in_map_iff. exists y. tauto. }
    destruct (Z.eq_dec (at_ v) (at_ v')) as [Q|Q]; [|lia]. exfalso. assert (k = S k) as X; [|lia]. apply (proj1 (NoDup_nth_error (map at_ d)) NDd); [apply nth_error_Some; rewrite (map_nth_error at_ _ _ Ek); discriminate|]. rewrite (map_nth_error at_ _ _ Ek), (map_nth_error at_ _ _ Ek'), Q. reflexivity.
Qed.
Lemma within_in_time search c L start g vs ft : Search search -> Long c L -> StronglySorted by_at vs -> filter_time c = Some ft -> 1 < num_filters c ->
  WithinLater c L start vs 0 g ft ->
  in_time_ok search c (map (epoch c start 0) (filter (is_det c start g 0) vs)) (map aband (filter (is_det c start g 0) vs)) = true.
Proof.
  intros HS HL Hs Hf Hn H. set (d := filter (is_det c start g 0) vs) in *. pose proof (det_sorted c L start g vs HL Hs) as HsE. fold d in HsE.
  apply (in_time_spec search c d (epoch c start 0) ft HS Hf Hn HsE). destruct H as (e0 & bands & H1 & H2 & H3). pose proof (num_filters_two c Hn) as HNF. rewrite HNF. rewrite HNF in Hn.
  assert (StronglySorted Z.le (map (epoch c start 0) d)) as HsZ.
  { clear -HsE. induction HsE as [|x t H IH HF]; cbn; constructor; [exact IH|]. rewrite Forall_forall in HF. apply Forall_forall. intros y Hy. apply in_map_iff in Hy. destruct Hy as (z & <- & Hz). apply HF, Hz. }
  set (j := left_of (map (epoch c start 0) d) e0).
  assert (forall v, In v vs -> Detects c L start g 0 v -> exists k, nth_error d k = Some v) as HI.
  { intros v Hv Hd. apply In_nth_error. apply filter_In. split; [exact Hv | apply (is_det_iff c L); assumption]. }
  assert (forall v, (exists e, Epoch c L start 0 v e /\ e0 <= e <= e0 + ft) -> e0 <= epoch c start 0 v <= e0 + ft) as HEp.
  { intros v (e & He & B). apply (epoch_of _ _ _ _ _ _ HL) in He. rewrite He. exact B. }
  destruct bands as [|b0 bs] eqn:Eb; [cbn in H2; lia|]. destruct (H3 b0 (or_introl eq_refl)) as (w & Hw & (Hdw & Hew & _) & _). apply HEp in Hew. destruct (HI w Hw Hdw) as (kw & Ekw).
  assert (forall v k, nth_error d k = Some v -> e0 <= epoch c start 0 v -> (j <= k)%nat) as Hj.
  { intros v k Ek Hle. pose proof (left_place _ HsZ e0 k _ (map_nth_error (epoch c start 0) _ _ Ek)) as P. fold j in P. lia. }
  pose proof (Hj w kw Ekw ltac:(lia)) as Hjw. destruct (nth_error d j) as [v0|] eqn:Ej.
  2: { apply nth_error_None in Ej. assert (kw < length d)%nat by (apply nth_error_Some; congruence). lia. }
  assert (e0 <= epoch c start 0 v0) as Hv0. { pose proof (left_place _ HsZ e0 j _ (map_nth_error (epoch c start 0) _ _ Ej)) as P. fold j in P. lia. }
  exists j, v0. split; [exact Ej|]. exists (b0 :: bs). split; [exact H1|]. split; [exact H2|]. intros b Hb. destruct (H3 b Hb) as (v & Hv & (Hdv & Hev & v' & Hv' & Hdv' & Hlt) & E). apply HEp in Hev. destruct (HI v Hv Hdv) as (k & Ek). destruct (HI v' Hv' Hdv') as (k' & Ek').
  exists v. split; [apply (nth_error_In _ _ Ek)|]. split; [|exact E]. exists k. split; [exact Ek|]. split; [apply (Hj v k Ek); lia|]. split; [|lia].
  assert (k' < length d)%nat as Bk' by (apply nth_error_Some; congruence). assert (k < k')%nat; [|lia]. destruct (Nat.lt_trichotomy k k') as [C|[C|C]]; [exact C| |].
  - subst k'. rewrite Ek in Ek'. injection Ek' as <-. lia.
  - assert (StronglySorted by_at d) as Hsd by (apply filter_sorted; exact Hs). pose proof (sorted_nth _ _ Hsd k' k v' v C Ek' Ek) as Q. unfold by_at in Q. lia.
Qed.

(** permuting the visits *)
Lemma bands_perm P vs vs' n : (forall v, In v vs -> In v vs') -> Bands P vs n -> Bands P vs' n.
Proof. intros H (bands & H1 & H2 & H3). exists bands. split; [exact H1|]. split; [exact H2|]. intros b Hb. destruct (H3 b Hb) as (v & Hv & Hp & E). exists v. auto. Qed.
Lemma counts_perm c L start vs vs' i g : Permutation vs vs' -> Counts c L start vs i g -> Counts c L start vs' i g.
Proof.
  intros HP ((v & Hv & Ho) & (n & Hc & Hn) & Hs & Hb). pose proof (fun v => Permutation_in v HP) as HI. split; [exists v; auto|]. split; [exists n; split; [eapply countP_perm; eauto | exact Hn]|]. split.
  - intros k Hk. destruct (Hs k Hk) as (w & e & Hw & Hr). exists w, e. auto.
  - intros H1 H2. eapply bands_perm; [exact HI | auto].
Qed.
Lemma within_perm c L start vs vs' i g ft : Permutation vs vs' -> Within c L start vs i g ft -> Within c L start vs' i g ft.
Proof. intros HP (e0 & H). exists e0. eapply bands_perm; [|exact H]. intros v. apply Permutation_in, HP. Qed.
Lemma later_perm c L start vs vs' i g ft : Permutation vs vs' -> WithinLater c L start vs i g ft -> WithinLater c L start vs' i g ft.
Proof.
  intros HP (e0 & H). exists e0. eapply bands_perm; [intros v; apply Permutation_in, HP|]. eapply bands_ext; [|exact H]. intros v _ (H1 & H2 & v' & Hv' & H3). split; [exact H1|]. split; [exact H2|]. exists v'. split; [eapply Permutation_in; eauto | exact H3].
Qed.

(** [detected] is the criteria and the limit of time *)
Lemma detected_split search c L start vs i g : Long c L ->
  ((exists v, In v vs /\ number c start v = g) /\ detected search c start i (group c start vs g) = true <->
   Counts c L start vs i g /\ in_time_ok search c (map (epoch c start i) (filter (is_det c start g i) vs)) (map aband (filter (is_det c start g i) vs)) = true).
Proof.
  intros HL. rewrite <- (base_counts c L start vs i g HL). unfold detected. rewrite seen_group.
  assert ((exists v, In v vs /\ number c start v = g) <-> exists v, In v vs /\ Of L start g v) as HE by (split; intros (v & Hv & H); exists v; (split; [exact Hv|]); apply (number_of c L start v g HL); exact H).
  rewrite HE. split.
  - intros [H1 H2]. destruct (group c start vs g) as [|x t]; [discriminate|]. apply andb_true_iff in H2. destruct H2 as [H2 H3]. split; [split; [exact H1 | exact H2] | exact H3].
  - intros [[H1 H2] H3]. split; [exact H1|]. destruct (group c start vs g) as [|x t] eqn:Eg.
    + exfalso. apply HE in H1. destruct H1 as (v & Hv & Ev). assert (In v (group c start vs g)) as Q by (apply filter_In; split; [exact Hv | apply Z.eqb_eq; exact Ev]). rewrite Eg in Q. exact Q.
    + unfold base_ok in H2. rewrite H2, H3. reflexivity.
Qed.
Lemma in_time_trivial search c epochs bands : filter_time c = None \/ num_filters_arg c <= 1 \/ num_per c = 0 -> in_time_ok search c epochs bands = true.
Proof.
  intros H. unfold in_time_ok. destruct (filter_time c) as [ft|]; [|reflexivity]. destruct (1 <? num_filters c) eqn:E; [|reflexivity]. apply Z.ltb_lt in E. exfalso. unfold num_filters in E. destruct (num_per c =? 0) eqn:E0; [lia|]. apply Z.eqb_neq in E0. destruct H as [H|[H|H]]; [discriminate | lia | contradiction].
Qed.
Lemma howmany_iff {A} (P Q : A -> Prop) n : (forall x, P x <-> Q x) -> HowMany P n -> HowMany Q n.
Proof. intros H (l & H1 & H2 & H3). exists l. split; [exact H1|]. split; [|exact H3]. intros x. rewrite H2. apply H. Qed.
Lemma howmany_le {A} (P Q : A -> Prop) n m : (forall x, P x -> Q x) -> HowMany P n -> HowMany Q m -> n <= m.
Proof. intros H (l & H1 & H2 & <-) (k & K1 & K2 & <-). apply inj_le, NoDup_incl_length; [exact H1|]. intros x Hx. apply K2, H, H2, Hx. Qed.

(** what a run does *)
Lemma run_ok search c s visits s' vs lp : run search c s visits = (s', Ok (vs, lp)) ->
  exists start lo hi, Starts s visits start /\ (In lo (map at_ visits) /\ forall y, In y (map at_ visits) -> lo <= y) /\ (In hi (map at_ visits) /\ forall y, In y (map at_ visits) -> y <= hi) /\
    s' = {| survey_duration := Z.max (hi - lo) (survey_duration s); survey_start := Some start |} /\ vs = sort_time visits /\
    lp = fold_left (step search c (Z.max (hi - lo) (survey_duration s)) start vs) (seq 0 (phases c)) (initial c start lo) /\ (phases c <> 0%nat -> Covered c visits).
Proof.
  unfold run. set (w := sort_time visits). pose proof (sort_perm visits) as HP. fold w in HP. assert (forall y, In y (map at_ w) <-> In y (map at_ visits)) as HI by (intros y; split; apply Permutation_in, Permutation_map; [exact HP | symmetry; exact HP]).
  destruct (zmin_list (map at_ w)) as [lo|] eqn:E1; [|discriminate]. destruct (zmax_list (map at_ w)) as [hi|] eqn:E2; [|discriminate].
  apply zmin_spec in E1. apply zmax_spec in E2. set (start := match survey_start s with Some t => t | None => lo end). cbn [survey_duration]. intros E. injection E as <- E. exists start, lo, hi. destruct E1 as [A1 A2]. destruct E2 as [B1 B2].
  split.
  - unfold Starts, start. destruct (survey_start s) as [t|]; [now left|]. right. split; [reflexivity|]. split; [apply HI, in_map_iff in A1; destruct A1 as (v & Ev & Hv); exists v; tauto|]. intros v Hv. apply A2, HI, in_map, Hv.
  - split; [split; [apply HI, A1 | intros y Hy; apply A2, HI, Hy]|]. split; [split; [apply HI, B1 | intros y Hy; apply B2, HI, Hy]|].
    split; [reflexivity|]. destruct (phases c) as [|n] eqn:En.
    + cbn [bind] in E. injection E as <- <-. split; [reflexivity|]. split; [reflexivity|]. intros N. now elim N.
    + unfold thresholds in E. destruct (forallb _ w) eqn:Ef; cbn [bind] in E; [|discriminate]. injection E as <- <-. split; [reflexivity|]. split; [reflexivity|]. intros _ v Hv. rewrite forallb_forall in Ef. specialize (Ef v (Permutation_in _ (Permutation_sym HP) Hv)). destruct (detect_snr c (aband v)); [discriminate | discriminate Ef].
Qed.
Lemma starts_unique s visits a b : Starts s visits a -> Starts s visits b -> a = b.
Proof.
  intros [Ha|(Ha & (v & Hv & <-) & Ha2)] [Hb|(Hb & (w & Hw & <-) & Hb2)]; try congruence. specialize (Ha2 w Hw). specialize (Hb2 v Hv). lia.
Qed.
(** the pairs that are counted *)
Lemma run_pairs search c L s visits s' vs lp start : Long c L -> run search c s visits = (s', Ok (vs, lp)) -> Starts s visits start ->
  vs = sort_time visits /\
  HowMany (fun p => (fst p < phases c)%nat /\ Counts c L start vs (fst p) (snd p) /\
    in_time_ok search c (map (epoch c start (fst p)) (filter (is_det c start (snd p) (fst p)) vs)) (map aband (filter (is_det c start (snd p) (fst p)) vs)) = true) (num lp).
Proof.
  intros HL HR HS. destruct (run_ok _ _ _ _ _ _ _ HR) as (st & lo & hi & HS' & _ & _ & _ & Ev & El & _). rewrite (starts_unique _ _ _ _ HS' HS) in El. split; [exact Ev|]. rewrite El.
  destruct (duration_long _ _ HL) as [ED PL]. eapply howmany_iff; [|apply num_pairs; [lia | subst vs; apply sort_sorted]]. intros (i, g). cbn [fst snd]. rewrite (detected_split search c L start vs i g HL). tauto.
Qed.
