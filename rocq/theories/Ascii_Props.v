(** Transients given by a spectrum: the criteria, the limit of time, the slices, the number possible. *)
From Coq Require Import Reals Lra.
From Verif Require Import Base Technical_Model Technical_Proofs Technical_Proofs3 Transient_Proofs MoObs_Proofs2 Template_Model Sky_Proofs Pop_Props2 Ascii_Model Plane_Spec Plane_Props Micro_Proofs Ascii_Spec Ascii_Proofs Ascii_Proofs2 Ascii_Proofs3 Ascii_Proofs4.
From Coq Require Import Lia Permutation Sorted.
Open Scope Z_scope.

(** a metric, visits that see a transient of magnitude 20 *)
Definition metric (n : nat) (u nf : Z) (ft : option Z) : conf :=
  {| unit := u; phases := n; mags := fun _ _ => 20%R; detect_snr := fun b => if String.eqb b "g" || String.eqb b "r" then Some 5%R else None; num_pre := 0; pre_time := 0;
     num_filters_arg := nf; filter_time := ft; num_per := 1 |}.
Definition vis (t : Z) (b : string) : avisit := {| at_ := t; am5 := 20%R; aband := b |}.
Definition fresh : state := {| survey_duration := 0; survey_start := None |}.
(** what searchsorted does with a sequence in order, done with any sequence *)
Definition counting (a keys : list Z) : list nat := map (right_of a) keys.
Lemma counting_search : Search counting.
Proof.
  intros a keys _. unfold counting. induction keys as [|k t IH]; [constructor|]. cbn [map]. constructor; [|exact IH]. unfold right_of. apply countP_filter. intros y. apply Z.leb_le.
Qed.
Lemma above_vis n u nf ft start i t b : b = "g"%string \/ b = "r"%string -> above (metric n u nf ft) start i (vis t b) = true.
Proof.
  intros H. unfold above. cbn [metric detect_snr vis aband mags am5]. assert (String.eqb b "g" || String.eqb b "r" = true) as -> by (destruct H as [-> | ->]; reflexivity). apply rleb_true. rewrite snr_pow.
  replace (2/5 * (20 - 20))%R with 0%R by lra. rewrite Rpower_O by lra. lra.
Qed.

Lemma bright20 : rleb 5 (Astrom_Model.snr_gamma (1/25) (Rpower 10 (2/5 * (20 - 20)))) = true.
Proof. exact (above_vis 1 1 0 None 0 0 0 "g" (or_introl eq_refl)). Qed.
Ltac all_seen := cbn; rewrite ?bright20; reflexivity.

(** C368: the transients counted are those that meet the documented criteria *)
Theorem C368_criteria : forall search c L s visits s' vs lp start, Long c L -> run search c s visits = (s', Ok (vs, lp)) -> Starts s visits start ->
  (filter_time c = None \/ num_filters_arg c <= 1 \/ num_per c = 0) ->
  HowMany (fun p => (fst p < phases c)%nat /\ Counts c L start visits (fst p) (snd p)) (num lp).
Proof.
  intros search c L s visits s' vs lp start HL HR HS HF. destruct (run_pairs _ _ _ _ _ _ _ _ _ HL HR HS) as [-> HM]. eapply howmany_iff; [|exact HM]. intros (i, g). cbn [fst snd]. rewrite in_time_trivial by exact HF.
  pose proof (sort_perm visits) as HP. split; intros H; (split; [apply H|]).
  - eapply counts_perm; [exact HP | apply H].
  - split; [eapply counts_perm; [symmetry; exact HP | apply H] | reflexivity].
Qed.
Print Assumptions C368_criteria.
Definition pair1 := [vis 3 "r"; vis 0 "g"; vis 14 "g"].
Example C368_case : exists s' vs lp, Long (metric 1 10 2 None) 10 /\ run counting (metric 1 10 2 None) fresh pair1 = (s', Ok (vs, lp)) /\ Starts fresh pair1 0 /\ num lp = 1.
Proof.
  do 3 eexists. split; [unfold Long; cbn; lia|]. split; [reflexivity|]. split; [right; cbn; split; [reflexivity|]; split; [exists (vis 0 "g"); cbn; tauto | intros v [<-|[<-|[<-|[]]]]; cbn; lia]|].
  all_seen.
Qed.

(** C369: the bands within the limit of time *)
Theorem C369_never_more_partial : forall search c L s visits s' vs lp start ft m, Search search -> Long c L -> phases c = 1%nat -> run search c s visits = (s', Ok (vs, lp)) -> Starts s visits start ->
  filter_time c = Some ft -> 1 < num_filters_arg c -> num_per c <> 0 ->
  HowMany (fun g => Counts c L start visits 0 g /\ Within c L start visits 0 g ft) m -> num lp <= m.
Proof.
  intros search c L s visits s' vs lp start ft m Hsr HL H1 HR HS Hf Hn Hp HM. destruct (run_pairs _ _ _ _ _ _ _ _ _ HL HR HS) as [-> HN]. destruct HN as (l & N1 & N2 & <-). destruct HM as (k & K1 & K2 & <-).
  rewrite <- (map_length snd l). apply inj_le, NoDup_incl_length.
  - assert (forall p, In p l -> fst p = 0%nat) as HZ by (intros p Hpn; apply N2 in Hpn; lia). clear N2. induction N1 as [|p t Hpt Ht IH]; [constructor|]. cbn [map]. constructor; [|apply IH; intros q Hq; apply HZ; now right]. intros Hi. apply in_map_iff in Hi. destruct Hi as (q & Eq & Hq). apply Hpt. assert (p = q) as ->; [|exact Hq]. pose proof (HZ p (or_introl eq_refl)). pose proof (HZ q (or_intror Hq)). destruct p, q. cbn in *. congruence.
  - intros g Hg. apply in_map_iff in Hg. destruct Hg as ((i, g') & <- & Hp'). apply N2 in Hp'. cbn [fst snd] in *. destruct Hp' as (Hi & HC & HT). assert (i = 0%nat) as -> by lia. apply K2. pose proof (sort_perm visits) as HP. split; [eapply counts_perm; eauto|].
    eapply within_perm; [exact HP|]. apply (in_time_within search); auto; [apply sort_sorted | unfold num_filters; destruct (num_per c =? 0) eqn:E0; [apply Z.eqb_eq in E0; contradiction | exact Hn]].
Qed.
Print Assumptions C369_never_more_partial.
Theorem C369_later_partial : forall search c L s visits s' vs lp start ft, Search search -> Long c L -> phases c = 1%nat -> run search c s visits = (s', Ok (vs, lp)) -> Starts s visits start ->
  filter_time c = Some ft -> 1 < num_filters_arg c -> num_per c <> 0 -> NoDup (map at_ visits) ->
  HowMany (fun g => Counts c L start visits 0 g /\ WithinLater c L start visits 0 g ft) (num lp).
Proof.
  intros search c L s visits s' vs lp start ft Hsr HL H1 HR HS Hf Hn Hp ND. destruct (run_pairs _ _ _ _ _ _ _ _ _ HL HR HS) as [-> HN]. destruct HN as (l & N1 & N2 & <-). pose proof (sort_perm visits) as HP.
  assert (1 < num_filters c) as Hn' by (unfold num_filters; destruct (num_per c =? 0) eqn:E0; [apply Z.eqb_eq in E0; contradiction | exact Hn]).
  exists (map snd l). rewrite map_length. split; [|split; [|reflexivity]].
  - assert (forall p, In p l -> fst p = 0%nat) as HZ by (intros p Hpn; apply N2 in Hpn; lia). clear N2. induction N1 as [|p t Hpt Ht IH]; [constructor|]. cbn [map]. constructor; [|apply IH; intros q Hq; apply HZ; now right]. intros Hi. apply in_map_iff in Hi. destruct Hi as (q & Eq & Hq). apply Hpt. assert (p = q) as ->; [|exact Hq]. pose proof (HZ p (or_introl eq_refl)). pose proof (HZ q (or_intror Hq)). destruct p, q. cbn in *. congruence.
  - intros g. rewrite in_map_iff. split.
    + intros ((i, g') & <- & Hp'). apply N2 in Hp'. cbn [fst snd] in *. destruct Hp' as (Hi & HC & HT). assert (i = 0%nat) as -> by lia. split; [eapply counts_perm; eauto|]. eapply later_perm; [exact HP|]. eapply (in_time_within search); eauto; [apply sort_sorted|]. eapply Permutation_NoDup; [apply Permutation_map; symmetry; exact HP | exact ND].
    + intros [HC HT]. exists (0%nat, g). split; [reflexivity|]. apply N2. cbn [fst snd]. split; [lia|]. split; [eapply counts_perm; [symmetry; exact HP | exact HC]|]. eapply within_in_time; eauto; [apply sort_sorted|]. eapply later_perm; [symmetry; exact HP | exact HT].
Qed.
Print Assumptions C369_later_partial.
Definition pair2 := [vis 0 "g"; vis 1 "r"].
Theorem C369_last_refuted : ~ (forall search c L s visits s' vs lp start ft m, Search search -> Long c L -> run search c s visits = (s', Ok (vs, lp)) -> Starts s visits start ->
  filter_time c = Some ft -> 1 < num_filters_arg c -> num_per c <> 0 ->
  HowMany (fun p => (fst p < phases c)%nat /\ Counts c L start visits (fst p) (snd p) /\ Within c L start visits (fst p) (snd p) ft) m -> num lp = m).
Proof.
  intros H. pose (c := metric 1 10 2 (Some 5)).
  assert (Long c 10) as HL by (unfold Long; cbn; lia).
  assert (Starts fresh pair2 0) as HS by (right; cbn; split; [reflexivity|]; split; [exists (vis 0 "g"); cbn; tauto | intros v [<-|[<-|[]]]; cbn; lia]).
  destruct (run counting c fresh pair2) as [s' r] eqn:HR. assert (exists vs lp, r = Ok (vs, lp) /\ num lp = 0) as (vs & lp & -> & Hlp).
  { unfold c in HR. cbn in HR. injection HR as _ <-. do 2 eexists. split; [reflexivity|]. all_seen. }
  assert (HowMany (fun p => (fst p < phases c)%nat /\ Counts c 10 0 pair2 (fst p) (snd p) /\ Within c 10 0 pair2 (fst p) (snd p) 5) 1) as HM.
  { exists [(0%nat, 0)]. split; [repeat constructor; intros []|]. split; [|reflexivity].
    assert (forall v, In v pair2 -> Detects c 10 0 0 0 v) as HD.
    { intros v Hv. apply (is_det_iff c 10 0 0 0 v HL). unfold is_det. apply andb_true_iff. destruct Hv as [<-|[<-|[]]]; (split; [reflexivity | apply above_vis; tauto]). }
    assert (forall v, In v pair2 -> Epoch c 10 0 0 v (at_ v)) as HE by (intros v [<-|[<-|[]]]; unfold Epoch; cbn [vis at_]; change (unit c) with 10; (split; [lia | exists 0; lia])).
    intros (i, g). cbn [In fst snd]. split.
    - intros [E|[]]. injection E as <- <-. split; [cbn; lia|]. split.
      + split; [exists (vis 0 "g"); split; [now left | unfold Of; cbn; lia]|]. split.
        { exists (length (filter (fun v => is_det c 0 0 0 v && (epoch c 0 0 v <? pre_time c)) pair2)). split; [|change (num_pre c) with 0; lia]. apply countP_filter. intros v. rewrite andb_true_iff, (is_det_iff c 10), Z.ltb_lt by exact HL. split; intros [X1 X2]; (split; [exact X1|]).
          - exists (epoch c 0 0 v). split; [apply epoch_of; auto | exact X2].
          - destruct X2 as (e & He & Hl). apply (epoch_of _ _ _ _ _ _ HL) in He. rewrite He. exact Hl. }
        split; [intros k Hk; change (0 <= k < 1) in Hk; assert (k = 0) as -> by lia; exists (vis 0 "g"), 0; split; [now left|]; split; [apply HD; now left|]; split; [apply (HE (vis 0 "g")); now left | cbn; lia]|].
        intros _ _. exists ["g"; "r"]%string. split; [repeat constructor; cbn; intuition discriminate|]. split; [reflexivity|]. intros b [<-|[<-|[]]]; [exists (vis 0 "g") | exists (vis 1 "r")]; cbn; intuition; apply HD; cbn; tauto.
      + exists 0, ["g"; "r"]%string. split; [repeat constructor; cbn; intuition discriminate|]. split; [reflexivity|]. intros b [<-|[<-|[]]]; [exists (vis 0 "g") | exists (vis 1 "r")]; (split; [cbn; tauto|]); (split; [|reflexivity]); (split; [apply HD; cbn; tauto|]); eexists; (split; [apply HE; cbn; tauto | cbn; lia]).
    - intros (Hi & ((v & Hv & Ho) & _) & _). left. cbn in Hi. assert (i = 0%nat) as -> by lia. f_equal. unfold Of in Ho. destruct Hv as [<-|[<-|[]]]; cbn in Ho; lia. }
  pose proof (H counting c 10 fresh pair2 s' vs lp 0 5 1 counting_search HL HR HS eq_refl ltac:(cbn; lia) ltac:(cbn; lia) HM) as X. lia.
Qed.
Print Assumptions C369_last_refuted.
(** with a third detection the two first are counted *)
Definition triple := [vis 0 "g"; vis 1 "r"; vis 2 "r"].
Example C369_case : exists s' vs lp, Search counting /\ Long (metric 1 10 2 (Some 5)) 10 /\ run counting (metric 1 10 2 (Some 5)) fresh triple = (s', Ok (vs, lp)) /\ num lp = 1 /\ NoDup (map at_ triple).
Proof.
  do 3 eexists. split; [exact counting_search|]. split; [unfold Long; cbn; lia|]. split; [reflexivity|]. split; [all_seen|]. cbn. repeat constructor; cbn; lia.
Qed.
