(** The criteria of the model against the documented ones. *)
From Coq Require Import Reals.
From Verif Require Import Base Technical_Model Technical_Proofs Technical_Proofs3 Transient_Proofs Ascii_Model Plane_Spec Plane_Props Micro_Proofs Ascii_Spec Ascii_Proofs.
From Coq Require Import Lia Permutation Sorted.
Open Scope Z_scope.

Lemma countP_perm {A} (P : A -> Prop) l l' : Permutation l l' -> forall n, CountP P l n -> CountP P l' n.
Proof.
  induction 1 as [|x l l' Hl IH|x y l|l1 l2 l3 H1 IH1 H2 IH2]; intros n H; [exact H| | |apply IH2, IH1, H].
  - inversion H; subst; [apply CP_in | apply CP_out]; auto.
  - inversion H as [|? ? m Hx H'|? ? m Hx H']; subst; inversion H' as [|? ? k Hy H''|? ? k Hy H'']; subst; repeat (first [apply CP_in; [assumption|] | apply CP_out; [assumption|]]); assumption.
Qed.
Lemma countP_ext {A} (P Q : A -> Prop) l n : (forall x, P x <-> Q x) -> CountP P l n -> CountP Q l n.
Proof. intros H C. induction C; constructor; try apply H; auto. intros q. apply H in q. contradiction. Qed.
Lemma bands_count (P : avisit -> bool) vs n : 0 <= n -> (n <= distinct (map aband (filter P vs)) <-> Bands (fun v => P v = true) vs n).
Proof.
  intros Hn. unfold distinct, Bands. set (B := nodup string_dec (map aband (filter P vs))).
  assert (forall b, In b B <-> exists v, In v vs /\ P v = true /\ aband v = b) as HB.
  { intros b. unfold B. rewrite nodup_In, in_map_iff. split; [intros (v & E & Hv); apply filter_In in Hv; exists v; tauto | intros (v & Hv & Hp & E); exists v; split; [exact E | apply filter_In; tauto]]. }
  assert (NoDup B) as ND by apply NoDup_nodup. split.
  - intros H. exists (firstn (Z.to_nat n) B). split; [|split].
    + rewrite <- (firstn_skipn (Z.to_nat n) B) in ND. clear -ND. induction (firstn (Z.to_nat n) B) as [|x t IH]; [constructor|]. cbn in ND. inversion ND as [|? ? Hx Ht]; subst. constructor; [intros Hi; apply Hx, in_or_app; left; exact Hi | apply IH; exact Ht].
    + rewrite firstn_length. lia.
    + intros b Hb. apply HB. rewrite <- (firstn_skipn (Z.to_nat n) B). apply in_or_app. now left.
  - intros (bands & H1 & <- & H3). apply inj_le. apply NoDup_incl_length; [exact H1|]. intros b Hb. apply HB, H3, Hb.
Qed.
Lemma bands_ext (P Q : avisit -> Prop) vs n : (forall v, In v vs -> P v -> Q v) -> Bands P vs n -> Bands Q vs n.
Proof. intros H (bands & H1 & H2 & H3). exists bands. split; [exact H1|]. split; [exact H2|]. intros b Hb. destruct (H3 b Hb) as (v & Hv & Hp & E). exists v. auto. Qed.

Definition base_ok (c : conf) (epochs : list Z) (bands : list string) : bool := pre_ok c epochs && sections_ok c epochs && filters_ok c bands.
Definition is_det (c : conf) (start g : Z) (i : nat) (v : avisit) : bool := (number c start v =? g) && above c start i v.
Lemma is_det_iff c L start g i v : Long c L -> (is_det c start g i v = true <-> Detects c L start g i v).
Proof. intros HL. unfold is_det, Detects. rewrite andb_true_iff, Z.eqb_eq, (number_of c L), (above_seen c L) by exact HL. reflexivity. Qed.
Lemma seen_group c start vs i g : filter (above c start i) (group c start vs g) = filter (is_det c start g i) vs.
Proof. unfold group. rewrite filter_filter'. reflexivity. Qed.
Lemma filter_map {A B} (f : A -> B) (P : B -> bool) l : filter P (map f l) = map f (filter (fun x => P (f x)) l).
Proof. induction l as [|x t IH]; [reflexivity|]. cbn. destruct (P (f x)); cbn; rewrite IH; reflexivity. Qed.
Lemma base_counts c L start vs i g : Long c L ->
  ((exists v, In v vs /\ Of L start g v) /\ base_ok c (map (epoch c start i) (filter (is_det c start g i) vs)) (map aband (filter (is_det c start g i) vs)) = true
   <-> Counts c L start vs i g).
Proof.
  intros HL. destruct (duration_long _ _ HL) as [ED PL]. unfold base_ok, Counts. rewrite !andb_true_iff, !and_assoc.
  assert (forall A B C B' C' D D' : Prop, (B <-> B') -> (C <-> C') -> (D <-> D') -> (A /\ B /\ C /\ D <-> A /\ B' /\ C' /\ D')) as cong by tauto. apply cong; clear cong.
  - unfold pre_ok, EarlyEnough. rewrite Z.leb_le, filter_map, map_length, filter_filter'.
    assert (CountP (fun v => Detects c L start g i v /\ exists e, Epoch c L start i v e /\ e < pre_time c) vs
      (length (filter (fun x => is_det c start g i x && (epoch c start i x <? pre_time c)) vs))) as HC.
    { apply countP_filter. intros v. rewrite andb_true_iff, (is_det_iff c L), Z.ltb_lt by exact HL. split; intros [H1 H2]; (split; [exact H1|]).
      - exists (epoch c start i v). split; [apply epoch_of; auto | exact H2].
      - destruct H2 as (e & He & Hl). apply (epoch_of _ _ _ _ _ _ HL) in He. rewrite He. exact Hl. }
    split; [intros H; eexists; split; [exact HC | exact H]|]. intros (n & Hn & H). rewrite (countP_unique _ _ _ _ HC Hn). exact H.
  - unfold sections_ok, AllSections. rewrite Z.leb_le, ED, map_map. destruct (Z_le_gt_dec (num_per c) 0) as [N|N].
    + split; [intros _ k Hk; lia | intros _; lia].
    + rewrite unique_z_count; [|lia|].
      * assert (forall v k, (epoch c start i v * num_per c / L = k <-> exists e, Epoch c L start i v e /\ k * L <= e * num_per c < (k + 1) * L)) as HK.
        { intros v k. split.
          - intros <-. exists (epoch c start i v). split; [apply epoch_of; auto|]. set (x := epoch c start i v * num_per c). pose proof (Z.div_mod x L ltac:(lia)). pose proof (Z.mod_pos_bound x L PL). nia.
          - intros (e & He & B). apply (epoch_of _ _ _ _ _ _ HL) in He. rewrite He. symmetry. apply (Z.div_unique (e * num_per c) L k (e * num_per c - k * L)); [left; lia | lia]. }
        split; intros H k Hk; specialize (H k Hk).
        -- apply in_map_iff in H. destruct H as (v & E & Hv). apply filter_In in Hv. destruct Hv as [Hv Hd]. apply HK in E. destruct E as (e & He & B). exists v, e. split; [exact Hv|]. split; [apply (is_det_iff c L); assumption|]. split; assumption.
        -- destruct H as (v & e & Hv & Hd & He & B). apply in_map_iff. exists v. split; [apply HK; exists e; split; assumption|]. apply filter_In. split; [exact Hv | apply (is_det_iff c L); assumption].
      * intros x Hx. apply in_map_iff in Hx. destruct Hx as (v & <- & Hv). assert (0 <= epoch c start i v < L) as B by (unfold epoch; rewrite ED; apply Z.mod_pos_bound; exact PL). split; [apply Z.div_pos; nia|]. apply Z.div_lt_upper_bound; nia.
  - unfold filters_ok, num_filters. rewrite Z.leb_le. destruct (num_per c =? 0) eqn:E0; [apply Z.eqb_eq in E0; split; [intros _ H; contradiction | intros _; unfold distinct; lia]|]. apply Z.eqb_neq in E0.
    destruct (Z_lt_le_dec 0 (num_filters_arg c)) as [N|N]; [|split; [intros _ _ H; lia | intros _; unfold distinct; lia]]. rewrite bands_count by lia. split.
    + intros H _ _. eapply bands_ext; [|exact H]. intros v _. apply (is_det_iff c L); exact HL.
    + intros H. specialize (H E0 N). eapply bands_ext; [|exact H]. intros v _. apply (is_det_iff c L); exact HL.
Qed.
