(** Lemmas about the light of a spectrum, and about grids. *)
From Verif Require Import Base Astrom_Model Astrom_Proofs Astrom_Proofs2 Resample_Model Resample_Spec Resample_Proofs Resample_Proofs2.
From Coq Require Import Reals List Lia Lra.
Open Scope R_scope.

Lemma bin_chain w i : (S i < length w)%nat -> bin_hi w i = bin_lo w (S i).
Proof. intros H. unfold bin_hi, bin_lo. destruct (Nat.eqb_spec (S i) (length w)); [lia|reflexivity]. Qed.
Lemma bin_pos w i : ascending w -> (2 <= length w)%nat -> (i < length w)%nat -> bin_lo w i < bin_hi w i.
Proof.
  intros Hw L Hi. destruct (make_bins_spec w L) as (e & ws & E & Le & _ & He & _).
  pose proof (edges_ascending w e ws L Hw E) as Ae. destruct (He i Hi) as [<- <-]. apply Ae. lia.
Qed.
Lemma bin_inside w i : ascending w -> (2 <= length w)%nat -> (i < length w)%nat -> bin_lo w i < nth i w 0 < bin_hi w i.
Proof.
  intros Hw L Hi. unfold bin_lo, bin_hi. destruct i as [|i].
  - pose proof (Hw 0%nat 1%nat ltac:(lia)). destruct (Nat.eqb_spec 1 (length w)); [lia|]. lra.
  - pose proof (Hw i (S i) ltac:(lia)). destruct (Nat.eqb_spec (S (S i)) (length w)).
    + replace (S i - 1)%nat with i by lia. lra.
    + pose proof (Hw (S i) (S (S i)) ltac:(lia)). lra.
Qed.
Lemma bin_lo_le w i j : ascending w -> (2 <= length w)%nat -> (i <= j < length w)%nat -> bin_lo w i <= bin_lo w j.
Proof.
  intros Hw L Hij. destruct (make_bins_spec w L) as (e & ws & E & Le & _ & He & _).
  pose proof (edges_ascending w e ws L Hw E) as Ae. destruct (He i ltac:(lia)) as [<- _]. destruct (He j ltac:(lia)) as [<- _].
  apply ascending_le; [exact Ae|lia].
Qed.
Lemma bin_hi_le w i j : ascending w -> (2 <= length w)%nat -> (i <= j < length w)%nat -> bin_hi w i <= bin_hi w j.
Proof.
  intros Hw L Hij. destruct (make_bins_spec w L) as (e & ws & E & Le & _ & He & _).
  pose proof (edges_ascending w e ws L Hw E) as Ae. destruct (He i ltac:(lia)) as [_ <-]. destruct (He j ltac:(lia)) as [_ <-].
  apply ascending_le; [exact Ae|lia].
Qed.

Lemma light_split w f a b c : ascending w -> (2 <= length w)%nat -> a <= b -> b <= c -> light w f a b + light w f b c = light w f a c.
Proof.
  intros Hw L H1 H2. unfold light. change addup with rsum. rewrite <- rsum_plus. apply rsum_ext. intros i Hi. apply in_seq in Hi.
  pose proof (bin_pos w i Hw L ltac:(lia)). rewrite !common_clip by lra. lra.
Qed.
Lemma total_common w lo hi : ascending w -> (2 <= length w)%nat -> covered w lo hi -> lo <= hi ->
  rsum (map (fun i => common (bin_lo w i) (bin_hi w i) lo hi) (seq 0 (length w))) = hi - lo.
Proof.
  intros Hw L [C1 C2] Hle. destruct (make_bins_spec w L) as (e & ws & E & Le & _ & He & _).
  pose proof (edges_ascending w e ws L Hw E) as Ae.
  rewrite <- (common_sum e lo hi Ae).
  - rewrite Le. simpl. rewrite Nat.sub_0_r. apply rsum_ext. intros i Hi. apply in_seq in Hi. destruct (He i ltac:(lia)) as [-> ->]. reflexivity.
  - lia.
  - destruct (He 0%nat ltac:(lia)) as [-> _]. exact C1.
  - exact Hle.
  - rewrite Le. simpl. rewrite Nat.sub_0_r. destruct (He (length w - 1)%nat ltac:(lia)) as [_ A].
    replace (S (length w - 1)) with (length w) in A by lia. rewrite A. exact C2.
Qed.
Lemma light_bounds w f lo hi m M : ascending w -> (2 <= length w)%nat -> covered w lo hi -> lo <= hi ->
  (forall i, (i < length w)%nat -> m <= nth i f 0 <= M) -> m * (hi - lo) <= light w f lo hi <= M * (hi - lo).
Proof.
  intros Hw L C Hle Hf. rewrite <- (total_common w lo hi Hw L C Hle). rewrite <- !rsum_scale. unfold light. change addup with rsum.
  split; apply rsum_le; intros i Hi; apply in_seq in Hi; pose proof (Hf i ltac:(lia));
    pose proof (common_nonneg (bin_lo w i) (bin_hi w i) lo hi); nra.
Qed.
Lemma light_scale w f k lo hi : light w (map (fun x => k * x) f) lo hi = k * light w f lo hi.
Proof.
  unfold light. change addup with rsum. rewrite <- rsum_scale. apply rsum_ext. intros i _.
  replace (nth i (map (fun x => k * x) f) 0) with (k * nth i f 0); [lra|].
  rewrite <- (map_nth (fun x => k * x)). rewrite Rmult_0_r. reflexivity.
Qed.
Lemma light_plus w f h lo hi : length f = length w -> length h = length w ->
  light w (map (fun p => fst p + snd p) (combine f h)) lo hi = light w f lo hi + light w h lo hi.
Proof.
  intros Lf Lh. unfold light. change addup with rsum. rewrite <- rsum_plus. apply rsum_ext. intros i Hi. apply in_seq in Hi.
  replace (nth i (map (fun p => fst p + snd p) (combine f h)) 0) with (nth i f 0 + nth i h 0); [lra|].
  pose proof (map_nth (fun p : R * R => fst p + snd p) (combine f h) (0, 0) i) as Q. cbn [fst snd] in Q. rewrite Rplus_0_l in Q.
  rewrite Q. rewrite combine_nth by congruence. reflexivity.
Qed.
(** the light of a spectrum over one of its own bins *)
Lemma light_own w f j : ascending w -> (2 <= length w)%nat -> length f = length w -> (j < length w)%nat ->
  light w f (bin_lo w j) (bin_hi w j) = nth j f 0 * (bin_hi w j - bin_lo w j).
Proof.
  intros Hw L Lf Hj. unfold light. change addup with rsum. rewrite (rsum_three _ j j (length w)).
  - replace (S j - j)%nat with 1%nat by lia. unfold rsum. cbn [seq map fold_right]. pose proof (bin_pos w j Hw L Hj).
    rewrite common_inside by lra. lra.
  - lia.
  - intros i Hi. pose proof (bin_pos w i Hw L ltac:(lia)). pose proof (bin_lo_le w (S i) j Hw L ltac:(lia)).
    rewrite <- bin_chain in H0 by lia. rewrite common_left by lra. lra.
  - intros i Hi. pose proof (bin_pos w i Hw L ltac:(lia)). pose proof (bin_lo_le w (S j) i Hw L ltac:(lia)).
    rewrite <- bin_chain in H0 by lia. rewrite common_right by lra. lra.
Qed.
Lemma covered_own w j : ascending w -> (2 <= length w)%nat -> (j < length w)%nat -> covered w (bin_lo w j) (bin_hi w j).
Proof. intros Hw L Hj. split; [apply bin_lo_le|apply bin_hi_le]; auto; lia. Qed.
(** the light over the bins of a grid, added up *)
Lemma light_bins w f g n : ascending w -> (2 <= length w)%nat -> ascending g -> (2 <= length g)%nat -> (S n <= length g)%nat ->
  rsum (map (fun j => light w f (bin_lo g j) (bin_hi g j)) (seq 0 (S n))) = light w f (bin_lo g 0) (bin_hi g n).
Proof.
  intros Hw L Hg Lg. induction n as [|n IH]; intros Hn.
  - unfold rsum. cbn [seq map fold_right]. lra.
  - rewrite seq_S, map_app, rsum_app, IH by lia. unfold rsum. cbn [map fold_right]. rewrite Nat.add_0_l, Rplus_0_r.
    rewrite (bin_chain g n) by lia. pose proof (bin_pos g (S n) Hg Lg ltac:(lia)). pose proof (bin_lo_le g 0 (S n) Hg Lg ltac:(lia)).
    apply light_split; auto. lra.
Qed.

(** arange *)
Lemma rceil_spec x : x <= IZR (rceil x) < x + 1.
Proof. unfold rceil. rewrite minus_IZR. destruct (archimed (- x)). lra. Qed.
Lemma rceil_unique x z : x <= IZR z < x + 1 -> rceil x = z.
Proof.
  intros H. pose proof (rceil_spec x). destruct (Z.lt_trichotomy (rceil x) z) as [A|[A|A]]; auto.
  - assert (rceil x + 1 <= z)%Z as B by lia. apply IZR_le in B. rewrite plus_IZR in B. lra.
  - assert (z + 1 <= rceil x)%Z as B by lia. apply IZR_le in B. rewrite plus_IZR in B. lra.
Qed.
Lemma arange_length a b s : length (arange a b s) = Z.to_nat (rceil ((b - a) / s)).
Proof. unfold arange. rewrite map_length, seq_length. reflexivity. Qed.
Lemma arange_nth a b s i : (i < length (arange a b s))%nat -> nth i (arange a b s) 0 = a + INR i * s.
Proof.
  intros H. rewrite arange_length in H. unfold arange.
  rewrite (nth_indep _ 0 (a + INR 0 * s)) by (rewrite map_length, seq_length; exact H).
  rewrite (map_nth (fun i => a + INR i * s) (seq 0 _) 0%nat). rewrite seq_nth by exact H. reflexivity.
Qed.
Lemma arange_ascending a b s : 0 < s -> ascending (arange a b s).
Proof.
  intros Hs i j [Hij Hj]. rewrite !arange_nth by lia. apply lt_INR in Hij. nra.
Qed.
