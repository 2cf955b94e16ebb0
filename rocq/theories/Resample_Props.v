(** Theorems about resampling: C174-C179. *)
From Verif Require Import Base Astrom_Model Astrom_Proofs Astrom_Proofs2 Resample_Model Resample_Spec Resample_Proofs Resample_Proofs2 Resample_Proofs3.
From Coq Require Import Reals List Lia Lra.
Open Scope R_scope.

Lemma ascending_list l : (forall i, (S i < length l)%nat -> nth i l 0 < nth (S i) l 0) -> ascending l.
Proof. apply ascending_step. Qed.
Ltac asc := apply ascending_list; intros i Hi; simpl in Hi; repeat (destruct i as [|i]; [simpl; lra|]); lia.

(** C174: one value per new wavelength: the light of the old bins within the new bin over its width, and the fill value
    where the new bin is not within the old bins *)
Theorem C174_mean : forall g w f fill, ascending g -> ascending w -> (2 <= length g)%nat -> (2 <= length w)%nat -> length f = length w ->
  exists vs, spectres g w f fill = Ok vs /\ length vs = length g /\ forall j, (j < length g)%nat ->
    (covered w (bin_lo g j) (bin_hi g j) -> nth j vs None = Some (light w f (bin_lo g j) (bin_hi g j) / (bin_hi g j - bin_lo g j))) /\
    (~ covered w (bin_lo g j) (bin_hi g j) -> nth j vs None = fill).
Proof.
  intros g w f fill Ag Aw Lg Lw Lf. destruct (spectres_ok g w f fill Ag Aw Lg Lw Lf) as (vs & A & B & C).
  exists vs. split; [exact A|]. split; [exact B|]. intros j Hj. destruct (C j Hj) as [C1 C2]. split; [|exact C2].
  intros H. destruct (C1 H) as (x & -> & Hx). f_equal. rewrite <- Hx. pose proof (bin_pos g j Ag Lg Hj). field. lra.
Qed.
Print Assumptions C174_mean.
Example C174_case : spectres [3/2; 5/2] [1; 2; 3] [10; 20; 40] (Some 0) = Ok [Some 15; Some 30].
Proof.
  destruct (C174_mean [3/2; 5/2] [1; 2; 3] [10; 20; 40] (Some 0) ltac:(asc) ltac:(asc) ltac:(simpl; lia) ltac:(simpl; lia) eq_refl) as (vs & -> & L & H).
  f_equal. destruct vs as [|a [|b [|c t]]]; try discriminate L.
  assert (C0 : covered [1; 2; 3] (bin_lo [3/2; 5/2] 0) (bin_hi [3/2; 5/2] 0)) by (split; cbn; lra).
  assert (C1 : covered [1; 2; 3] (bin_lo [3/2; 5/2] 1) (bin_hi [3/2; 5/2] 1)) by (split; cbn; lra).
  pose proof (proj1 (H 0%nat ltac:(simpl; lia)) C0) as H0. pose proof (proj1 (H 1%nat ltac:(simpl; lia)) C1) as H1.
  cbn [nth] in H0, H1. subst a b. unfold light, addup. cbn [length seq map fold_right nth].
  repeat f_equal; unfold bin_lo, bin_hi; cbn [length nth Nat.eqb Nat.sub]; unfold common; minmax; try lra.
Qed.

(** C175: no light is lost or made: the values times the widths add up to the light of the spectrum over the range of the
    new bins *)
Definition value (v : option R) : R := match v with Some x => x | None => 0 end.
Theorem C175_conserved : forall g w f fill vs, ascending g -> ascending w -> (2 <= length g)%nat -> (2 <= length w)%nat -> length f = length w ->
  covered w (bin_lo g 0) (bin_hi g (length g - 1)) -> spectres g w f fill = Ok vs ->
  addup (map (fun j => value (nth j vs None) * (bin_hi g j - bin_lo g j)) (seq 0 (length g))) = light w f (bin_lo g 0) (bin_hi g (length g - 1)).
Proof.
  intros g w f fill vs Ag Aw Lg Lw Lf [Cv1 Cv2] E. destruct (spectres_ok g w f fill Ag Aw Lg Lw Lf) as (vs' & A & B & C).
  assert (vs' = vs) as -> by congruence.
  rewrite <- (light_bins w f g (length g - 1)) by (auto; lia). change addup with rsum.
  replace (S (length g - 1)) with (length g) by lia. apply rsum_ext. intros j Hj. apply in_seq in Hj.
  destruct (C j ltac:(lia)) as [C1 _]. destruct C1 as (x & -> & Hx); [|exact Hx].
  split; [eapply Rle_trans; [exact Cv1|apply bin_lo_le; auto; lia]|].
  eapply Rle_trans; [apply (bin_hi_le g j (length g - 1)); auto; lia|exact Cv2].
Qed.
Print Assumptions C175_conserved.
(** all of the light, when the new bins span the old ones *)
Theorem C175_total : forall g w f fill vs, ascending g -> ascending w -> (2 <= length g)%nat -> (2 <= length w)%nat -> length f = length w ->
  bin_lo g 0 = bin_lo w 0 -> bin_hi g (length g - 1) = bin_hi w (length w - 1) -> spectres g w f fill = Ok vs ->
  addup (map (fun j => value (nth j vs None) * (bin_hi g j - bin_lo g j)) (seq 0 (length g))) =
  addup (map (fun i => nth i f 0 * (bin_hi w i - bin_lo w i)) (seq 0 (length w))).
Proof.
  intros g w f fill vs Ag Aw Lg Lw Lf E0 E1 E. rewrite (C175_conserved g w f fill vs) by (auto; split; lra).
  rewrite E0, E1. rewrite <- (light_bins w f w (length w - 1)) by (auto; lia). change addup with rsum.
  replace (S (length w - 1)) with (length w) by lia. apply rsum_ext. intros i Hi. apply in_seq in Hi. apply light_own; auto; lia.
Qed.
Print Assumptions C175_total.
Example C175_case : ascending [1; 2; 3; 4] /\ ascending [3/2; 7/2] /\ bin_lo [3/2; 7/2] 0 = bin_lo [1; 2; 3; 4] 0 /\
  bin_hi [3/2; 7/2] 1 = bin_hi [1; 2; 3; 4] 3.
Proof. split; [asc|]. split; [asc|]. split; cbn; lra. Qed.

(** C176: a resampled value lies between the least and the greatest flux (so a flat spectrum stays flat), and resampling
    respects multiples and sums of spectra *)
Theorem C176_between : forall g w f fill vs j lo hi, ascending g -> ascending w -> (2 <= length g)%nat -> (2 <= length w)%nat -> length f = length w ->
  (forall y, In y f -> lo <= y <= hi) -> spectres g w f fill = Ok vs -> (j < length g)%nat -> covered w (bin_lo g j) (bin_hi g j) ->
  exists x, nth j vs None = Some x /\ lo <= x <= hi.
Proof.
  intros g w f fill vs j lo hi Ag Aw Lg Lw Lf Hf E Hj Cv. destruct (spectres_ok g w f fill Ag Aw Lg Lw Lf) as (vs' & A & B & C).
  assert (vs' = vs) as -> by congruence.
  destruct (C j Hj) as [C1 _]. destruct (C1 Cv) as (x & Ex & Hx). exists x. split; [exact Ex|].
  pose proof (bin_pos g j Ag Lg Hj) as P.
  destruct (light_bounds w f (bin_lo g j) (bin_hi g j) lo hi Aw Lw Cv ltac:(lra)) as [P1 P2].
  { intros i Hi. apply Hf, nth_In. lia. }
  rewrite <- Hx in P1, P2. split; [apply Rmult_le_reg_r with (bin_hi g j - bin_lo g j)|apply Rmult_le_reg_r with (bin_hi g j - bin_lo g j)]; lra.
Qed.
Print Assumptions C176_between.
Theorem C176_flat : forall g w c fill vs j, ascending g -> ascending w -> (2 <= length g)%nat -> (2 <= length w)%nat ->
  spectres g w (repeat c (length w)) fill = Ok vs -> (j < length g)%nat -> covered w (bin_lo g j) (bin_hi g j) -> nth j vs None = Some c.
Proof.
  intros g w c fill vs j Ag Aw Lg Lw E Hj Cv.
  destruct (C176_between g w (repeat c (length w)) fill vs j c c Ag Aw Lg Lw (repeat_length _ _)) as (x & -> & P); auto.
  - intros y Hy. apply repeat_spec in Hy. lra.
  - f_equal. lra.
Qed.
Print Assumptions C176_flat.
Lemma same_values vs us (g : list R) : length vs = length g -> length us = length g ->
  (forall j, (j < length g)%nat -> nth j vs (None : option R) = nth j us None) -> vs = us.
Proof. intros L1 L2 H. apply (nth_ext vs us None None); [congruence|]. intros j Hj. apply H. lia. Qed.
Theorem C176_linear : forall g w f h k fill, ascending g -> ascending w -> (2 <= length g)%nat -> (2 <= length w)%nat ->
  length f = length w -> length h = length w -> covered w (bin_lo g 0) (bin_hi g (length g - 1)) ->
  exists vf vh, spectres g w f fill = Ok (map Some vf) /\ spectres g w h fill = Ok (map Some vh) /\
    spectres g w (map (fun p => fst p + snd p) (combine f h)) fill = Ok (map Some (map (fun p => fst p + snd p) (combine vf vh))) /\
    spectres g w (map (fun x => k * x) f) fill = Ok (map Some (map (fun x => k * x) vf)).
Proof.
  intros g w f h k fill Ag Aw Lg Lw Lf Lh [Cv1 Cv2].
  assert (Cv : forall j, (j < length g)%nat -> covered w (bin_lo g j) (bin_hi g j)).
  { intros j Hj. split; [eapply Rle_trans; [exact Cv1|apply bin_lo_le; auto; lia]|].
    eapply Rle_trans; [apply (bin_hi_le g j (length g - 1)); auto; lia|exact Cv2]. }
  set (mean f j := light w f (bin_lo g j) (bin_hi g j) / (bin_hi g j - bin_lo g j)).
  assert (Main : forall f, length f = length w -> spectres g w f fill = Ok (map Some (map (mean f) (seq 0 (length g))))).
  { clear f Lf. intros f Lf. destruct (C174_mean g w f fill Ag Aw Lg Lw Lf) as (vs & -> & B & C). f_equal.
    apply (same_values _ _ g); [exact B|rewrite !map_length, seq_length; reflexivity|].
    intros j Hj. rewrite (proj1 (C j Hj)) by auto. rewrite (nth_indep _ None (Some (mean f 0%nat))) by (rewrite !map_length, seq_length; exact Hj).
    rewrite (map_nth Some), (map_nth (mean f)), seq_nth by exact Hj. reflexivity. }
  exists (map (mean f) (seq 0 (length g))), (map (mean h) (seq 0 (length g))).
  split; [auto|]. split; [auto|]. split.
  - rewrite Main by (rewrite map_length, combine_length; lia). do 2 f_equal. rewrite combine_map, map_map. apply map_ext. intros j. cbn [fst snd].
    unfold mean. rewrite light_plus by auto. unfold Rdiv. ring.
  - rewrite Main by (rewrite map_length; exact Lf). do 2 f_equal. rewrite map_map. apply map_ext. intros j. unfold mean. rewrite light_scale. unfold Rdiv. ring.
Qed.
Print Assumptions C176_linear.
Example C176_case : covered [1; 2; 3; 4] (bin_lo [2; 3] 0) (bin_hi [2; 3] 1) /\ ascending [2; 3].
Proof. split; [split; cbn; lra|asc]. Qed.

(** C177: on its own wavelengths a spectrum is unchanged, so resampling a second time onto the same grid changes nothing *)
Theorem C177_same : forall w f fill, ascending w -> (2 <= length w)%nat -> length f = length w -> spectres w w f fill = Ok (map Some f).
Proof.
  intros w f fill Aw Lw Lf. destruct (C174_mean w w f fill Aw Aw Lw Lw Lf) as (vs & -> & B & C). f_equal.
  apply (same_values _ _ w); [exact B|rewrite map_length; exact Lf|].
  intros j Hj. rewrite (proj1 (C j Hj)) by (apply covered_own; auto). rewrite light_own by auto.
  rewrite (nth_indep (map Some f) None (Some 0)) by (rewrite map_length; lia). rewrite (map_nth Some). f_equal.
  pose proof (bin_pos w j Aw Lw Hj). field. lra.
Qed.
Print Assumptions C177_same.
Lemma some_all_inj f f' : some_all f = some_all f' -> f = f'.
Proof. revert f'. induction f as [|x f IH]; intros [|y f'] E; try discriminate; auto. unfold some_all in E. cbn [map] in E. injection E as -> E. f_equal. apply IH, E. Qed.
Theorem C177_twice : forall g w f force fill w' f', ascending g -> ascending w -> (2 <= length g)%nat -> (2 <= length w)%nat ->
  resample_match g w f force fill = Ok (w', some_all f') -> resample_match g w' f' force fill = Ok (w', some_all f').
Proof.
  intros g w f force fill w' f' Ag Aw Lg Lw. unfold resample_match.
  destruct (Nat.eqb_spec (length w) (length f)) as [Lf|]; [|discriminate].
  destruct (orb force (need_match g w)) eqn:N.
  - destruct (C174_mean g w f fill Ag Aw Lg Lw (eq_sym Lf)) as (vs & -> & B & _). cbn [bind]. intros E.
    assert (w' = g) as -> by congruence. assert (vs = some_all f') as Ev by congruence.
    assert (L' : length f' = length g). { rewrite <- B, Ev. unfold some_all. rewrite map_length. reflexivity. }
    rewrite (proj2 (Nat.eqb_eq (length g) (length f'))) by congruence.
    destruct (orb force (need_match g g)); [|reflexivity].
    rewrite (C177_same g f' fill Ag Lg L'). reflexivity.
  - intros E. assert (w' = w) as -> by congruence.
    assert (Es : some_all f = some_all f') by congruence.
    assert (f = f') as <-.
    { apply some_all_inj. exact Es. }
    rewrite (proj2 (Nat.eqb_eq (length w) (length f)) Lf), N. reflexivity.
Qed.
Print Assumptions C177_twice.
Example C177_case : spectres [1; 2; 4] [1; 2; 4] [7; 8; 9] None = Ok [Some 7; Some 8; Some 9].
Proof. apply C177_same; [asc|simpl; lia|reflexivity]. Qed.
