(** Theorems about resampling: C178-C179. *)
From Verif Require Import Base Astrom_Model Astrom_Proofs Astrom_Proofs2 Resample_Model Resample_Spec Resample_Proofs Resample_Proofs2 Resample_Proofs3 Resample_Props.
From Coq Require Import Reals List Lia Lra.
Open Scope R_scope.

(** C178: a spectrum that covers the wavelengths asked for can be resampled there *)
(** false: a grid with wider steps at its ends gets NaN (the fill value) there, although its wavelengths lie within those of
    the spectrum *)
Theorem C178_covers_refuted : ~ (forall g w f vs, ascending g -> ascending w -> (2 <= length g)%nat -> (2 <= length w)%nat -> length f = length w ->
  (forall x, In x g -> nth 0 w 0 <= x <= nth (length w - 1) w 0) -> spectres g w f None = Ok vs -> forall v, In v vs -> v <> None).
Proof.
  intros C.
  destruct (C174_mean [1; 3; 5] [1; 2; 3; 4; 5] [1; 1; 1; 1; 1] None ltac:(asc) ltac:(asc) ltac:(simpl; lia) ltac:(simpl; lia) eq_refl) as (vs & E & L & H).
  refine (C [1; 3; 5] [1; 2; 3; 4; 5] [1; 1; 1; 1; 1] vs _ _ _ _ eq_refl _ E (nth 0 vs None) _ _); try (simpl; lia); try asc.
  - intros x Hx. simpl in Hx. simpl. destruct Hx as [<-|[<-|[<-|[]]]]; lra.
  - apply nth_In. simpl in L. lia.
  - apply (proj2 (H 0%nat ltac:(simpl; lia))). intros [K _]. cbn in K. lra.
Qed.
Print Assumptions C178_covers_refuted.
(** whenever a grid begins where the spectrum begins, with a wider first step, its first value is the fill value; the same at
    the end *)
Theorem C178_coarse : forall g w f fill vs, ascending g -> ascending w -> (2 <= length g)%nat -> (2 <= length w)%nat -> length f = length w ->
  spectres g w f fill = Ok vs ->
  (nth 0 g 0 = nth 0 w 0 -> nth 1 w 0 - nth 0 w 0 < nth 1 g 0 - nth 0 g 0 -> nth 0 vs None = fill) /\
  (nth (length g - 1) g 0 = nth (length w - 1) w 0 ->
   nth (length w - 1) w 0 - nth (length w - 2) w 0 < nth (length g - 1) g 0 - nth (length g - 2) g 0 -> nth (length g - 1) vs None = fill).
Proof.
  intros g w f fill vs Ag Aw Lg Lw Lf E. destruct (C174_mean g w f fill Ag Aw Lg Lw Lf) as (vs' & A & B & C).
  assert (vs' = vs) as -> by congruence. split; intros H1 H2.
  - apply (proj2 (C 0%nat ltac:(lia))). intros [K _]. unfold bin_lo in K. lra.
  - apply (proj2 (C (length g - 1)%nat ltac:(lia))). intros [_ K]. unfold bin_hi in K.
    rewrite (proj2 (Nat.eqb_eq (S (length g - 1)) (length g))) in K by lia. rewrite (proj2 (Nat.eqb_eq (S (length w - 1)) (length w))) in K by lia.
    replace (length g - 1 - 1)%nat with (length g - 2)%nat in K by lia. replace (length w - 1 - 1)%nat with (length w - 2)%nat in K by lia. lra.
Qed.
Print Assumptions C178_coarse.
(** what holds: when moreover the first and the last step of the grid are not wider than those of the spectrum, every value is
    a number *)
Theorem C178_covers_partial : forall g w f fill, ascending g -> ascending w -> (2 <= length g)%nat -> (2 <= length w)%nat -> length f = length w ->
  (forall x, In x g -> nth 0 w 0 <= x <= nth (length w - 1) w 0) ->
  nth 1 g 0 - nth 0 g 0 <= nth 1 w 0 - nth 0 w 0 ->
  nth (length g - 1) g 0 - nth (length g - 2) g 0 <= nth (length w - 1) w 0 - nth (length w - 2) w 0 ->
  exists xs, spectres g w f fill = Ok (map Some xs) /\ length xs = length g.
Proof.
  intros g w f fill Ag Aw Lg Lw Lf Hin H1 H2.
  destruct (C176_linear g w f f 1 fill Ag Aw Lg Lw Lf Lf) as (vf & _ & A & _).
  - pose proof (Hin (nth 0 g 0) ltac:(apply nth_In; lia)). pose proof (Hin (nth (length g - 1) g 0) ltac:(apply nth_In; lia)).
    split; [unfold bin_lo; lra|]. unfold bin_hi.
    rewrite (proj2 (Nat.eqb_eq (S (length g - 1)) (length g))) by lia. rewrite (proj2 (Nat.eqb_eq (S (length w - 1)) (length w))) by lia.
    replace (length g - 1 - 1)%nat with (length g - 2)%nat by lia. replace (length w - 1 - 1)%nat with (length w - 2)%nat by lia. lra.
  - exists vf. split; [exact A|]. destruct (C174_mean g w f fill Ag Aw Lg Lw Lf) as (vs & E & B & _).
    rewrite A in E. assert (map Some vf = vs) as <- by congruence. rewrite map_length in B. exact B.
Qed.
Print Assumptions C178_covers_partial.
Example C178_case : ascending [2; 3; 4] /\ (forall x, In x [2; 3; 4] -> nth 0 [1; 2; 3; 4; 5] 0 <= x <= nth (length [1; 2; 3; 4; 5] - 1) [1; 2; 3; 4; 5] 0) /\
  nth 1 [2; 3; 4] 0 - nth 0 [2; 3; 4] 0 <= nth 1 [1; 2; 3; 4; 5] 0 - nth 0 [1; 2; 3; 4; 5] 0.
Proof. split; [asc|]. split; [|cbn; lra]. intros x Hx. simpl in Hx. simpl. destruct Hx as [<-|[<-|[<-|[]]]]; lra. Qed.

(** C179: the grids of the spectra and of the bandpasses *)
Lemma sed_grid_length mn mx s : 0 < s -> mn <= mx -> (mx - mn) / s + 1 <= INR (length (sed_grid mn mx s)) < (mx - mn) / s + 2.
Proof.
  intros Hs Hm. unfold sed_grid. rewrite arange_length. replace ((mx + s - mn) / s) with ((mx - mn) / s + 1) by (field; lra).
  pose proof (rceil_spec ((mx - mn) / s + 1)) as R. assert (0 <= (mx - mn) / s) by (apply Rle_mult_inv_pos; lra).
  assert (0 <= rceil ((mx - mn) / s + 1))%Z by (apply le_IZR; lra). rewrite INR_IZR_INZ, Z2Nat.id by auto. lra.
Qed.
Lemma bandpass_grid_length mn mx s : 0 < s -> mn <= mx -> (mx - mn) / s + 1/2 <= INR (length (bandpass_grid mn mx s)) < (mx - mn) / s + 3/2.
Proof.
  intros Hs Hm. unfold bandpass_grid. rewrite arange_length. replace ((mx + s / 2 - mn) / s) with ((mx - mn) / s + 1/2) by (field; lra).
  pose proof (rceil_spec ((mx - mn) / s + 1/2)) as R. assert (0 <= (mx - mn) / s) by (apply Rle_mult_inv_pos; lra).
  assert (0 <= rceil ((mx - mn) / s + 1/2))%Z by (apply le_IZR; lra). rewrite INR_IZR_INZ, Z2Nat.id by auto. lra.
Qed.
(** both grids begin at the minimum and proceed by the step; that of a spectrum ends at or beyond the maximum (by less than a
    step), that of a bandpass within half a step of it *)
Theorem C179_grids : forall mn mx s, 0 < s -> mn <= mx ->
  (exists n, length (sed_grid mn mx s) = S n /\ (forall i, (i <= n)%nat -> nth i (sed_grid mn mx s) 0 = mn + INR i * s) /\
             mx <= mn + INR n * s < mx + s) /\
  (exists n, length (bandpass_grid mn mx s) = S n /\ (forall i, (i <= n)%nat -> nth i (bandpass_grid mn mx s) 0 = mn + INR i * s) /\
             mx - s / 2 <= mn + INR n * s < mx + s / 2).
Proof.
  intros mn mx s Hs Hm. assert (Q : 0 <= (mx - mn) / s) by (apply Rle_mult_inv_pos; lra). split.
  - pose proof (sed_grid_length mn mx s Hs Hm) as [L1 L2]. remember (length (sed_grid mn mx s)) as n eqn:En. destruct n as [|n]; [simpl in L1; lra|].
    exists n. split; [reflexivity|]. split; [intros i Hi; apply arange_nth; fold (sed_grid mn mx s); lia|].
    rewrite S_INR in L1, L2. assert (mx - mn = (mx - mn) / s * s) as Em by (field; lra). set (q := (mx - mn) / s) in *. split; nra.
  - pose proof (bandpass_grid_length mn mx s Hs Hm) as [L1 L2]. remember (length (bandpass_grid mn mx s)) as n eqn:En. destruct n as [|n]; [simpl in L1; lra|].
    exists n. split; [reflexivity|]. split; [intros i Hi; apply arange_nth; fold (bandpass_grid mn mx s); lia|].
    rewrite S_INR in L1, L2. assert (mx - mn = (mx - mn) / s * s) as Em by (field; lra). set (q := (mx - mn) / s) in *. split; nra.
Qed.
Print Assumptions C179_grids.
(** so the two are not always the same ... *)
Theorem C179_same_refuted : ~ (forall mn mx s, 0 < s -> mn <= mx -> length (sed_grid mn mx s) = length (bandpass_grid mn mx s)).
Proof.
  intros C. specialize (C 300 (300 + 1/4) 1 ltac:(lra) ltac:(lra)).
  unfold sed_grid, bandpass_grid in C. rewrite !arange_length in C.
  rewrite (rceil_unique _ 2) in C by (simpl; lra). rewrite (rceil_unique _ 1) in C by (simpl; lra). discriminate.
Qed.
Print Assumptions C179_same_refuted.
(** ... but they are when the range is a whole number of steps, and both then end at the maximum *)
Theorem C179_same_partial : forall mn s k, 0 < s -> sed_grid mn (mn + INR k * s) s = bandpass_grid mn (mn + INR k * s) s /\
  sed_grid mn (mn + INR k * s) s = map (fun i => mn + INR i * s) (seq 0 (S k)).
Proof.
  intros mn s k Hs. unfold sed_grid, bandpass_grid, arange.
  rewrite (rceil_unique ((mn + INR k * s + s - mn) / s) (Z.of_nat (S k))).
  2:{ rewrite <- INR_IZR_INZ, S_INR. replace ((mn + INR k * s + s - mn) / s) with (INR k + 1) by (field; lra). lra. }
  rewrite (rceil_unique ((mn + INR k * s + s / 2 - mn) / s) (Z.of_nat (S k))).
  2:{ rewrite <- INR_IZR_INZ, S_INR. replace ((mn + INR k * s + s / 2 - mn) / s) with (INR k + 1/2) by (field; lra). lra. }
  rewrite Nat2Z.id. split; reflexivity.
Qed.
Print Assumptions C179_same_partial.
(** a spectrum on such a grid is not regridded again *)
Theorem C179_again : forall mn s k, 0 < s -> (1 <= k)%nat -> need_grid mn (mn + INR k * s) s (sed_grid mn (mn + INR k * s) s) = false.
Proof.
  intros mn s k Hs Hk. rewrite (proj2 (C179_same_partial mn s k Hs)). set (g := map (fun i => mn + INR i * s) (seq 0 (S k))).
  assert (Lg : length g = S k) by (unfold g; rewrite map_length, seq_length; reflexivity).
  assert (Ng : forall i, (i <= k)%nat -> nth i g 0 = mn + INR i * s).
  { intros i Hi. unfold g. rewrite (nth_indep _ 0 (mn + INR 0 * s)) by (rewrite map_length, seq_length; lia).
    rewrite (map_nth (fun i => mn + INR i * s) (seq 0 (S k)) 0%nat). rewrite seq_nth by lia. reflexivity. }
  unfold need_grid. replace (hd 0 g) with (nth 0 g 0) by (destruct g; reflexivity). rewrite last_nth, Lg.
  rewrite !Ng by lia. replace (S k - 1)%nat with k by lia.
  rewrite (proj2 (reqb_true (mn + INR 0 * s) mn)) by (simpl; lra). rewrite (proj2 (reqb_true (mn + INR k * s) (mn + INR k * s)) eq_refl).
  assert (Ld : length (diffs g) = k) by (rewrite diffs_length, Lg; lia). rewrite Ld.
  rewrite (proj2 (Nat.eqb_neq k 0)) by lia. cbn [andb negb].
  apply Bool.negb_false_iff. apply forallb_forall. intros d Hd. destruct (In_nth _ _ 0 Hd) as (i & Hi & <-). rewrite Ld in Hi.
  apply reqb_true. rewrite diffs_nth by lia. rewrite !Ng by lia. rewrite S_INR. lra.
Qed.
Print Assumptions C179_again.
Example C179_case : sed_grid 300 (300 + INR 2 * 1) 1 = [300; 301; 302].
Proof. rewrite (proj2 (C179_same_partial 300 1 2 ltac:(lra))). cbn [seq map]. repeat f_equal; simpl; lra. Qed.
