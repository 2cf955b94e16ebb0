(** Lemmas about photometry. *)
From Verif Require Import Base Astrom_Model Astrom_Proofs Astrom_Proofs2 MoMag_Model MoMag_Proofs Resample_Model Resample_Spec Resample_Proofs Resample_Proofs2 Resample_Proofs3 Resample_Props Phot_Model Phot_Spec.
From Coq Require Import Reals List Lia Lra.
Open Scope R_scope.

(** a list as the values of a function of its index *)
Definition tab (f : nat -> R) (n : nat) : list R := map f (seq 0 n).
Lemma tab_length f n : length (tab f n) = n. Proof. unfold tab. rewrite map_length, seq_length. reflexivity. Qed.
Lemma tab_nth f n i : (i < n)%nat -> nth i (tab f n) 0 = f i.
Proof.
  intros H. unfold tab. rewrite (nth_indep _ 0 (f 0%nat)) by (rewrite map_length, seq_length; exact H).
  rewrite map_nth, seq_nth by exact H. reflexivity.
Qed.
Lemma tab_self l : l = tab (fun i => nth i l 0) (length l).
Proof. apply (nth_ext _ _ 0 0); [rewrite tab_length; reflexivity|]. intros i Hi. rewrite tab_nth by exact Hi. reflexivity. Qed.
Lemma tab_ext f g n : (forall i, (i < n)%nat -> f i = g i) -> tab f n = tab g n.
Proof. intros H. apply map_ext_in. intros i Hi. apply in_seq in Hi. apply H. lia. Qed.
Lemma zip_tab h f g n : zip_with h (tab f n) (tab g n) = tab (fun i => h (f i) (g i)) n.
Proof. unfold zip_with, tab. rewrite combine_map, map_map. reflexivity. Qed.
Lemma zip_nth h a b i : length a = length b -> (i < length a)%nat -> nth i (zip_with h a b) 0 = h (nth i a 0) (nth i b 0).
Proof.
  intros L H. rewrite (tab_self a), (tab_self b) at 1. rewrite <- L. rewrite zip_tab. apply tab_nth. exact H.
Qed.
Lemma zip_length h a b : length a = length b -> length (zip_with h a b) = length a.
Proof. intros L. unfold zip_with. rewrite map_length, combine_length. lia. Qed.
Lemma zip_as_tab h a b n : length a = n -> length b = n -> zip_with h a b = tab (fun i => h (nth i a 0) (nth i b 0)) n.
Proof. intros La Lb. rewrite (tab_self a), (tab_self b) at 1. rewrite La, Lb. apply zip_tab. Qed.

Lemma diffs_tab x : diffs x = tab (fun i => nth (S i) x 0 - nth i x 0) (length x - 1).
Proof.
  apply (nth_ext _ _ 0 0); [rewrite diffs_length, tab_length; reflexivity|]. intros i Hi. rewrite diffs_length in Hi.
  rewrite diffs_nth by lia. rewrite tab_nth by exact Hi. reflexivity.
Qed.
Lemma mids_tab x : mids x = tab (fun i => (nth i x 0 + nth (S i) x 0) / 2) (length x - 1).
Proof.
  apply (nth_ext _ _ 0 0); [rewrite mids_length, tab_length; reflexivity|]. intros i Hi. rewrite mids_length in Hi.
  rewrite mids_nth by lia. rewrite tab_nth by exact Hi. reflexivity.
Qed.
Lemma trapz_integral y x : length y = length x -> trapz y x = integral x (fun i => nth i y 0).
Proof. intros L. unfold trapz, integral. rewrite diffs_tab, mids_tab, L, zip_tab. reflexivity. Qed.
Lemma trapz_tab f x : trapz (tab f (length x)) x = integral x f.
Proof.
  rewrite trapz_integral by apply tab_length. unfold integral. apply (rsum_ext _ _). intros i Hi. apply in_seq in Hi.
  rewrite !tab_nth by lia. reflexivity.
Qed.
Lemma integral_ext x f g : (forall i, (i < length x)%nat -> f i = g i) -> integral x f = integral x g.
Proof. intros H. unfold integral. apply (rsum_ext _ _). intros i Hi. apply in_seq in Hi. rewrite !H by lia. reflexivity. Qed.
Lemma integral_scale x f k : integral x (fun i => k * f i) = k * integral x f.
Proof.
  unfold integral. change addup with rsum. rewrite <- rsum_scale. apply rsum_ext. intros i _. lra.
Qed.
Lemma integral_plus x f g : integral x (fun i => f i + g i) = integral x f + integral x g.
Proof. unfold integral. change addup with rsum. rewrite <- rsum_plus. apply rsum_ext. intros i _. lra. Qed.
Lemma integral_le x f g : ascending x -> (forall i, (i < length x)%nat -> f i <= g i) -> integral x f <= integral x g.
Proof.
  intros Hx H. unfold integral. apply rsum_le. intros i Hi. apply in_seq in Hi.
  pose proof (Hx i (S i) ltac:(lia)). pose proof (H i ltac:(lia)). pose proof (H (S i) ltac:(lia)). nra.
Qed.
Lemma integral_zero x : integral x (fun _ => 0) = 0.
Proof. unfold integral. apply rsum_all0. intros i _. lra. Qed.
Lemma rsum_ge_one {A} (f : A -> R) l y : (forall x, In x l -> 0 <= f x) -> In y l -> f y <= rsum (map f l).
Proof.
  induction l as [|x l IH]; intros H Hy; [destruct Hy|]. unfold rsum. cbn [map fold_right]. fold (rsum (map f l)).
  pose proof (rsum_nonneg f l ltac:(intros; apply H; right; auto)). destruct Hy as [->|Hy]; [lra|].
  specialize (IH ltac:(intros; apply H; right; auto) Hy). pose proof (H x (or_introl eq_refl)). lra.
Qed.
Lemma integral_pos x f k : ascending x -> (2 <= length x)%nat -> (forall i, (i < length x)%nat -> 0 <= f i) -> (k < length x)%nat -> 0 < f k -> 0 < integral x f.
Proof.
  intros Hx L H Hk Fk.
  assert (N : forall i, In i (seq 0 (length x - 1)) -> 0 <= (nth (S i) x 0 - nth i x 0) * ((f i + f (S i)) / 2)).
  { intros i Hi. apply in_seq in Hi. pose proof (Hx i (S i) ltac:(lia)). pose proof (H i ltac:(lia)). pose proof (H (S i) ltac:(lia)). nra. }
  unfold integral. set (i := if Nat.eqb (S k) (length x) then (k - 1)%nat else k).
  assert (Hi : (S i < length x)%nat /\ (k = i \/ k = S i)). { unfold i. destruct (Nat.eqb_spec (S k) (length x)); lia. }
  eapply Rlt_le_trans; [|apply (rsum_ge_one _ _ i N); apply in_seq; lia].
  destruct Hi as [Hi Hki]. pose proof (Hx i (S i) ltac:(lia)). pose proof (H i ltac:(lia)). pose proof (H (S i) ltac:(lia)).
  assert (0 < f i + f (S i)) by (destruct Hki as [<-|<-]; lra). nra.
Qed.

(** the response of a bandpass *)
Definition current (b : bandpass) : Prop := b_phi b = None \/ b_phi b = b_phi (sb_tophi b).
Definition resp (b : bandpass) (i : nat) : R := nth i (b_sb b) 0 / nth i (b_w b) 0.
Lemma raw_phi_tab b : length (b_sb b) = length (b_w b) -> raw_phi b = tab (resp b) (length (b_w b)).
Proof. intros L. unfold raw_phi. apply zip_as_tab; auto. Qed.
Lemma phi_norm_integral b : length (b_sb b) = length (b_w b) -> phi_norm b = integral (b_w b) (resp b).
Proof. intros L. unfold phi_norm. rewrite raw_phi_tab by exact L. apply trapz_tab. Qed.
Lemma throughput_resp b : throughput (b_w b) (b_sb b) ->
  (forall i, (i < length (b_w b))%nat -> 0 < nth i (b_w b) 0) /\ (forall i, (i < length (b_w b))%nat -> 0 <= resp b i) /\ 0 < phi_norm b.
Proof.
  intros (A & L2 & Ls & P0 & Hs & (x & Hx & Px)).
  assert (W : forall i, (i < length (b_w b))%nat -> 0 < nth i (b_w b) 0).
  { intros i Hi. pose proof (ascending_le (b_w b) 0 i A ltac:(lia)). lra. }
  assert (Q : forall i, (i < length (b_w b))%nat -> 0 <= resp b i).
  { intros i Hi. unfold resp. apply Rle_mult_inv_pos; [apply Hs, nth_In; lia|apply W; exact Hi]. }
  split; [exact W|]. split; [exact Q|]. rewrite phi_norm_integral by exact Ls.
  destruct (In_nth _ _ 0 Hx) as (k & Hk & Ek). apply (integral_pos _ _ k); auto; [lia|].
  unfold resp. rewrite Ek. apply Rdiv_lt_0_compat; [exact Px|apply W; lia].
Qed.
Lemma phi_current b : current b -> b_phi (with_phi b) = b_phi (sb_tophi b).
Proof. intros [E|E]; unfold with_phi; [rewrite E; reflexivity|]. rewrite E. cbn. exact E. Qed.

(** resampling to the wavelengths of a bandpass *)
Lemma numbers_some l : numbers (map Some l) = Some l.
Proof. induction l as [|x l IH]; [reflexivity|]. cbn [map numbers]. rewrite IH. reflexivity. Qed.
Lemma covered_all g w : ascending g -> (2 <= length g)%nat -> covered w (bin_lo g 0) (bin_hi g (length g - 1)) ->
  forall j, (j < length g)%nat -> covered w (bin_lo g j) (bin_hi g j).
Proof.
  intros Ag Lg [Cv1 Cv2] j Hj. split; [eapply Rle_trans; [exact Cv1|apply bin_lo_le; auto; lia]|].
  eapply Rle_trans; [apply (bin_hi_le g j (length g - 1)); auto; lia|exact Cv2].
Qed.
Lemma spectres_tab g w f fill : ascending g -> (2 <= length g)%nat -> spectrum w f -> covered w (bin_lo g 0) (bin_hi g (length g - 1)) ->
  spectres g w f fill = Ok (map Some (tab (mean_at g w f) (length g))).
Proof.
  intros Ag Lg (Aw & Lw & Lf) Cv. destruct (C174_mean g w f fill Ag Aw Lg Lw Lf) as (vs & -> & B & C). f_equal.
  apply (same_values _ _ g); [exact B|rewrite map_length, tab_length; reflexivity|].
  intros j Hj. rewrite (proj1 (C j Hj)) by (apply covered_all; auto). 
  rewrite (nth_indep _ None (Some 0)) by (rewrite map_length, tab_length; exact Hj). rewrite (map_nth Some), tab_nth by exact Hj. reflexivity.
Qed.
Lemma mean_own g f j : ascending g -> (2 <= length g)%nat -> length f = length g -> (j < length g)%nat -> mean_at g g f j = nth j f 0.
Proof. intros Ag Lg Lf Hj. unfold mean_at. rewrite light_own by auto. pose proof (bin_pos g j Ag Lg Hj). field. lra. Qed.
Lemma need_same g w : need_match g w = false -> length g = length w /\ forall i, (i < length g)%nat -> Rabs (nth i g 0 - nth i w 0) <= 1 / 10000000000.
Proof.
  unfold need_match. destruct (Nat.eqb_spec (length g) (length w)) as [E|E]; [|discriminate]. intros H. split; [exact E|].
  intros i Hi. destruct (Rle_dec (Rabs (nth i g 0 - nth i w 0)) (1 / 10000000000)) as [K|K]; [exact K|]. exfalso.
  assert (T : existsb (fun p => rltb (1 / 10000000000) (Rabs (fst p - snd p))) (combine g w) = true); [|congruence].
  apply existsb_exists. exists (nth i (combine g w) (0, 0)). split; [apply nth_In; rewrite combine_length; lia|].
  rewrite combine_nth by exact E. cbn [fst snd]. apply rltb_true. lra.
Qed.
Lemma resample_serves g w f fill : ascending g -> (2 <= length g)%nat -> spectrum w f -> serves g w ->
  resample_match g w f false fill = Ok (g, map Some (tab (mean_at g w f) (length g))).
Proof.
  intros Ag Lg S [Cv Hs]. pose proof S as (Aw & Lw & Lf). unfold resample_match.
  rewrite (proj2 (Nat.eqb_eq (length w) (length f))) by auto. cbn [orb].
  destruct (need_match g w) eqn:N.
  - rewrite spectres_tab by auto. reflexivity.
  - destruct (need_same g w N) as [L K]. destruct Hs as [->|[H|(i & Hi & H)]].
    + unfold some_all. repeat f_equal. rewrite (tab_self f) at 1. rewrite Lf. apply tab_ext. intros j Hj. symmetry. apply mean_own; auto.
    + congruence.
    + specialize (K i Hi). lra.
Qed.

(** the flux in a bandpass *)
Definition band_ok (b : bandpass) : Prop := throughput (b_w b) (b_sb b) /\ current b.
Lemma calc_flux_value b w f fill : band_ok b -> spectrum w f -> serves (b_w b) w ->
  calc_flux b w f fill = Ok (Some (band_mean (b_w b) (b_sb b) (mean_at (b_w b) w f))).
Proof.
  intros [T C] S V. pose proof T as (Ag & Lg & Ls & _). destruct (throughput_resp b T) as (_ & _ & Pn).
  unfold calc_flux. rewrite resample_serves by auto. cbn [bind fst snd]. rewrite numbers_some, phi_current by exact C. cbn [b_phi sb_tophi].
  destruct (Req_EM_T (phi_norm b) 0) as [E|E]; [lra|]. do 2 f_equal.
  rewrite raw_phi_tab by exact Ls.
  replace (map (fun x => x / phi_norm b) (tab (resp b) (length (b_w b)))) with (tab (fun i => resp b i / phi_norm b) (length (b_w b)))
    by (unfold tab; rewrite map_map; reflexivity).
  rewrite zip_tab, trapz_tab. unfold band_mean.
  change (integral (b_w b) (fun i => nth i (b_sb b) 0 / nth i (b_w b) 0)) with (integral (b_w b) (resp b)). rewrite <- phi_norm_integral by exact Ls.
  unfold Rdiv at 2. rewrite Rmult_comm. rewrite <- integral_scale. apply integral_ext. intros i Hi.
  change (nth i (b_sb b) 0 / nth i (b_w b) 0) with (resp b i). field. exact E.
Qed.

(** the mean over the band of one value, of a multiple, of a sum; its bounds *)
Section Band.
  Variables g sb : list R.
  Hypothesis T : throughput g sb.
  Let r i := nth i sb 0 / nth i g 0.
  Lemma band_norm : 0 < integral g r /\ (forall i, (i < length g)%nat -> 0 <= r i).
  Proof.
    destruct (throughput_resp {| b_w := g; b_sb := sb; b_phi := None |} T) as (_ & Q & N). pose proof T as (_ & _ & Ls & _).
    rewrite phi_norm_integral in N by exact Ls. split; [exact N|exact Q].
  Qed.
  Lemma band_mean_ext f h : (forall i, (i < length g)%nat -> f i = h i) -> band_mean g sb f = band_mean g sb h.
  Proof. intros H. unfold band_mean. f_equal. apply integral_ext. intros i Hi. rewrite H by exact Hi. reflexivity. Qed.
  Lemma band_mean_scale k f : band_mean g sb (fun i => k * f i) = k * band_mean g sb f.
  Proof.
    unfold band_mean. rewrite (integral_ext g _ (fun i => k * (f i * (nth i sb 0 / nth i g 0)))) by (intros; ring).
    rewrite integral_scale. unfold Rdiv. ring.
  Qed.
  Lemma band_mean_plus f h : band_mean g sb (fun i => f i + h i) = band_mean g sb f + band_mean g sb h.
  Proof.
    unfold band_mean. rewrite (integral_ext g _ (fun i => f i * (nth i sb 0 / nth i g 0) + h i * (nth i sb 0 / nth i g 0))) by (intros; ring).
    rewrite integral_plus. unfold Rdiv. ring.
  Qed.
  Lemma band_mean_const k : band_mean g sb (fun _ => k) = k.
  Proof. destruct band_norm as [N _]. unfold band_mean. change (fun i => nth i sb 0 / nth i g 0) with r. change (fun i => k * (nth i sb 0 / nth i g 0)) with (fun i => k * r i). rewrite integral_scale. field. lra. Qed.
  Lemma band_mean_le f h : (forall i, (i < length g)%nat -> f i <= h i) -> band_mean g sb f <= band_mean g sb h.
  Proof.
    intros H. destruct band_norm as [N Q]. unfold band_mean. fold r. apply Rmult_le_compat_r; [left; apply Rinv_0_lt_compat, N|].
    apply integral_le; [apply T|]. intros i Hi. fold (r i). apply Rmult_le_compat_r; auto.
  Qed.
End Band.
Lemma mean_at_scale g w f k j : mean_at g w (map (fun x => k * x) f) j = k * mean_at g w f j.
Proof. unfold mean_at. rewrite light_scale. unfold Rdiv. ring. Qed.
Lemma mean_at_bounds g w f lo hi j : ascending g -> (2 <= length g)%nat -> spectrum w f -> covered w (bin_lo g 0) (bin_hi g (length g - 1)) ->
  (forall y, In y f -> lo <= y <= hi) -> (j < length g)%nat -> lo <= mean_at g w f j <= hi.
Proof.
  intros Ag Lg (Aw & Lw & Lf) Cv Hf Hj. pose proof (covered_all g w Ag Lg Cv j Hj) as C. pose proof (bin_pos g j Ag Lg Hj) as P.
  destruct (light_bounds w f (bin_lo g j) (bin_hi g j) lo hi Aw Lw C ltac:(lra)) as [P1 P2].
  { intros i Hi. apply Hf, nth_In. lia. }
  unfold mean_at. split; [apply Rmult_le_reg_r with (bin_hi g j - bin_lo g j)|apply Rmult_le_reg_r with (bin_hi g j - bin_lo g j)]; try lra; unfold Rdiv; rewrite Rmult_assoc, Rinv_l by lra; lra.
Qed.
Lemma mean_at_const g w c j : ascending g -> (2 <= length g)%nat -> ascending w -> (2 <= length w)%nat -> covered w (bin_lo g 0) (bin_hi g (length g - 1)) ->
  (j < length g)%nat -> mean_at g w (map (fun _ => c) w) j = c.
Proof.
  intros Ag Lg Aw Lw Cv Hj. assert (S : spectrum w (map (fun _ => c) w)) by (repeat split; auto; apply map_length).
  destruct (mean_at_bounds g w _ c c j Ag Lg S Cv) as [A B]; auto; [|lra]. intros y Hy. apply in_map_iff in Hy. destruct Hy as (_ & <- & _). lra.
Qed.
Lemma mean_at_plus g w f h j : length f = length w -> length h = length w ->
  mean_at g w (map (fun p => fst p + snd p) (combine f h)) j = mean_at g w f j + mean_at g w h j.
Proof. intros Lf Lh. unfold mean_at. rewrite light_plus by auto. unfold Rdiv. ring. Qed.
