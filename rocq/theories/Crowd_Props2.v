(** C311-C313: star counts, star densities and uncertainties, saturation and use of visits. *)
From Coq Require Import String Ascii Reals ZArith List Lra Lia Bool Permutation.
From Verif Require Import Base Depth_Model Depth_Proofs Template_Model Sky_Spec Sky_Proofs Crowd_Model Crowd_Spec Crowd_Proofs Crowd_Props.
Import ListNotations.
Open Scope R_scope.

(** * C311 *)
(** at the limit from the depth the error of a star, 1.09 over its signal to noise in all visits together, is 1.09 squared times
    the one asked for: the factor is on the wrong side *)
Theorem C311_depth_partial limit m5 c : 0 < limit -> m5 <> [] -> Sum (map (fun m => Rpower 10 (4/5 * m)) m5) = Rpower 10 (4/5 * c) ->
  109/100 / (5 * Rpower 10 (4/10 * (c - mag_limit limit m5))) = 109/100 * (109/100) * limit.
Proof.
  intros Pl N H. unfold mag_limit. change (rsum (map flux m5)) with (Sum (map (fun m => Rpower 10 (4/5 * m)) m5)). rewrite H.
  change (Rpower 10 (4/5 * c)) with (flux c). rewrite log10_flux.
  replace (4/10 * (c - (- (25/10) * log10 (1 / (limit * (109/100 * 5))) + c))) with (log10 (1 / (limit * (109/100 * 5)))) by lra.
  assert (E : Rpower 10 (log10 (1 / (limit * (109/100 * 5)))) = 1 / (limit * (109/100 * 5))).
  { unfold Rpower, log10. replace (ln (1 / (limit * (109/100 * 5))) / ln 10 * ln 10) with (ln (1 / (limit * (109/100 * 5)))) by (field; pose proof ln10_pos; lra).
    apply exp_ln. apply Rdiv_lt_0_compat; lra. }
  rewrite E. field. lra.
Qed.
Print Assumptions C311_depth_partial.
(** the error asked for, refuted *)
Theorem C311_depth_refuted : exists limit m5 c, 0 < limit /\ m5 <> [] /\ Sum (map (fun m => Rpower 10 (4/5 * m)) m5) = Rpower 10 (4/5 * c) /\
  limit < 109/100 / (5 * Rpower 10 (4/10 * (c - mag_limit limit m5))).
Proof.
  exists (1/10), [24], 24. assert (E : Sum (map (fun m => Rpower 10 (4/5 * m)) [24]) = Rpower 10 (4/5 * 24)) by (simpl; lra).
  split; [lra|]. split; [discriminate|]. split; [exact E|]. rewrite (C311_depth_partial (1/10) [24] 24); [lra | lra | discriminate | exact E].
Qed.
Print Assumptions C311_depth_refuted.
Lemma nstars_inv limit area ign bins lf vs n : nstars limit area ign bins lf vs = Ok n -> exists c v,
  crowd_mag limit bins lf (map fst vs) = Ok c /\
  np_interp (if ign then mag_limit limit (map snd vs) else Rmin c (mag_limit limit (map snd vs))) (tl bins) lf = Ok v /\ n = v * area.
Proof.
  unfold nstars. destruct (crowd_mag _ _ _ _) as [c|]; [|discriminate]. cbn [bind]. destruct (np_interp _ _ _) as [v|] eqn:E; [|discriminate].
  cbn [bind]. intro H. injection H as <-. eauto.
Qed.
(** the number is that of the luminosity function at the brighter of the two limits, times the area of the pixel *)
Theorem C311_count limit area bins lf vs n : Increasing (tl bins) -> (2 <= length (tl bins))%nat -> nstars limit area false bins lf vs = Ok n ->
  exists c v, crowd_mag limit bins lf (map fst vs) = Ok c /\ n = v * area /\
    (forall m, (m = c /\ c <= mag_limit limit (map snd vs)) \/ (m = mag_limit limit (map snd vs) /\ m <= c) ->
       Inside (tl bins) m -> Interp (tl bins) lf m v).
Proof.
  intros Inc N2 H. apply nstars_inv in H as (c & v & Hc & Hv & ->). exists c, v. split; [exact Hc|]. split; [reflexivity|].
  intros m Hm I. assert (E : Rmin c (mag_limit limit (map snd vs)) = m).
  { destruct Hm as [[-> L]|[-> L]]; [now apply Rmin_left | now apply Rmin_right]. }
  rewrite E in Hv. apply np_interp_val in Hv as (N & L & ->).
  assert (B : hd 0 (tl bins) <= m <= last (tl bins) 0).
  { destruct I as (a & b & Ia & Ib & B). pose proof (hd_le _ _ Inc Ia). pose proof (last_le _ _ Inc Ib). lra. }
  assert (Y : (if rleb m (hd 0 (tl bins)) then hd 0 lf else if rleb (last (tl bins) 0) m then last lf 0 else broken (tl bins) lf m) = broken (tl bins) lf m).
  { destruct (rleb m (hd 0 (tl bins))) eqn:E1.
    - apply rleb_true in E1. replace m with (hd 0 (tl bins)) by lra. now rewrite broken_hd.
    - destruct (rleb (last (tl bins) 0) m) eqn:E2; [|reflexivity]. apply rleb_true in E2. replace m with (last (tl bins) 0) by lra. now rewrite broken_last. }
  rewrite Y. now apply broken_interp.
Qed.
Print Assumptions C311_count.
Lemma limit_more limit m5 m : m5 <> [] -> mag_limit limit m5 <= mag_limit limit (m :: m5).
Proof.
  intro N. unfold mag_limit. apply Rplus_le_compat_l, Rmult_le_compat_l; [lra|]. simpl. apply log10_le; [now apply flux_sum_pos|]. pose proof (flux_pos m). lra.
Qed.
(** another visit never lowers the number of stars *)
Theorem C311_more_visits limit area ign bins lf vs s m n n' : Rising lf -> Increasing (tl bins) -> 0 < limit -> 0 <= area ->
  (forall v, In v ((s, m) :: vs) -> 0 < fst v) ->
  nstars limit area ign bins lf vs = Ok n -> nstars limit area ign bins lf ((s, m) :: vs) = Ok n' -> n <= n'.
Proof.
  intros Ri Inc Pl Pa Ps H H'. apply nstars_inv in H as (c & v & Hc & Hv & ->). apply nstars_inv in H' as (c' & v' & Hc' & Hv' & ->).
  apply Rmult_le_compat_r; [exact Pa|]. simpl map in *.
  assert (C : c <= c').
  { apply (C310_more_visits limit bins lf (map fst vs) s c c' Ri Inc); auto. intros x [<-|Hx]; [apply (Ps (s, m)); now left|].
    apply in_map_iff in Hx as (y & <- & Hy). apply Ps. now right. }
  assert (N : map snd vs <> []).
  { destruct vs as [|w vs]; [|discriminate]. discriminate Hc. }
  pose proof (limit_more limit _ m N) as M.
  refine (np_interp_mono _ _ _ _ _ _ Inc Ri _ Hv Hv'). destruct ign; [exact M|].
  apply Rmin_glb; [apply Rle_trans with c; [apply Rmin_l | exact C] | eapply Rle_trans; [apply Rmin_r | exact M]].
Qed.
Print Assumptions C311_more_visits.
(** without crowding there are at least as many; never fewer than none or more than the map has *)
Theorem C311_range limit area ign bins lf vs n : Rising lf -> Increasing (tl bins) -> 0 <= area ->
  nstars limit area ign bins lf vs = Ok n ->
  (exists n', nstars limit area true bins lf vs = Ok n' /\ n <= n') /\ (forall top, Greatest lf top -> n <= top * area) /\
  ((forall x, In x lf -> 0 <= x) -> 0 <= n).
Proof.
  intros Ri Inc Pa H. pose proof H as H0. apply nstars_inv in H as (c & v & Hc & Hv & ->).
  pose proof (np_interp_range _ _ _ _ Inc Ri Hv) as [B1 B2]. destruct (np_interp_val _ _ _ _ Hv) as (N & L & _).
  assert (Nl : lf <> []) by (intros ->; destruct (tl bins); [now elim N | discriminate]).
  split; [|split].
  - unfold nstars. rewrite Hc. cbn [bind]. destruct (np_interp_ok (mag_limit limit (map snd vs)) (tl bins) lf N L) as [w Hw]. rewrite Hw. cbn [bind].
    eexists. split; [reflexivity|]. apply Rmult_le_compat_r; [exact Pa|]. refine (np_interp_mono _ _ _ _ _ _ Inc Ri _ Hv Hw).
    destruct ign; [lra | apply Rmin_r].
  - intros top [_ G]. apply Rmult_le_compat_r; [exact Pa|]. apply Rle_trans with (last lf 0); [exact B2|]. apply G. now apply last_in.
  - intro P. apply Rmult_le_pos; [|exact Pa]. apply Rle_trans with (hd 0 lf); [|exact B1]. destruct lf; [now elim Nl|]. apply P. now left.
Qed.
Print Assumptions C311_range.
Example C311_case : exists n, nstars (1/10) 2 true [19; 20; 21; 22] [0; 1; 5] [(2, 24); (1, 25)] = Ok n.
Proof.
  unfold nstars, crowd_mag. simpl. destruct (rleb _ _); [eexists; reflexivity|]. destruct (rleb _ _); eexists; reflexivity.
Qed.

(** * C312 *)
(** the uncertainty of a star is interpolated between those of the neighbouring magnitudes, in the best seeing; beyond the map
    ValueError *)
Theorem C312_uncertainty rmag bins lf seeing best counts : Rising lf -> Steps lf counts -> Increasing (tl bins) -> (3 <= length (tl bins))%nat ->
  length lf = length (tl bins) -> Least seeing best ->
  (Inside (tl (tl bins)) rmag -> exists errs e, crowd_uncert rmag bins lf seeing = Ok e /\ Interp (tl (tl bins)) errs rmag e /\
      length errs = length (tl (tl bins)) /\ forall i x, nth_error errs i = Some x -> Crowding best (tl (tl bins)) counts i x) /\
  (~ Inside (tl (tl bins)) rmag -> crowd_uncert rmag bins lf seeing = Err ValueError).
Proof.
  intros Ri St Inc N L Hb. unfold crowd_uncert. rewrite (proj2 (pmin_spec _ _) Hb). cbn [bind]. unfold comp_crowd_single.
  rewrite L, Nat.eqb_refl. set (mags := tl bins) in *. rewrite (steps_unique _ _ _ St (diff_steps lf)) in *.
  assert (Ld : length (diff lf) = length (tl mags)) by (destruct (diff_steps lf) as [-> _]; rewrite tl_length; congruence).
  assert (Lt : (2 <= length (tl mags))%nat) by (rewrite tl_length; lia).
  assert (Inc2 : Increasing (tl mags)) by (destruct mags; [exact Inc | exact (increasing_cons _ _ Inc)]).
  destruct (interp1d_spec (tl mags) (crowd_temp (tl mags) (diff lf)) rmag Inc2 ltac:(rewrite crowd_temp_length; [reflexivity | exact Ld]) Lt) as [A B].
  split.
  - intro I. destruct (A I) as (v & -> & V). cbn [bind]. exists (map (fun t => coeff best * t) (crowd_temp (tl mags) (diff lf))), (coeff best * v).
    split; [reflexivity|]. split; [|split; [rewrite map_length; now apply crowd_temp_length|]].
    + destruct V as (i & x0 & x1 & y0 & y1 & E0 & F0 & V). exists i, x0, x1, (coeff best * y0), (coeff best * y1).
      split; [exact E0|]. split; [now apply (map_nth_error (fun t => coeff best * t))|].
      destruct V as [[-> ->]|(E1 & F1 & B1 & ->)]; [now left|]. right. split; [exact E1|]. split; [now apply (map_nth_error (fun t => coeff best * t))|].
      split; [exact B1|]. lra.
    + assert (Hc : comp_crowd mags lf best = Ok (map (fun t => coeff best * t) (crowd_temp (tl mags) (diff lf)))).
      { unfold comp_crowd. now rewrite L, Nat.eqb_refl. }
      destruct (comp_crowd_spec _ _ _ _ Ri Hc) as (_ & _ & F). exact F.
  - intro I. now rewrite (B I).
Qed.
Print Assumptions C312_uncertainty.
(** the density is the luminosity function at the limit, per square arcsecond; outside the map badval *)
Theorem C312_density limit badval bins lf : Increasing (tl bins) -> (2 <= length (tl bins))%nat -> length lf = length (tl bins) ->
  (Inside (tl bins) limit -> exists n, Interp (tl bins) lf limit n /\ star_density limit badval bins lf = n / 12960000) /\
  (~ Inside (tl bins) limit -> star_density limit badval bins lf = badval).
Proof.
  intros Inc N L. unfold star_density. destruct (interp1d_spec (tl bins) lf limit Inc L N) as [A B]. split.
  - intro I. destruct (A I) as (v & -> & V). exists v. split; [exact V|]. f_equal. lra.
  - intro I. now rewrite (B I).
Qed.
Print Assumptions C312_density.
(** a fainter limit within the map never gives fewer stars *)
Theorem C312_deeper limit limit' badval bins lf : Increasing (tl bins) -> (2 <= length (tl bins))%nat -> length lf = length (tl bins) -> Rising lf ->
  Inside (tl bins) limit -> Inside (tl bins) limit' -> limit <= limit' -> star_density limit badval bins lf <= star_density limit' badval bins lf.
Proof.
  intros Inc N L Ri I I' Le. unfold star_density.
  destruct (proj1 (interp1d_spec (tl bins) lf limit Inc L N) I) as (v & E & _). destruct (proj1 (interp1d_spec (tl bins) lf limit' Inc L N) I') as (v' & E' & _).
  rewrite E, E'. assert (X : forall x w, interp1d (tl bins) lf x = Ok w -> w = broken (tl bins) lf x).
  { unfold interp1d. intros x w. destruct (tl bins) as [|a [|b t]]; try discriminate. destruct (negb _); [discriminate|].
    destruct (rltb x a); [discriminate|]. destruct (rltb _ x); [discriminate|]. intro H. now injection H as <-. }
  apply X in E, E'. subst. apply Rmult_le_compat_r; [apply Rlt_le, Rinv_0_lt_compat; lra|]. now apply broken_mono.
Qed.
Print Assumptions C312_deeper.
(** the limit asked for is used; the old name of the argument, announced as still working, raises *)
Theorem C312_arguments limit r : star_density_new limit [] = Ok limit /\ star_density_new limit [("rmagLimit"%string, r)] = Err TypeError.
Proof. split; reflexivity. Qed.
Print Assumptions C312_arguments.
Example C312_case : Inside (tl [19; 20; 21; 22]) 21 /\ star_density 21 (-666) [19; 20; 21; 22] [0; 1; 5] = 1 / 12960000.
Proof.
  split; [exists 20, 22; simpl; split; [auto|]; split; [auto | lra]|]. unfold star_density, interp1d. simpl.
  unfold rltb, rleb. repeat match goal with |- context [Rlt_dec ?a ?b] => destruct (Rlt_dec a b) | |- context [Rle_dec ?a ?b] => destruct (Rle_dec a b) end;
    unfold line; try lra.
Qed.

(** * C313 *)
Lemma filter_short {A} (p : A -> bool) l : (length (filter p l) <= length l)%nat.
Proof. induction l as [|a l IH]; simpl; [lia|]. destruct (p a); simpl; lia. Qed.
(** SkySaturation counts the visits without a finite saturation magnitude *)
Theorem C313_saturated mags : sky_sat mags = length (filter (fun m => match m with None => true | Some _ => false end) mags).
Proof.
  unfold sky_sat. induction mags as [|[x|] t IH]; cbn [length filter]; auto.
  rewrite <- IH. pose proof (filter_short (fun m : option R => match m with Some _ => true | None => false end) t). lia.
Qed.
Print Assumptions C313_saturated.
Lemma prefix_begins p : forall s, String.prefix p s = true <-> Begins p s.
Proof.
  induction p as [|c p IH]; intro s.
  - split; [intros _; now exists s | now destruct s].
  - destruct s as [|d s]; [split; [discriminate | intros [t H]; discriminate]|]. simpl. destruct (ascii_dec c d) as [->|N].
    + rewrite IH. split; intros [t H]; exists t; [now rewrite H | now injection H].
    + split; [discriminate|]. intros [t H]. injection H as H _. congruence.
Qed.
Lemma begins_both p q s : Begins p s -> Begins q s -> Begins p q \/ Begins q p.
Proof.
  revert q s. induction p as [|c p IH]; intros q s; [left; now exists q|]. destruct q as [|d q]; [right; eexists; reflexivity|].
  intros [t ->] [t' H]. simpl in H. injection H as -> H. destruct (IH q (p ++ t)%string) as [[x X]|[x X]]; [now exists t | now exists t' | left | right]; exists x; simpl; now rewrite X.
Qed.
Lemma starts_apart p q : In p start_matches -> In q start_matches -> Begins p q -> p = q.
Proof.
  intros Hp Hq H. apply prefix_begins in H.
  assert (X : forallb (fun p => forallb (fun q => negb (String.prefix p q) || String.eqb p q) start_matches) start_matches = true) by reflexivity.
  rewrite forallb_forall in X. specialize (X p Hp). rewrite forallb_forall in X. specialize (X q Hq). rewrite H in X. now apply String.eqb_eq.
Qed.
(** one visit: its class is the one whose name its reason begins with, in whatever order the classes are tried *)
Theorem C313_use programs reason program : programs = [] \/ In program programs ->
  (forall c, In c start_matches -> Begins c reason -> use_run programs (Record1 reason program) = Ok c) /\
  ((forall c, In c start_matches -> ~ Begins c reason) -> use_run programs (Record1 reason program) = Ok "other"%string).
Proof.
  intro P. assert (G : negb (Nat.eqb (length programs) 0) && negb (existsb (String.eqb program) programs) = false).
  { destruct P as [->|P]; [reflexivity|]. assert (existsb (String.eqb program) programs = true) as -> by (apply existsb_exists; exists program; split; [exact P | apply String.eqb_refl]).
    apply andb_false_r. }
  unfold use_run. rewrite G. split.
  - intros c Hc Bc. destruct (find _ _) as [d|] eqn:E.
    + apply find_some in E as [Hd Bd]. apply prefix_begins in Bd. f_equal.
      destruct (begins_both _ _ _ Bc Bd) as [X|X]; [symmetry|]; now apply starts_apart.
    + exfalso. pose proof (find_none _ _ E c Hc) as X. simpl in X. apply prefix_begins in Bc. congruence.
  - intro N. destruct (find _ _) as [d|] eqn:E; [|reflexivity]. apply find_some in E as [Hd Bd]. apply prefix_begins in Bd. now elim (N d).
Qed.
Print Assumptions C313_use.
(** a visit of another programme *)
Theorem C313_not_science programs reason program : programs <> [] -> ~ In program programs ->
  use_run programs (Record1 reason program) = Ok "not science"%string.
Proof.
  intros N I. unfold use_run. destruct programs as [|p t]; [now elim N|]. simpl length.
  assert (existsb (String.eqb program) (p :: t) = false) as ->; [|reflexivity].
  apply not_true_is_false. intro H. apply existsb_exists in H as (x & Hx & E). apply String.eqb_eq in E. now subst.
Qed.
Print Assumptions C313_not_science.
(** the class of the visits of a data slice, refuted: slicers pass arrays, of which the reason is a column, and that raises,
    also for a single visit *)
Theorem C313_slice_refuted rows : use_run [] (Rows1 rows) = Err AttributeError /\
  forall programs, use_run programs (Rows1 rows) <> Ok "pairs"%string.
Proof.
  split; [reflexivity|]. intro programs. simpl. destruct (Nat.eqb _ 0); [discriminate|]. destruct rows as [|r [|]]; try discriminate.
  destruct (existsb _ _); discriminate.
Qed.
Print Assumptions C313_slice_refuted.
Example C313_case : use_run ["survey"]%string (Record1 "pairs_15" "survey") = Ok "pairs"%string /\ sky_sat [Some 1; None; None] = 2%nat.
Proof. split; reflexivity. Qed.
