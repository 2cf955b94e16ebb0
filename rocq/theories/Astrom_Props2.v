(** Properties of parallax metrics and of distances in the focal plane. *)
From Verif Require Import Base Astrom_Model Astrom_Spec Astrom_Proofs Astrom_Proofs2 Astrom_Props.
From Coq Require Import Reals Ratan Lra Lia Permutation Psatz.
Open Scope R_scope.

(** * C158 the uncertainty of a parallax *)
(** the information of the visits adds up: (1000 / sigma)^2 is the sum of the squared factors over the squared errors *)
Lemma parallax_ok mags atm n vs r : parallax_run mags atm n vs = Ok r -> vs <> [] /\ exists errs, map_ok (pos_error mags atm) vs = Ok errs /\
  r = (if n then match final_sigma errs (map (fun v => av_ra_pi v * 0 + 1) vs) (map (fun v => av_dec_pi v * 0) vs), final_sigma errs (map av_ra_pi vs) (map av_dec_pi vs) with
            | Some b, Some s => Some (b / s) | Some _, None => Some 0 | None, _ => None end else final_sigma errs (map av_ra_pi vs) (map av_dec_pi vs)).
Proof.
  intros E. unfold parallax_run in E. destruct vs as [|v vs]; [discriminate|]. split; [discriminate|]. destruct (map_ok (pos_error mags atm) (v :: vs)) as [errs|]; [|discriminate]. exists errs. split; [reflexivity|]. cbn [bind] in E. destruct n; injection E as <-; reflexivity.
Qed.
Lemma parallax_value mags atm vs r : (forall v, In v vs -> has_error atm v) -> parallax_run mags atm false vs = Ok r ->
  (r = None /\ rsum (map (pinfo mags atm) vs) = 0) \/ (0 < rsum (map (pinfo mags atm) vs) /\ r = Some (sqrt (1 / rsum (map (pinfo mags atm) vs)) * 1000)).
Proof.
  intros H E. apply parallax_ok in E. destruct E as (_ & errs & M & ->).
  assert (forall v, In v vs -> 0 < perr mags atm v) as P by (intros v Hv; apply (perr_pos mags atm vs errs v M Hv (H v Hv))). rewrite (errs_eq _ _ _ _ M). unfold final_sigma. rewrite (final_info mags atm vs P).
  assert (0 <= rsum (map (pinfo mags atm) vs)) by (apply rsum_nonneg; intros v Hv; apply pinfo_nonneg, P, Hv). destruct (Rle_dec _ 0); [left; split; [reflexivity|lra]|right; split; [lra|reflexivity]].
Qed.
Theorem C158_information : forall mags atm vs s, (forall v, In v vs -> has_error atm v) -> parallax_run mags atm false vs = Ok (Some s) ->
  0 < s /\ (1000 / s) * (1000 / s) = total (map (fun v => (av_ra_pi v * av_ra_pi v + av_dec_pi v * av_dec_pi v) / (perr mags atm v * perr mags atm v)) vs).
Proof.
  intros mags atm vs s H E. destruct (parallax_value _ _ _ _ H E) as [[? _]|[P Es]]; [discriminate|]. injection Es as ->. change (total (map _ vs)) with (rsum (map (pinfo mags atm) vs)). set (I := rsum _) in *. assert (0 < 1 / I) as Q by (apply Rdiv_lt_0_compat; lra). pose proof (sqrt_lt_R0 _ Q) as S. split; [lra|].
  replace (1000 / (sqrt (1 / I) * 1000) * (1000 / (sqrt (1 / I) * 1000))) with (1 / (sqrt (1 / I) * sqrt (1 / I))) by (field; lra). rewrite sqrt_sqrt by lra. field. lra.
Qed.
Print Assumptions C158_information.
(** nothing can be said (infinity) exactly when all factors are zero *)
Theorem C158_infinite : forall mags atm vs r, (forall v, In v vs -> has_error atm v) -> parallax_run mags atm false vs = Ok r -> (r = None <-> forall v, In v vs -> av_ra_pi v = 0 /\ av_dec_pi v = 0).
Proof.
  intros mags atm vs r H E. assert (forall v, In v vs -> 0 < perr mags atm v) as P.
  { apply parallax_ok in E. destruct E as (_ & errs & M & _). intros v Hv. apply (perr_pos mags atm vs errs v M Hv (H v Hv)). }
  destruct (parallax_value _ _ _ _ H E) as [[-> Z]|[Q ->]].
  - split; [intros _ v Hv|reflexivity]. pose proof (rsum_zero (pinfo mags atm) vs (fun x Hx => pinfo_nonneg mags atm x (P x Hx)) Z v Hv) as Zv. unfold pinfo in Zv. specialize (P v Hv). apply Rmult_integral in Zv. destruct Zv as [Zv|Zv]; [|exfalso; apply Rinv_neq_0_compat in Zv; [exact Zv|nra]].
    pose proof (square_nonneg (av_ra_pi v)). pose proof (square_nonneg (av_dec_pi v)). assert (av_ra_pi v * av_ra_pi v = 0) as A by lra. assert (av_dec_pi v * av_dec_pi v = 0) as B by lra. apply Rmult_integral in A, B. split; lra.
  - split; [discriminate|]. intros Z. exfalso. assert (rsum (map (pinfo mags atm) vs) = 0); [|lra]. rewrite (rsum_ext _ (fun _ => 0 * 0)); [rewrite rsum_scale; ring|]. intros v Hv. destruct (Z v Hv) as [Z1 Z2]. unfold pinfo. rewrite Z1, Z2. specialize (P v Hv). field. lra.
Qed.
Print Assumptions C158_infinite.
Theorem C158_more : forall mags atm vs new s r, (forall v, In v (vs ++ new) -> has_error atm v) -> parallax_run mags atm false vs = Ok (Some s) -> parallax_run mags atm false (vs ++ new) = Ok r -> exists s', r = Some s' /\ s' <= s.
Proof.
  intros mags atm vs new s r H E E'. assert (forall v, In v vs -> has_error atm v) as H1 by (intros; apply H, in_or_app; left; assumption). destruct (parallax_value _ _ _ _ H1 E) as [[? _]|[P Es]]; [discriminate|]. injection Es as ->.
  assert (0 <= rsum (map (pinfo mags atm) new)) as Nn.
  { apply rsum_nonneg. intros v Hv. apply pinfo_nonneg. apply parallax_ok in E'. destruct E' as (_ & errs & M & _). apply (perr_pos mags atm _ errs v M); [apply in_or_app; right; exact Hv|apply H; apply in_or_app; right; exact Hv]. }
  destruct (parallax_value _ _ _ _ H E') as [[_ Z]|[P' ->]]; rewrite map_app, rsum_app in *; [lra|]. eexists. split; [reflexivity|]. apply Rmult_le_compat_r; [lra|]. apply sqrt_inv_le; lra.
Qed.
Print Assumptions C158_more.
(** the normalised value is between 0 and 1 (factors in the unit disc), and 1 exactly when all visits have full factors *)
Theorem C158_normalized : forall mags atm vs r, (forall v, In v vs -> has_error atm v /\ av_ra_pi v * av_ra_pi v + av_dec_pi v * av_dec_pi v <= 1) -> parallax_run mags atm true vs = Ok r ->
  exists s, r = Some s /\ 0 <= s <= 1 /\ (s = 1 <-> forall v, In v vs -> av_ra_pi v * av_ra_pi v + av_dec_pi v * av_dec_pi v = 1).
Proof.
  intros mags atm vs r H E. apply parallax_ok in E. destruct E as (N & errs & M & ->).
  assert (forall v, In v vs -> 0 < perr mags atm v) as P by (intros v Hv; apply (perr_pos mags atm vs errs v M Hv (proj1 (H v Hv)))). rewrite (errs_eq _ _ _ _ M). unfold final_sigma. rewrite (final_info mags atm vs P), (norm_info mags atm vs P).
  assert (forall v, In v vs -> 0 < 1 / (perr mags atm v * perr mags atm v)) as Pw by (intros v Hv; specialize (P v Hv); apply Rdiv_lt_0_compat; [lra|nra]).
  set (I := rsum (map (pinfo mags atm) vs)). set (W := rsum (map (fun v => 1 / (perr mags atm v * perr mags atm v)) vs)).
  assert (0 < W) as HW by (apply rsum_pos; [exact N|exact Pw]). assert (0 <= I) as HI by (apply rsum_nonneg; intros v Hv; apply pinfo_nonneg, P, Hv).
  assert (W - I = rsum (map (fun v => (1 - (av_ra_pi v * av_ra_pi v + av_dec_pi v * av_dec_pi v)) * (1 / (perr mags atm v * perr mags atm v))) vs)) as D.
  { unfold W, I. rewrite (rsum_ext (fun v => (1 - _) * _) (fun v => 1 / (perr mags atm v * perr mags atm v) + (-1) * pinfo mags atm v)); [rewrite rsum_plus, rsum_scale; ring|]. intros v Hv. specialize (P v Hv). unfold pinfo. field. lra. }
  assert (forall v, In v vs -> 0 <= (1 - (av_ra_pi v * av_ra_pi v + av_dec_pi v * av_dec_pi v)) * (1 / (perr mags atm v * perr mags atm v))) as Dn by (intros v Hv; pose proof (Pw v Hv); pose proof (proj2 (H v Hv)); apply Rmult_le_pos; lra).
  pose proof (rsum_nonneg _ vs Dn) as Ds. rewrite <- D in Ds.
  assert (W - I = 0 <-> forall v, In v vs -> av_ra_pi v * av_ra_pi v + av_dec_pi v * av_dec_pi v = 1) as DZ.
  { rewrite D. split; [intros Z v Hv; pose proof (rsum_zero _ vs Dn Z v Hv) as Zv; pose proof (Pw v Hv); apply Rmult_integral in Zv; lra|]. intros A. rewrite (rsum_ext _ (fun _ => 0 * 0)); [rewrite rsum_scale; ring|]. intros v Hv. rewrite (A v Hv). ring. }
  destruct (Rle_dec W 0); [lra|]. destruct (Rle_dec I 0) as [Z|Z].
  - exists 0. split; [reflexivity|]. split; [lra|]. rewrite <- DZ. lra.
  - assert (0 < 1 / I) by (apply Rdiv_lt_0_compat; lra). assert (0 < 1 / W) by (apply Rdiv_lt_0_compat; lra).
    assert (sqrt (1 / W) * 1000 / (sqrt (1 / I) * 1000) = sqrt (I / W)) as Q.
    { replace (I / W) with ((1 / W) / (1 / I)) by (field; lra). rewrite (sqrt_div_alt (1 / W) (1 / I)) by assumption. field. apply Rgt_not_eq, sqrt_lt_R0. assumption. }
    rewrite Q. eexists. split; [reflexivity|]. assert (0 < I / W) as IW by (apply Rdiv_lt_0_compat; lra). assert (I / W <= 1) as IW1 by (apply Rmult_le_reg_r with W; [lra|]; unfold Rdiv; rewrite Rmult_assoc, Rinv_l by lra; lra).
    split; [split; [apply sqrt_pos|rewrite <- sqrt_1; apply sqrt_le_1_alt, IW1]|]. rewrite <- DZ. split; intros S.
    + assert (I / W = 1) as S' by (rewrite <- (sqrt_sqrt (I / W)), S by lra; ring). apply Rmult_eq_compat_r with (r := W) in S'. unfold Rdiv in S'. rewrite Rmult_assoc, Rinv_l in S' by lra. lra.
    + replace I with W by lra. unfold Rdiv. rewrite Rinv_r by lra. apply sqrt_1.
Qed.
Print Assumptions C158_normalized.
Definition xv (ra dec : R) : avisit := {| av_band := "r"; av_m5 := 24; av_seeing := 1; av_mjd := 0; av_ra_pi := ra; av_dec_pi := dec |}.
Example C158_case : exists r, parallax_run (flat 20) (1/100) true [xv 1 0; xv 0 (1/2)] = Ok r /\ (forall v, In v [xv 1 0; xv 0 (1/2)] -> has_error (1/100) v /\ av_ra_pi v * av_ra_pi v + av_dec_pi v * av_dec_pi v <= 1).
Proof. eexists. split; [reflexivity|]. intros v [<-|[<-|[]]]; (split; [left; lra|cbn; lra]). Qed.

(** * C159 coverage of the parallax ellipse *)
Lemma waverage_scale (f : R * (R * R) -> R) (ps : list (R * (R * R))) : waverage (map (fun p => (fst p, f p)) ps) * rsum (map fst ps) = rsum (map (fun p => fst p * f p) ps) \/ rsum (map fst ps) = 0.
Proof. destruct (Req_dec (rsum (map fst ps)) 0) as [E|E]; [right; exact E|left]. unfold waverage. rewrite !map_map. cbn [fst snd]. change (fun x : R * (R * R) => fst x) with (@fst R (R * R)). field. exact E. Qed.
(** the mean distance of the points from their mean: 0 exactly when all points coincide, at most 1 for factors in the unit disc, and unchanged by moving all points *)
Theorem C159_radius : forall ps, ps <> [] -> (forall p, In p ps -> 0 < fst p) ->
  0 <= weighted_r ps /\ (weighted_r ps = 0 <-> forall p q, In p ps -> In q ps -> snd p = snd q) /\
  ((forall p, In p ps -> fst (snd p) * fst (snd p) + snd (snd p) * snd (snd p) <= 1) -> weighted_r ps <= 1) /\
  (forall a b, weighted_r (map (fun p => (fst p, (fst (snd p) + a, snd (snd p) + b))) ps) = weighted_r ps).
Proof.
  intros ps N H. assert (0 < rsum (map fst ps)) as W by (apply rsum_pos; [exact N|exact H]). set (w := rsum (map fst ps)) in *.
  assert (forall f : R * (R * R) -> R, waverage (map (fun p => (fst p, f p)) ps) = rsum (map (fun p => fst p * f p) ps) / w) as AV by (intros f; unfold waverage; rewrite !map_map; reflexivity).
  unfold weighted_r at 1 2 3. cbv zeta. rewrite !AV. set (cx := rsum (map (fun p => fst p * fst (snd p)) ps) / w). set (cy := rsum (map (fun p => fst p * snd (snd p)) ps) / w).
  set (r := fun p : R * (R * R) => sqrt ((fst (snd p) - cx) * (fst (snd p) - cx) + (snd (snd p) - cy) * (snd (snd p) - cy))).
  assert (forall p : R * (R * R), 0 <= (fst (snd p) - cx) * (fst (snd p) - cx) + (snd (snd p) - cy) * (snd (snd p) - cy)) as Sq by (intros p; pose proof (square_nonneg (fst (snd p) - cx)); pose proof (square_nonneg (snd (snd p) - cy)); lra).
  assert (forall p, In p ps -> 0 <= fst p * r p) as Rn by (intros p Hp; apply Rmult_le_pos; [left; apply H, Hp|apply sqrt_pos]).
  assert (0 < / w) as Iw by (apply Rinv_0_lt_compat, W). split; [apply Rmult_le_pos; [apply rsum_nonneg, Rn|lra]|]. split; [|split].
  - split.
    + intros Z. assert (rsum (map (fun p => fst p * r p) ps) = 0) as Z' by (apply Rmult_integral in Z; destruct Z as [Z|Z]; [exact Z|lra]).
      assert (forall p, In p ps -> snd p = (cx, cy)) as A.
      { intros p Hp. pose proof (rsum_zero _ ps Rn Z' p Hp) as Zp. pose proof (H p Hp). apply Rmult_integral in Zp. destruct Zp as [Zp|Zp]; [lra|]. unfold r in Zp. apply sqrt_eq_0 in Zp; [|apply Sq]. pose proof (square_nonneg (fst (snd p) - cx)). pose proof (square_nonneg (snd (snd p) - cy)).
        assert ((fst (snd p) - cx) * (fst (snd p) - cx) = 0) as X by lra. assert ((snd (snd p) - cy) * (snd (snd p) - cy) = 0) as Y by lra. apply Rmult_integral in X, Y. destruct (snd p) as [x y]. cbn [fst snd] in *. f_equal; lra. }
      intros p q Hp Hq. rewrite (A p Hp), (A q Hq). reflexivity.
    + intros A. assert (exists p0, In p0 ps) as (p0 & H0) by (destruct ps as [|p0 ps0]; [congruence|exists p0; left; reflexivity]).
      assert (cx = fst (snd p0)) as Ex. { unfold cx. rewrite (rsum_ext _ (fun p => fst (snd p0) * fst p)) by (intros p Hp; rewrite (A p p0 Hp H0); ring). rewrite rsum_scale. change (fun x : R * (R * R) => fst x) with (@fst R (R * R)). fold w. field. lra. }
      assert (cy = snd (snd p0)) as Ey. { unfold cy. rewrite (rsum_ext _ (fun p => snd (snd p0) * fst p)) by (intros p Hp; rewrite (A p p0 Hp H0); ring). rewrite rsum_scale. change (fun x : R * (R * R) => fst x) with (@fst R (R * R)). fold w. field. lra. }
      rewrite (rsum_ext _ (fun _ => 0 * 0)); [rewrite rsum_scale; unfold Rdiv; ring|]. intros p Hp. unfold r. rewrite (A p p0 Hp H0), Ex, Ey. replace (_ * _ + _ * _) with 0 by ring. rewrite sqrt_0. ring.
  - intros U. set (S := rsum (map (fun p => fst p * r p) ps)). assert (0 <= S) as HS by (apply rsum_nonneg, Rn). assert (S * S <= w * w) as Q.
    { pose proof (cauchy_schwarz (fun p : R * (R * R) => sqrt (fst p)) (fun p => sqrt (fst p) * r p) ps) as CS. cbv beta in CS.
      rewrite (rsum_ext (fun x : R * (R * R) => sqrt (fst x) * (sqrt (fst x) * r x)) (fun p => fst p * r p)) in CS by (intros p Hp; rewrite <- Rmult_assoc, sqrt_sqrt by (left; apply H, Hp); reflexivity).
      rewrite (rsum_ext (fun x : R * (R * R) => sqrt (fst x) * sqrt (fst x)) fst) in CS by (intros p Hp; apply sqrt_sqrt; left; apply H, Hp).
      rewrite (rsum_ext (fun x : R * (R * R) => sqrt (fst x) * r x * (sqrt (fst x) * r x)) (fun p => fst p * ((fst (snd p) - cx) * (fst (snd p) - cx) + (snd (snd p) - cy) * (snd (snd p) - cy)))) in CS
        by (intros p Hp; replace (sqrt (fst p) * r p * (sqrt (fst p) * r p)) with ((sqrt (fst p) * sqrt (fst p)) * (r p * r p)) by ring; rewrite sqrt_sqrt by (left; apply H, Hp); unfold r; rewrite sqrt_sqrt by apply Sq; reflexivity).
      fold S in CS. fold w in CS. eapply Rle_trans; [exact CS|]. apply Rmult_le_compat_l; [lra|].
      rewrite (rsum_ext _ (fun p => fst p * (fst (snd p) * fst (snd p) + snd (snd p) * snd (snd p)) + ((-2 * cx) * (fst p * fst (snd p)) + ((-2 * cy) * (fst p * snd (snd p)) + (cx * cx + cy * cy) * fst p)))) by (intros; ring). rewrite !rsum_plus, !rsum_scale.
      change (fun x : R * (R * R) => fst x) with (@fst R (R * R)). fold w. assert (rsum (map (fun p => fst p * fst (snd p)) ps) = cx * w) as -> by (unfold cx; field; lra). assert (rsum (map (fun p => fst p * snd (snd p)) ps) = cy * w) as -> by (unfold cy; field; lra).
      assert (rsum (map (fun p => fst p * (fst (snd p) * fst (snd p) + snd (snd p) * snd (snd p))) ps) <= w) as L by (apply rsum_le; intros p Hp; pose proof (H p Hp); pose proof (U p Hp); nra).
      pose proof (square_nonneg cx). pose proof (square_nonneg cy). assert (0 <= (cx * cx + cy * cy) * w) by (apply Rmult_le_pos; lra). lra. }
    assert (S <= w) by nra. change (S / w <= 1). apply Rmult_le_reg_r with w; [exact W|]. unfold Rdiv. rewrite Rmult_assoc, Rinv_l by lra. lra.
  - intros a b. unfold weighted_r. cbv zeta. rewrite !map_map. cbn [fst snd]. rewrite !AV. fold cx. fold cy.
    assert (rsum (map (fun p : R * (R * R) => fst p * (fst (snd p) + a)) ps) / w = cx + a) as ->. { rewrite (rsum_ext _ (fun p => fst p * fst (snd p) + a * fst p)) by (intros; ring). rewrite rsum_plus, rsum_scale. change (fun x : R * (R * R) => fst x) with (@fst R (R * R)). fold w. unfold cx. field. lra. }
    assert (rsum (map (fun p : R * (R * R) => fst p * (snd (snd p) + b)) ps) / w = cy + b) as ->. { rewrite (rsum_ext _ (fun p => fst p * snd (snd p) + b * fst p)) by (intros; ring). rewrite rsum_plus, rsum_scale. change (fun x : R * (R * R) => fst x) with (@fst R (R * R)). fold w. unfold cy. field. lra. }
    f_equal. apply rsum_ext. intros p _. f_equal. f_equal. ring.
Qed.
Print Assumptions C159_radius.
(** the metric without a demand on the angles is that radius, with weights 1/error^2 *)
Theorem C159_run : forall mags atm lim vs, (2 <= length vs)%nat -> (forall v, In v vs -> has_error atm v /\ mags (av_band v) <> None /\ av_ra_pi v * av_ra_pi v + av_dec_pi v * av_dec_pi v <= 1) ->
  exists r, coverage_run mags atm 0 lim vs = Ok (Some r) /\ 0 <= r <= 1 /\ (r = 0 <-> forall v v', In v vs -> In v' vs -> av_ra_pi v = av_ra_pi v' /\ av_dec_pi v = av_dec_pi v').
Proof.
  intros mags atm lim vs L H. unfold coverage_run. replace (length vs <? 2)%nat with false by (symmetry; apply Nat.ltb_ge; exact L).
  destruct (map_ok_total (pos_error mags atm) vs) as (errs & M); [intros v Hv; destruct (H v Hv) as (_ & K & _); unfold pos_error; destruct (mags (av_band v)); [eexists; reflexivity|congruence]|].
  match goal with |- context [map_ok ?f vs] => lazymatch f with pos_error _ _ => fail | _ => destruct (map_ok_total f vs) as (snrs & M'); [intros v Hv; destruct (H v Hv) as (_ & K & _); destruct (mags (av_band v)); [eexists; reflexivity|congruence]|rewrite M, M'] end end.
  cbn [bind]. destruct (Rlt_dec 0 0) as [C|_]; [lra|]. rewrite (errs_eq _ _ _ _ M), !map_map, combine_map, Rmult_1_r. cbn [fst snd]. eexists. split; [reflexivity|].
  set (ps := map _ vs). assert (ps <> []) as N by (unfold ps; destruct vs; [cbn in L; lia|discriminate]).
  assert (forall p, In p ps -> 0 < fst p) as Pw. { intros p Hp. apply in_map_iff in Hp. destruct Hp as (v & <- & Hv). cbn [fst]. pose proof (perr_pos mags atm vs errs v M Hv (proj1 (H v Hv))). apply Rdiv_lt_0_compat; [lra|nra]. }
  destruct (C159_radius ps N Pw) as (A & B & C & _). split; [split; [exact A|apply C; intros p Hp; apply in_map_iff in Hp; destruct Hp as (v & <- & Hv); cbn [fst snd]; destruct (H v Hv) as (_ & _ & K); lra]|].
  rewrite B. split.
  - intros E v v' Hv Hv'. assert (forall u, In u vs -> In (1 / (perr mags atm u * perr mags atm u), (av_dec_pi u, av_ra_pi u)) ps) as I by (intros u Hu; apply in_map_iff; exists u; split; [reflexivity|exact Hu]). specialize (E _ _ (I v Hv) (I v' Hv')). cbn in E. injection E as E1 E2. split; assumption.
  - intros E p q Hp Hq. apply in_map_iff in Hp, Hq. destruct Hp as (v & <- & Hv), Hq as (v' & <- & Hv'). cbn [snd]. destruct (E v v' Hv Hv') as [-> ->]. reflexivity.
Qed.
Print Assumptions C159_run.
Example C159_case : weighted_r [(1, (1, 0)); (1, (-1, 0))] = 1 /\ weighted_r [(2, (1, 0)); (5, (1, 0))] = 0.
Proof.
  split.
  - unfold weighted_r, waverage, rsum. cbn. replace (1 * 1 + (1 * -1 + 0)) with 0 by ring. replace (1 * 0 + (1 * 0 + 0)) with 0 by ring. replace (0 / (1 + (1 + 0))) with 0 by field. replace ((1 - 0) * (1 - 0) + (0 - 0) * (0 - 0)) with 1 by ring. replace ((-1 - 0) * (-1 - 0) + (0 - 0) * (0 - 0)) with 1 by ring. rewrite sqrt_1. field.
  - apply C159_radius; [discriminate|intros p [<-|[<-|[]]]; cbn; lra|]. intros p q [<-|[<-|[]]] [<-|[<-|[]]]; reflexivity.
Qed.
(** meant: with theta_range, the value counts when the angles of the visits above the limit span theta_range, i.e. there are
    two of them that differ by at least theta_range (and at most 2 pi - theta_range) *)
Theorem C159_angles_refuted : ~ (forall lim range a b, 0 < range -> 0 <= a -> a + range <= b -> b <= PI -> b - a <= 2 * PI - range -> theta_check lim range [(lim, (cos a, sin a)); (lim, (cos b, sin b))] = Ok 1).
Proof.
  intros C. pose proof PI2_3_2 as P2. pose proof PI_RGT_0. assert (3 < PI) as P3 by lra.
  specialize (C 5 (3/2) 0 2 ltac:(lra) ltac:(lra) ltac:(lra) ltac:(lra) ltac:(lra)). unfold theta_check in C. cbn [filter fst] in C. destruct (Rle_dec 5 5) as [_|N]; [|lra]. cbn [map fst snd] in C. rewrite !atan2_angle in C by lra. cbn [rmin_list fold_left map] in C.
  assert (Rmin 0 2 = 0) as M by (apply Rmin_left; lra). rewrite M in C. replace (0 - 0) with 0 in C by ring. replace (2 - 0) with 2 in C by ring. cbn [rmax_list fold_left] in C. assert (Rmax 0 2 = 2) as M2 by (apply Rmax_right; lra). rewrite M2 in C. destruct (Rle_dec (3/2) 2) as [_|N]; [|lra].
  assert (pymod (2 + PI) 2 = pymod (0 + PI) 2) as E.
  { destruct (pymod_bounds (2 + PI) 2 ltac:(lra)) as [B1 (k1 & E1)]. destruct (pymod_bounds (0 + PI) 2 ltac:(lra)) as [B2 (k2 & E2)]. assert (IZR (k1 - k2 - 1) = (pymod (0 + PI) 2 - pymod (2 + PI) 2) / 2) as D by (rewrite !minus_IZR; lra).
    assert (-1 < IZR (k1 - k2 - 1) < 1) as [D1 D2] by (rewrite D; lra). apply lt_IZR in D2. apply (lt_IZR (-1)) in D1. assert (k1 - k2 - 1 = 0)%Z as D3 by lia. rewrite D3 in D. lra. }
  cbn [map] in C. rewrite E in C. set (u := pymod (0 + PI) 2 * PI) in *. assert (Rmin u u = u) as M3 by (apply Rmin_left; lra). cbn [rmin_list fold_left map rmax_list] in C. rewrite M3 in C. replace (u - u) with 0 in C by ring. assert (Rmax 0 0 = 0) as M4 by (apply Rmax_left; lra). rewrite M4 in C. destruct (Rle_dec (3/2) 0); [lra|]. injection C as C. lra.
Qed.
Print Assumptions C159_angles_refuted.
(** a visit count of zero above the limit raises instead of giving 0 *)
Theorem C159_faint_refuted : ~ (forall mags atm range lim vs, (2 <= length vs)%nat -> (forall v, In v vs -> mags (av_band v) <> None) -> exists r, coverage_run mags atm range lim vs = Ok r).
Proof.
  intros C. destruct (C (flat 20) (1/100) 1 6 [pv 1 0; pv 1 1]) as (r & E); [cbn; lia|intros v [<-|[<-|[]]]; discriminate|].
  unfold coverage_run in E. replace (length [pv 1 0; pv 1 1] <? 2)%nat with false in E by reflexivity. cbn in E. destruct (Rlt_dec 0 1) as [_|N]; [|lra].
  unfold theta_check in E. cbn [filter fst] in E. change (snr_gamma (1/25) (Rpower 10 (2/5 * (20 - 20)))) with (m52snr (Some (1/25)) 20 20) in E. rewrite C155_depth in E. destruct (Rle_dec 6 5) as [N|_]; [lra|]. cbn in E. discriminate E.
Qed.
Print Assumptions C159_faint_refuted.
(** the part that holds: what it returns is 0 or 1, and 1 only if two visits above the limit have angles that differ by at least theta_range *)
Theorem C159_angles_partial : forall lim range ps r, 0 < range -> theta_check lim range ps = Ok r -> r = 0 \/ (r = 1 /\ exists p q, In p ps /\ In q ps /\ lim <= fst p /\ lim <= fst q /\ atan2 (snd (snd p)) (fst (snd p)) + range <= atan2 (snd (snd q)) (fst (snd q))).
Proof.
  intros lim range ps r Hr E. unfold theta_check in E. set (good := filter _ ps) in *. destruct (map (fun p => atan2 (snd (snd p)) (fst (snd p))) good) as [|t th] eqn:Et; [discriminate|]. set (l := t :: th) in *. cbv zeta in E. match type of E with Ok ?x = Ok _ => assert (r = x) as -> by congruence end.
  destruct (Rle_dec range (rmax_list (map (fun t0 => t0 - rmin_list l) l))) as [L|L]; [|left; reflexivity]. match goal with |- context [if ?c then 1 else 0] => destruct c end; [right; split; [reflexivity|]|left; reflexivity].
  assert (l <> []) as N by discriminate. destruct (rmin_spec l N) as [I1 _]. destruct (rmax_spec (map (fun t0 => t0 - rmin_list l) l)) as [I2 _]; [discriminate|]. apply in_map_iff in I2. destruct I2 as (t2 & E2 & I2). rewrite <- E2 in L.
  assert (forall x, In x l -> exists p, In p ps /\ lim <= fst p /\ atan2 (snd (snd p)) (fst (snd p)) = x) as G. { intros x Hx. rewrite <- Et in Hx. apply in_map_iff in Hx. destruct Hx as (p & Ep & Hp). unfold good in Hp. apply filter_In in Hp. destruct Hp as [Hp Hl]. exists p. split; [exact Hp|]. split; [destruct (Rle_dec lim (fst p)); [assumption|discriminate]|exact Ep]. }
  destruct (G _ I1) as (p & P1 & P2 & P3). destruct (G _ I2) as (q & Q1 & Q2 & Q3). exists p, q. repeat split; try assumption. rewrite P3, Q3. lra.
Qed.
Print Assumptions C159_angles_partial.

(** * C160 the correlation of parallax and refraction *)
Definition positive_errors (ps : list (R * (R * R))) : Prop := forall p, In p ps -> 0 < fst p.
Lemma dcr_cs ps : positive_errors ps -> dcr_sum (fun q => fst q * snd q) ps * dcr_sum (fun q => fst q * snd q) ps <= dcr_sum (fun q => fst q * fst q) ps * dcr_sum (fun q => snd q * snd q) ps.
Proof.
  intros H. pose proof (cauchy_schwarz (fun p : R * (R * R) => fst (snd p) / fst p) (fun p => snd (snd p) / fst p) ps) as CS. cbv beta in CS. unfold dcr_sum.
  rewrite (rsum_ext (fun x : R * (R * R) => fst (snd x) / fst x * (snd (snd x) / fst x)) (fun p => fst (snd p) * snd (snd p) / (fst p * fst p))) in CS by (intros p Hp; specialize (H p Hp); field; lra).
  rewrite (rsum_ext (fun x : R * (R * R) => fst (snd x) / fst x * (fst (snd x) / fst x)) (fun p => fst (snd p) * fst (snd p) / (fst p * fst p))) in CS by (intros p Hp; specialize (H p Hp); field; lra).
  rewrite (rsum_ext (fun x : R * (R * R) => snd (snd x) / fst x * (snd (snd x) / fst x)) (fun p => snd (snd p) * snd (snd p) / (fst p * fst p))) in CS by (intros p Hp; specialize (H p Hp); field; lra). exact CS.
Qed.
Lemma dcr_sq_nonneg (f : R * R -> R) ps : positive_errors ps -> 0 <= dcr_sum (fun q => f q * f q) ps.
Proof. intros H. apply rsum_nonneg. intros p Hp. specialize (H p Hp). apply Rmult_le_pos; [apply square_nonneg|]. left. apply Rinv_0_lt_compat. nra. Qed.
(** the value is a correlation, strictly between -1 and 1, and 0 when the two sets of shifts are orthogonal *)
Theorem C160_range : forall ps c, positive_errors ps -> dcr_correlation ps = Some c -> -1 < c < 1 /\ (c = 0 <-> dcr_sum (fun q => fst q * snd q) ps = 0) /\ (0 < c <-> dcr_sum (fun q => fst q * snd q) ps < 0).
Proof.
  intros ps c H E. unfold dcr_correlation in E. pose proof (dcr_cs ps H) as CS. pose proof (dcr_sq_nonneg fst ps H) as A0. pose proof (dcr_sq_nonneg snd ps H) as C0. set (a := dcr_sum (fun q => fst q * fst q) ps) in *. set (b := dcr_sum (fun q => fst q * snd q) ps) in *. set (d := dcr_sum (fun q => snd q * snd q) ps) in *.
  destruct (Rle_dec (a * d - b * b) 0) as [L|L]; [discriminate|]. injection E as <-. set (D := a * d - b * b) in *. assert (0 < D) as HD by lra. assert (0 < a * d) as AD by (pose proof (square_nonneg b); unfold D in HD; lra). assert (0 < a) by nra. assert (0 < d) by nra.
  assert (sqrt (d / D) * sqrt (a / D) = sqrt (a * d) / D) as S. { rewrite <- sqrt_mult_alt by (apply Rmult_le_pos; [lra|left; apply Rinv_0_lt_compat, HD]). replace (d / D * (a / D)) with ((a * d) * (/ D * / D)) by (field; lra). rewrite sqrt_mult_alt by lra. rewrite sqrt_square by (left; apply Rinv_0_lt_compat, HD). reflexivity. }
  rewrite S. pose proof (sqrt_lt_R0 _ AD) as SP. set (s := sqrt (a * d)) in *. assert (s * s = a * d) as SS by (apply sqrt_sqrt; lra). replace (- b / D / (s / D)) with (- b / s) by (field; lra).
  assert (0 < / s) as Is by (apply Rinv_0_lt_compat, SP). assert (- s < b < s) as [B1 B2] by (unfold D in HD; split; nra). unfold Rdiv. split; [|split].
  - split; apply Rmult_lt_reg_r with s; try exact SP; rewrite Rmult_assoc, Rinv_l by lra; lra.
  - split; [intros Z; apply Rmult_integral in Z; destruct Z; lra|intros ->; ring].
  - split; [intros P; destruct (Rle_dec 0 b); [exfalso; nra|lra]|intros P; apply Rmult_lt_0_compat; lra].
Qed.
Print Assumptions C160_range.
(** no value exactly when some combination of the two effects is zero in every visit: then they cannot be separated *)
Theorem C160_degenerate : forall ps, positive_errors ps -> (dcr_correlation ps = None <-> exists k1 k2, (k1 <> 0 \/ k2 <> 0) /\ forall p, In p ps -> k1 * fst (snd p) + k2 * snd (snd p) = 0).
Proof.
  intros ps H. unfold dcr_correlation. pose proof (dcr_cs ps H) as CS. pose proof (dcr_sq_nonneg fst ps H) as A0.
  assert (forall k1 k2, dcr_sum (fun q => (k1 * fst q + k2 * snd q) * (k1 * fst q + k2 * snd q)) ps = k1 * k1 * dcr_sum (fun q => fst q * fst q) ps + (2 * k1 * k2 * dcr_sum (fun q => fst q * snd q) ps + k2 * k2 * dcr_sum (fun q => snd q * snd q) ps)) as Qd.
  { intros k1 k2. unfold dcr_sum. rewrite <- !rsum_scale, <- !rsum_plus. apply rsum_ext. intros p Hp. specialize (H p Hp). field. lra. }
  assert (forall k1 k2, dcr_sum (fun q => (k1 * fst q + k2 * snd q) * (k1 * fst q + k2 * snd q)) ps = 0 -> forall p, In p ps -> k1 * fst (snd p) + k2 * snd (snd p) = 0) as Qz.
  { intros k1 k2 Z p Hp. pose proof (rsum_zero (fun p : R * (R * R) => (k1 * fst (snd p) + k2 * snd (snd p)) * (k1 * fst (snd p) + k2 * snd (snd p)) / (fst p * fst p)) ps) as RZ. specialize (RZ ltac:(intros x Hx; specialize (H x Hx); apply Rmult_le_pos; [apply square_nonneg|left; apply Rinv_0_lt_compat; nra]) Z p Hp). specialize (H p Hp). cbv beta in RZ. apply Rmult_integral in RZ. destruct RZ as [RZ|RZ]; [apply Rmult_integral in RZ; lra|]. exfalso. apply Rinv_neq_0_compat in RZ; [exact RZ|nra]. }
  set (a := dcr_sum (fun q => fst q * fst q) ps) in *. set (b := dcr_sum (fun q => fst q * snd q) ps) in *. set (d := dcr_sum (fun q => snd q * snd q) ps) in *. cbv zeta. split.
  - destruct (Rle_dec (a * d - b * b) 0) as [L|L]; [|discriminate]. intros _. assert (a * d = b * b) as E by lra. destruct A0 as [A0|A0].
    + exists b, (- a). split; [right; lra|]. apply Qz. rewrite Qd. replace (b * b * a + (2 * b * - a * b + - a * - a * d)) with (a * (a * d - b * b)) by ring. rewrite E. ring.
    + exists 1, 0. split; [left; lra|]. apply Qz. rewrite Qd, <- A0. ring.
  - intros (k1 & k2 & K & Z). destruct (Rle_dec (a * d - b * b) 0) as [L|L]; [reflexivity|exfalso]. apply L.
    assert (dcr_sum (fun q => (k1 * fst q + k2 * snd q) * (k1 * fst q + k2 * snd q)) ps = 0) as Q0. { unfold dcr_sum. rewrite (rsum_ext _ (fun _ => 0 * 0)); [rewrite rsum_scale; ring|]. intros p Hp. rewrite (Z p Hp). specialize (H p Hp). field. lra. }
    rewrite Qd in Q0.
    assert (k1 * a + k2 * b = 0) as E1. { unfold a, b, dcr_sum. rewrite <- !rsum_scale, <- rsum_plus. rewrite (rsum_ext _ (fun _ => 0 * 0)); [rewrite rsum_scale; ring|]. intros p Hp. specialize (Z p Hp). specialize (H p Hp). replace (k1 * (fst (snd p) * fst (snd p) / (fst p * fst p)) + k2 * (fst (snd p) * snd (snd p) / (fst p * fst p))) with ((k1 * fst (snd p) + k2 * snd (snd p)) * (fst (snd p) / (fst p * fst p))) by (field; lra). rewrite Z. ring. }
    assert (k1 * b + k2 * d = 0) as E2. { unfold b, d, dcr_sum. rewrite <- !rsum_scale, <- rsum_plus. rewrite (rsum_ext _ (fun _ => 0 * 0)); [rewrite rsum_scale; ring|]. intros p Hp. specialize (Z p Hp). specialize (H p Hp). replace (k1 * (fst (snd p) * snd (snd p) / (fst p * fst p)) + k2 * (snd (snd p) * snd (snd p) / (fst p * fst p))) with ((k1 * fst (snd p) + k2 * snd (snd p)) * (snd (snd p) / (fst p * fst p))) by (field; lra). rewrite Z. ring. }
    assert (k1 * (a * d - b * b) = 0) as F1 by (replace (k1 * (a * d - b * b)) with (d * (k1 * a + k2 * b) - b * (k1 * b + k2 * d)) by ring; rewrite E1, E2; ring).
    assert (k2 * (a * d - b * b) = 0) as F2 by (replace (k2 * (a * d - b * b)) with (a * (k1 * b + k2 * d) - b * (k1 * a + k2 * b)) by ring; rewrite E1, E2; ring).
    apply Rmult_integral in F1, F2. destruct K; lra.
Qed.
Print Assumptions C160_degenerate.
(** the amplitudes' units do not matter: scaling a shift by a positive factor leaves the value, by a negative one its sign changes *)
Theorem C160_scale : forall ps k, positive_errors ps -> 0 < k -> dcr_correlation (map (fun p => (fst p, (k * fst (snd p), snd (snd p)))) ps) = dcr_correlation ps /\ dcr_correlation (map (fun p => (fst p, (- fst (snd p), snd (snd p)))) ps) = option_map Ropp (dcr_correlation ps).
Proof.
  intros ps k H Hk.
  assert (forall s, dcr_sum (fun q => fst q * fst q) (map (fun p => (fst p, (s * fst (snd p), snd (snd p)))) ps) = s * s * dcr_sum (fun q => fst q * fst q) ps) as Sa by (intros s; unfold dcr_sum; rewrite map_map, <- rsum_scale; apply rsum_ext; intros p Hp; specialize (H p Hp); cbn [fst snd]; field; lra).
  assert (forall s, dcr_sum (fun q => fst q * snd q) (map (fun p => (fst p, (s * fst (snd p), snd (snd p)))) ps) = s * dcr_sum (fun q => fst q * snd q) ps) as Sb by (intros s; unfold dcr_sum; rewrite map_map, <- rsum_scale; apply rsum_ext; intros p Hp; specialize (H p Hp); cbn [fst snd]; field; lra).
  assert (forall s, dcr_sum (fun q => snd q * snd q) (map (fun p => (fst p, (s * fst (snd p), snd (snd p)))) ps) = dcr_sum (fun q => snd q * snd q) ps) as Sc by (intros s; unfold dcr_sum; rewrite map_map; reflexivity).
  pose proof (dcr_cs ps H) as CS. pose proof (dcr_sq_nonneg fst ps H) as A0. pose proof (dcr_sq_nonneg snd ps H) as C0.
  set (a := dcr_sum (fun q => fst q * fst q) ps) in *. set (b := dcr_sum (fun q => fst q * snd q) ps) in *. set (d := dcr_sum (fun q => snd q * snd q) ps) in *.
  split.
  - unfold dcr_correlation. rewrite Sa, Sb, Sc. fold a b d. cbv zeta. replace (k * k * a * d - k * b * (k * b)) with (k * k * (a * d - b * b)) by ring. assert (0 < k * k) by (apply Rmult_lt_0_compat; assumption).
    destruct (Rle_dec (a * d - b * b) 0) as [L|L]; [destruct (Rle_dec _ 0) as [L'|L']; [reflexivity|exfalso; apply L'; nra]|]. destruct (Rle_dec _ 0) as [L'|L']; [exfalso; nra|]. f_equal. set (D := a * d - b * b) in *. assert (0 < D) as HD by lra. assert (0 < a * d) as AD by (unfold D in HD; pose proof (square_nonneg b); lra). assert (0 < a) by nra. assert (0 < d) by nra.
    replace (d / (k * k * D)) with ((d / D) * (/ k * / k)) by (field; lra). replace (k * k * a / (k * k * D)) with (a / D) by (field; lra). rewrite (sqrt_mult_alt (d / D)) by (apply Rmult_le_pos; [lra|left; apply Rinv_0_lt_compat, HD]). rewrite sqrt_square by (left; apply Rinv_0_lt_compat, Hk).
    assert (0 < sqrt (d / D)) by (apply sqrt_lt_R0, Rdiv_lt_0_compat; assumption). assert (0 < sqrt (a / D)) by (apply sqrt_lt_R0, Rdiv_lt_0_compat; assumption). field. repeat split; lra.
  - rewrite (map_ext (fun p : R * (R * R) => (fst p, (- fst (snd p), snd (snd p)))) (fun p => (fst p, (-1 * fst (snd p), snd (snd p))))) by (intros p; repeat f_equal; ring).
    unfold dcr_correlation. rewrite Sa, Sb, Sc. fold a b d. cbv zeta. replace (-1 * -1 * a) with a by ring. replace (-1 * b * (-1 * b)) with (b * b) by ring. destruct (Rle_dec (a * d - b * b) 0) as [L|L]; [reflexivity|]. cbn [option_map]. f_equal. unfold Rdiv. ring.
Qed.
Print Assumptions C160_scale.
Example C160_case : dcr_correlation [(1, (1, 0)); (1, (0, 1))] = Some 0 /\ dcr_correlation [(1, (1, 2)); (2, (2, 4))] = None.
Proof.
  split.
  - assert (positive_errors [(1, (1, 0)); (1, (0, 1))]) as H by (intros p [<-|[<-|[]]]; cbn; lra). destruct (dcr_correlation [(1, (1, 0)); (1, (0, 1))]) as [c|] eqn:E.
    + f_equal. apply (C160_range _ c H E). unfold dcr_sum, rsum. cbn. field.
    + exfalso. apply (C160_degenerate _ H) in E. destruct E as (k1 & k2 & K & Z). pose proof (Z _ (or_introl eq_refl)) as Z1. pose proof (Z _ (or_intror (or_introl eq_refl))) as Z2. cbn in Z1, Z2. lra.
  - apply C160_degenerate; [intros p [<-|[<-|[]]]; cbn; lra|]. exists 2, (-1). split; [left; lra|]. intros p [<-|[<-|[]]]; cbn; lra.
Qed.

(** * C161 distances from the centre of the field *)
(** the distance is the angle between the two directions *)
Theorem C161_distance : forall ra1 dec1 ra2 dec2, let d := dist_cosines ra1 dec1 ra2 dec2 in
  0 <= d <= PI /\ cos d = dot (vec ra1 dec1) (vec ra2 dec2) /\ d = dist_cosines ra2 dec2 ra1 dec1 /\ (d = 0 <-> vec ra1 dec1 = vec ra2 dec2) /\ forall k, dist_cosines (ra1 + 2 * INR k * PI) dec1 ra2 dec2 = d.
Proof.
  intros ra1 dec1 ra2 dec2. cbv zeta. rewrite dist_dot. pose proof (dot_bound _ _ (vec_unit ra1 dec1) (vec_unit ra2 dec2)) as B. split; [apply acos_bound|]. split; [apply cos_acos, B|]. split; [rewrite dist_dot; f_equal; unfold dot, vec; ring|]. split.
  - split.
    + intros Z. apply dot_one; [apply vec_unit|apply vec_unit|]. rewrite <- (cos_acos _ B), Z. apply cos_0.
    + intros ->. rewrite vec_unit. rewrite <- cos_0. apply acos_cos. pose proof PI_RGT_0. lra.
  - intros k. rewrite dist_dot. unfold vec. rewrite cos_period, sin_period. reflexivity.
Qed.
Print Assumptions C161_distance.
(** the values are these angles in degrees, and the reductions are in their range *)
Theorem C161_reduce : forall ra dec ps, ps <> [] -> let l := radius_run ra dec ps in length l = length ps /\ (forall x, In x l -> 0 <= x <= 180) /\ 0 <= reduce_full_range l <= 180 /\ rmin_list l <= rmean l <= rmax_list l.
Proof.
  intros ra dec ps N. cbv zeta. set (l := radius_run ra dec ps). assert (length l = length ps) as Ll by apply map_length. assert (l <> []) as Nl by (intros E; rewrite E in Ll; destruct ps; [congruence|discriminate]).
  assert (forall x, In x l -> 0 <= x <= 180) as B.
  { intros x Hx. apply in_map_iff in Hx. destruct Hx as (p & <- & _). pose proof (acos_bound (sin (radians (snd p)) * sin dec + cos dec * cos (radians (snd p)) * cos (radians (fst p) - ra))) as [B1 B2]. fold (dist_cosines ra dec (radians (fst p)) (radians (snd p))) in *. set (d := dist_cosines _ _ _ _) in *. pose proof PI_RGT_0. unfold degrees. split; [apply Rmult_le_pos; [lra|left; apply Rinv_0_lt_compat; lra]|]. apply Rmult_le_reg_r with PI; [lra|]. unfold Rdiv. rewrite Rmult_assoc, Rinv_l by lra. lra. }
  destruct (rmin_spec l Nl) as [I1 M1]. destruct (rmax_spec l Nl) as [I2 M2]. split; [exact Ll|]. split; [exact B|]. split; [unfold reduce_full_range; pose proof (B _ I1); pose proof (B _ I2); pose proof (M1 _ I2); lra|].
  assert (0 < INR (length l)) as Pn by (apply lt_0_INR; destruct l; [congruence|cbn; lia]). unfold rmean. assert (INR (length l) * rmin_list l <= rsum l <= INR (length l) * rmax_list l) as [S1 S2].
  { rewrite <- !rsum_repeat. assert (forall c : R, repeat c (length l) = map (fun _ => c) l) as Rp by (intros c; clear; induction l as [|x l IH]; [reflexivity|cbn; rewrite IH; reflexivity]). rewrite !Rp. assert (rsum l = rsum (map (fun x => x) l)) as -> by (rewrite map_id; reflexivity). split; apply rsum_le; assumption. }
  split; apply Rmult_le_reg_r with (INR (length l)); try exact Pn; unfold Rdiv; rewrite Rmult_assoc, Rinv_l by lra; lra.
Qed.
Print Assumptions C161_reduce.
(** the units given with the metric are radians *)
Theorem C161_units_refuted : ~ (forall ra dec p, radius_units = "radians"%string -> radius_run ra dec [p] = [dist_cosines ra dec (radians (fst p)) (radians (snd p))]).
Proof.
  intros C. specialize (C 0 0 (180, 0) eq_refl). unfold radius_run in C. cbn [map fst snd] in C. injection C as C. assert (dist_cosines 0 0 (radians 180) (radians 0) = PI) as D.
  { unfold dist_cosines, radians. replace (180 * PI / 180 - 0) with PI by field. replace (0 * PI / 180) with 0 by field. rewrite sin_0, cos_0. replace (0 * 0 + 1 * 1 * cos PI) with (cos PI) by ring. apply acos_cos. pose proof PI_RGT_0. lra. }
  rewrite D in C. unfold degrees in C. pose proof PI_RGT_0. pose proof PI_4. replace (PI * 180 / PI) with 180 in C by (field; lra). lra.
Qed.
Print Assumptions C161_units_refuted.
Example C161_case : length (radius_run 1 1 [(0, 0); (10, 20)]) = 2%nat /\ [(0, 0); (10, 20)] <> [].
Proof. split; [reflexivity|discriminate]. Qed.
