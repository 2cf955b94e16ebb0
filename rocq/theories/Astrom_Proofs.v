(** Proofs about the astrometric metrics. *)
From Verif Require Import Base Astrom_Model Astrom_Spec.
From Coq Require Import Reals Ratan Lra Lia Permutation Psatz.
Open Scope R_scope.

(** * sums *)
Lemma rsum_app a b : rsum (a ++ b) = rsum a + rsum b.
Proof. unfold rsum. induction a as [|x a IH]; cbn [app fold_right]; [lra|]. rewrite IH. lra. Qed.
Lemma rsum_nonneg {A} (f : A -> R) l : (forall x, In x l -> 0 <= f x) -> 0 <= rsum (map f l).
Proof. induction l as [|x l IH]; intros H; cbn; [lra|]. pose proof (H x (or_introl eq_refl)). assert (0 <= rsum (map f l)) by (apply IH; intros; apply H; right; assumption). unfold rsum in *. lra. Qed.
Lemma rsum_zero {A} (f : A -> R) l : (forall x, In x l -> 0 <= f x) -> rsum (map f l) = 0 -> forall x, In x l -> f x = 0.
Proof.
  induction l as [|y l IH]; intros H E x Hx; [destruct Hx|]. cbn in E. pose proof (H y (or_introl eq_refl)) as Hy. assert (0 <= rsum (map f l)) as Hs by (apply rsum_nonneg; intros; apply H; right; assumption).
  fold (rsum (map f l)) in E. destruct Hx as [<-|Hx]; [lra|]. apply IH; [intros; apply H; right; assumption|lra|exact Hx].
Qed.
Lemma rsum_ext {A} (f g : A -> R) l : (forall x, In x l -> f x = g x) -> rsum (map f l) = rsum (map g l).
Proof. intros H. f_equal. apply map_ext_in, H. Qed.
Lemma rsum_plus {A} (f g : A -> R) l : rsum (map (fun x => f x + g x) l) = rsum (map f l) + rsum (map g l).
Proof. unfold rsum. induction l as [|x l IH]; cbn; [lra|]. rewrite IH. lra. Qed.
Lemma rsum_scale {A} (f : A -> R) c l : rsum (map (fun x => c * f x) l) = c * rsum (map f l).
Proof. unfold rsum. induction l as [|x l IH]; cbn; [lra|]. rewrite IH. lra. Qed.
Lemma rsum_le {A} (f g : A -> R) l : (forall x, In x l -> f x <= g x) -> rsum (map f l) <= rsum (map g l).
Proof. induction l as [|x l IH]; intros H; cbn; [lra|]. pose proof (H x (or_introl eq_refl)). assert (rsum (map f l) <= rsum (map g l)) by (apply IH; intros; apply H; right; assumption). unfold rsum in *. lra. Qed.
Lemma rsum_pos {A} (f : A -> R) l : l <> [] -> (forall x, In x l -> 0 < f x) -> 0 < rsum (map f l).
Proof. destruct l as [|y l]; intros N H; [congruence|]. cbn. pose proof (H y (or_introl eq_refl)). assert (0 <= rsum (map f l)) by (apply rsum_nonneg; intros; left; apply H; right; assumption). unfold rsum in *. lra. Qed.
Lemma rsum_perm a b : Permutation a b -> rsum a = rsum b.
Proof. unfold rsum. induction 1; cbn; lra. Qed.
(** * the Cauchy-Schwarz inequality *)
Lemma square_nonneg x : 0 <= x * x.
Proof. pose proof (Rle_0_sqr x) as H. exact H. Qed.
Lemma cauchy_schwarz {A} (u v : A -> R) l : rsum (map (fun x => u x * v x) l) * rsum (map (fun x => u x * v x) l) <= rsum (map (fun x => u x * u x) l) * rsum (map (fun x => v x * v x) l).
Proof.
  set (S := rsum (map (fun x => u x * u x) l)). set (B := rsum (map (fun x => u x * v x) l)). set (C := rsum (map (fun x => v x * v x) l)).
  assert (forall t, 0 <= S + (-2 * t) * B + t * t * C) as P.
  { intros t. unfold S, B, C. rewrite <- !rsum_scale, <- !rsum_plus. apply rsum_nonneg. intros x _. replace (u x * u x + -2 * t * (u x * v x) + t * t * (v x * v x)) with ((u x - t * v x) * (u x - t * v x)) by ring. apply square_nonneg. }
  assert (0 <= C) as HC by (apply rsum_nonneg; intros; apply square_nonneg).
  destruct HC as [HC|HC].
  - specialize (P (B / C)). assert (S + -2 * (B / C) * B + B / C * (B / C) * C = (S * C - B * B) / C) as E by (field; lra). rewrite E in P.
    apply Rmult_le_compat_r with (r := C) in P; [|lra]. unfold Rdiv in P. rewrite Rmult_assoc, Rinv_l, Rmult_0_l, Rmult_1_r in P by lra. lra.
  - rewrite <- HC in *. rewrite Rmult_0_r. destruct (Req_dec B 0) as [E|E]; [rewrite E; lra|]. exfalso. specialize (P ((S + 1) / (2 * B))).
    assert (S + -2 * ((S + 1) / (2 * B)) * B + (S + 1) / (2 * B) * ((S + 1) / (2 * B)) * 0 = -1) as E' by (field; lra). lra.
Qed.
(** * the slope *)
Definition spread (t : R) (ps : list (R * R)) : R := rsum (map (fun p => wgt p * ((fst p - t) * (fst p - t))) ps).
Lemma wgt_pos p : 0 < snd p -> 0 < wgt p.
Proof. intros H. unfold wgt. apply Rdiv_lt_0_compat; [lra|]. apply Rmult_lt_0_compat; assumption. Qed.
Lemma weights_pos ps : ps <> [] -> uncertain ps -> 0 < rsum (map wgt ps).
Proof. intros N U. apply rsum_pos; [exact N|]. intros p Hp. apply wgt_pos, U, Hp. Qed.
Lemma spread_eq t ps : spread t ps = rsum (map (fun p => wgt p * (fst p * fst p)) ps) + (-2 * t) * rsum (map (fun p => wgt p * fst p) ps) + t * t * rsum (map wgt ps).
Proof. unfold spread. rewrite <- !rsum_scale, <- !rsum_plus. apply rsum_ext. intros p _. ring. Qed.
Definition centre (ps : list (R * R)) : R := rsum (map (fun p => wgt p * fst p) ps) / rsum (map wgt ps).
Lemma denom_spread ps : ps <> [] -> uncertain ps -> slope_denom ps = rsum (map wgt ps) * spread (centre ps) ps.
Proof. intros N U. pose proof (weights_pos ps N U) as W. rewrite spread_eq. unfold slope_denom, centre. field. lra. Qed.
Lemma spread_min t ps : ps <> [] -> uncertain ps -> spread (centre ps) ps <= spread t ps.
Proof.
  intros N U. pose proof (weights_pos ps N U) as W. rewrite !spread_eq. unfold centre. set (X := rsum (map (fun p => wgt p * fst p) ps)) in *. set (w := rsum (map wgt ps)) in *.
  assert (-2 * t * X + t * t * w - (-2 * (X / w) * X + X / w * (X / w) * w) = w * ((t - X / w) * (t - X / w))) as E by (field; lra). pose proof (square_nonneg (t - X / w)) as Q. assert (0 <= w * ((t - X / w) * (t - X / w))) by (apply Rmult_le_pos; lra). lra.
Qed.
Lemma spread_nonneg t ps : uncertain ps -> 0 <= spread t ps.
Proof. intros U. apply rsum_nonneg. intros p Hp. apply Rmult_le_pos; [left; apply wgt_pos, U, Hp|apply square_nonneg]. Qed.
Lemma spread_zero t ps : uncertain ps -> spread t ps = 0 -> forall p, In p ps -> fst p = t.
Proof.
  intros U E p Hp. pose proof (rsum_zero (fun p => wgt p * ((fst p - t) * (fst p - t))) ps) as Z. specialize (Z ltac:(intros x Hx; apply Rmult_le_pos; [left; apply wgt_pos, U, Hx|apply square_nonneg]) E p Hp).
  pose proof (wgt_pos p (U p Hp)). apply Rmult_integral in Z. destruct Z as [Z|Z]; [lra|]. apply Rmult_integral in Z. lra.
Qed.
Lemma sigma_slope_some ps s : uncertain ps -> sigma_slope ps = Some s -> ps <> [] /\ 0 < spread (centre ps) ps /\ s = sqrt (1 / spread (centre ps) ps).
Proof.
  intros U E. unfold sigma_slope in E. destruct (Rle_dec (slope_denom ps) 0) as [H|H]; [discriminate|]. assert (ps <> []) as N by (intros ->; apply H; unfold slope_denom; cbn; lra). split; [exact N|].
  pose proof (weights_pos ps N U) as W. pose proof (denom_spread ps N U) as D. pose proof (spread_nonneg (centre ps) ps U) as P. assert (0 < spread (centre ps) ps) as SP by (destruct P as [P|P]; [exact P|rewrite <- P in D; lra]). split; [exact SP|].
  injection E as <-. f_equal. rewrite D. field. lra.
Qed.
Lemma sigma_slope_some' ps : uncertain ps -> ps <> [] -> 0 < spread (centre ps) ps -> sigma_slope ps = Some (sqrt (1 / spread (centre ps) ps)).
Proof.
  intros U N SP. unfold sigma_slope. pose proof (weights_pos ps N U) as W. rewrite (denom_spread ps N U). destruct (Rle_dec _ 0) as [H|H]; [exfalso; assert (0 < rsum (map wgt ps) * spread (centre ps) ps) by (apply Rmult_lt_0_compat; assumption); lra|].
  do 2 f_equal. field. lra.
Qed.
Lemma sigma_slope_none ps : uncertain ps -> (sigma_slope ps = None <-> forall p q, In p ps -> In q ps -> fst p = fst q).
Proof.
  intros U. destruct ps as [|p0 ps0] eqn:Eps; [|rewrite <- Eps in *].
  - split; [intros _ p q []|]. intros _. unfold sigma_slope, slope_denom. cbn. destruct (Rle_dec _ 0); [reflexivity|exfalso; lra].
  - assert (ps <> []) as N by (rewrite Eps; discriminate). split.
    + intros E p q Hp Hq. destruct (spread_nonneg (centre ps) ps U) as [P|P]; [rewrite (sigma_slope_some' ps U N P) in E; discriminate|]. rewrite (spread_zero _ ps U (eq_sym P) p Hp), (spread_zero _ ps U (eq_sym P) q Hq). reflexivity.
    + intros H. destruct (sigma_slope ps) as [s|] eqn:E; [|reflexivity]. exfalso. destruct (sigma_slope_some ps s U E) as (_ & P & _). pose proof (spread_min (fst p0) ps N U) as M.
      assert (spread (fst p0) ps = 0); [|lra]. unfold spread. replace (map _ ps) with (map (fun _ : R * R => 0 * 0) ps); [rewrite rsum_scale; ring|]. apply map_ext_in. intros p Hp. rewrite (H p p0 Hp ltac:(rewrite Eps; left; reflexivity)). ring.
Qed.
(** the best linear unbiased estimate *)
Definition best (ps : list (R * R)) (p : R * R) : R := wgt p * (fst p - centre ps) / spread (centre ps) ps.
Lemma centre_zero ps : ps <> [] -> uncertain ps -> rsum (map (fun p => wgt p * (fst p - centre ps)) ps) = 0.
Proof.
  intros N U. pose proof (weights_pos ps N U) as W. rewrite (rsum_ext _ (fun p => wgt p * fst p + (- centre ps) * wgt p)) by (intros; ring). rewrite rsum_plus, rsum_scale. unfold centre. field. lra.
Qed.
Lemma best_unbiased ps : ps <> [] -> uncertain ps -> 0 < spread (centre ps) ps -> unbiased (map (fun p => (best ps p, p)) ps) /\ variance (map (fun p => (best ps p, p)) ps) = 1 / spread (centre ps) ps.
Proof.
  intros N U SP. unfold unbiased, variance, total. rewrite !map_map. cbn [fst snd]. fold rsum. set (V := spread (centre ps) ps) in *.
  change (fold_right Rplus 0) with rsum. pose proof (centre_zero ps N U) as CZ.
  assert (rsum (map (best ps) ps) = 0) as E1.
  { rewrite (rsum_ext _ (fun p => / V * (wgt p * (fst p - centre ps)))) by (intros; unfold best; fold V; field; lra). rewrite rsum_scale, CZ. ring. }
  split; [split; [exact E1|]|].
  - rewrite (rsum_ext _ (fun p => / V * (wgt p * ((fst p - centre ps) * (fst p - centre ps))) + centre ps * best ps p)) by (intros; unfold best; fold V; field; lra).
    rewrite rsum_plus, !rsum_scale, E1. fold (spread (centre ps) ps). fold V. field. lra.
  - rewrite (rsum_ext _ (fun p => / (V * V) * (wgt p * ((fst p - centre ps) * (fst p - centre ps))))).
    + rewrite rsum_scale. fold (spread (centre ps) ps). fold V. field. lra.
    + intros p Hp. pose proof (U p Hp). unfold best, wgt. fold V. field. split; lra.
Qed.
Lemma best_least ps l : ps <> [] -> uncertain ps -> 0 < spread (centre ps) ps -> map snd l = ps -> unbiased l -> 1 / spread (centre ps) ps <= variance l.
Proof.
  intros N U SP El [U1 U2]. set (V := spread (centre ps) ps) in *. unfold variance, total in *. change (fold_right Rplus 0) with rsum in *.
  pose proof (cauchy_schwarz (fun t : R * (R * R) => fst t * snd (snd t)) (fun t => (fst (snd t) - centre ps) / snd (snd t)) l) as CS. cbv beta in CS.
  assert (forall t, In t l -> 0 < snd (snd t)) as Ul by (intros t Ht; apply U; rewrite <- El; apply in_map, Ht).
  assert (rsum (map (fun t : R * (R * R) => fst t * snd (snd t) * ((fst (snd t) - centre ps) / snd (snd t))) l) = 1) as E1.
  { rewrite (rsum_ext _ (fun t => fst t * fst (snd t) + (- centre ps) * fst t)) by (intros t Ht; pose proof (Ul t Ht); field; lra). rewrite rsum_plus, rsum_scale. rewrite U2. rewrite U1. ring. }
  assert (rsum (map (fun t : R * (R * R) => (fst (snd t) - centre ps) / snd (snd t) * ((fst (snd t) - centre ps) / snd (snd t))) l) = V) as E2.
  { transitivity (rsum (map (fun p => wgt p * ((fst p - centre ps) * (fst p - centre ps))) (map snd l))); [|rewrite El; reflexivity]. rewrite map_map. apply rsum_ext. intros t Ht. pose proof (Ul t Ht). unfold wgt. field. lra. }
  rewrite E1, E2 in CS. apply Rmult_le_reg_r with V; [exact SP|]. unfold Rdiv. rewrite Rmult_assoc, Rinv_l by lra. lra.
Qed.
(** more points never make it larger *)
Lemma spread_app t ps qs : spread t (ps ++ qs) = spread t ps + spread t qs.
Proof. unfold spread. rewrite map_app, rsum_app. reflexivity. Qed.
Lemma spread_more ps qs : ps <> [] -> uncertain (ps ++ qs) -> spread (centre ps) ps <= spread (centre (ps ++ qs)) (ps ++ qs).
Proof.
  intros N U. assert (uncertain ps) as U1 by (intros p Hp; apply U, in_or_app; left; exact Hp). assert (uncertain qs) as U2 by (intros p Hp; apply U, in_or_app; right; exact Hp).
  rewrite spread_app. pose proof (spread_min (centre (ps ++ qs)) ps N U1). pose proof (spread_nonneg (centre (ps ++ qs)) qs U2). lra.
Qed.
Lemma spread_perm t ps qs : Permutation ps qs -> spread t ps = spread t qs.
Proof. intros P. apply rsum_perm, Permutation_map, P. Qed.
Lemma slope_denom_perm ps qs : Permutation ps qs -> slope_denom ps = slope_denom qs.
Proof. intros P. unfold slope_denom. rewrite !(rsum_perm _ _ (Permutation_map _ P)). reflexivity. Qed.
Lemma sigma_slope_perm ps qs : Permutation ps qs -> sigma_slope ps = sigma_slope qs.
Proof. intros P. unfold sigma_slope. rewrite (slope_denom_perm _ _ P), (rsum_perm _ _ (Permutation_map wgt P)). reflexivity. Qed.
Lemma sqrt_inv_le a b : 0 < a -> a <= b -> sqrt (1 / b) <= sqrt (1 / a).
Proof. intros Ha Hab. apply sqrt_le_1_alt. unfold Rdiv. apply Rmult_le_compat_l; [lra|]. apply Rinv_le_contravar; assumption. Qed.
Lemma sigma_slope_more ps qs s : uncertain (ps ++ qs) -> sigma_slope ps = Some s -> exists s', sigma_slope (ps ++ qs) = Some s' /\ s' <= s /\ 0 < s'.
Proof.
  intros U E. assert (uncertain ps) as U1 by (intros p Hp; apply U, in_or_app; left; exact Hp). destruct (sigma_slope_some ps s U1 E) as (N & P & ->). pose proof (spread_more ps qs N U) as M.
  eexists. split; [apply sigma_slope_some'; [exact U|destruct ps; [congruence|discriminate]|lra]|]. split; [apply sqrt_inv_le; assumption|]. apply sqrt_lt_R0. apply Rdiv_lt_0_compat; lra.
Qed.
