(** Lemmas about the evaluation of Chebyshev series. *)
From Verif Require Import Base Astrom_Model Cheby_Model Cheby_Spec.
From Coq Require Import Reals Lra Lia.
Open Scope R_scope.

(** T_k and its derivative, by the recurrence *)
Fixpoint TT (k : nat) (t : R) : R :=
  match k with O => 1 | S k' => match k' with O => t | S k'' => 2 * t * TT k' t - TT k'' t end end.
Fixpoint DD (k : nat) (t : R) : R :=
  match k with O => 0 | S k' => match k' with O => 1 | S k'' => 2 * t * DD k' t - DD k'' t + 2 * TT k' t end end.
Lemma TT_SS k t : TT (S (S k)) t = 2 * t * TT (S k) t - TT k t.
Proof. reflexivity. Qed.
Lemma DD_SS k t : DD (S (S k)) t = 2 * t * DD (S k) t - DD k t + 2 * TT (S k) t.
Proof. reflexivity. Qed.
Lemma two_step (P : nat -> Prop) : P O -> P 1%nat -> (forall k, P k -> P (S k) -> P (S (S k))) -> forall k, P k.
Proof. intros H0 H1 H k. assert (P k /\ P (S k)) as []; [|assumption]. induction k as [|k [A B]]; split; auto. Qed.
Lemma two_step_list {A} (P : list A -> Prop) :
  P [] -> (forall a, P [a]) -> (forall a b l, P l -> P (a :: b :: l)) -> forall l, P l.
Proof.
  intros H0 H1 H l. assert (P l /\ forall a, P (a :: l)) as []; [|assumption].
  induction l as [|b l [A0 B0]]; split; auto.
Qed.
Lemma TT_cos theta : forall k, TT k (cos theta) = cos (INR k * theta).
Proof.
  apply two_step.
  - cbn. rewrite Rmult_0_l, cos_0. reflexivity.
  - cbn. f_equal. ring.
  - intros k IH0 IH1. rewrite TT_SS, IH0, IH1, !S_INR.
    replace ((INR k + 1 + 1) * theta) with ((INR k + 1) * theta + theta) by ring.
    replace (INR k * theta) with ((INR k + 1) * theta - theta) by ring.
    rewrite cos_plus, cos_minus. ring.
Qed.
Lemma TT_lim t : forall k, derivable_pt_lim (TT k) t (DD k t).
Proof.
  apply two_step.
  - apply (derivable_pt_lim_const 1).
  - apply derivable_pt_lim_id.
  - intros k IH0 IH1. rewrite DD_SS.
    replace (2 * t * DD (S k) t - DD k t + 2 * TT (S k) t) with
      ((2 * TT (S k) t + 2 * t * DD (S k) t) - DD k t) by ring.
    apply (derivable_pt_lim_minus (fun t => 2 * t * TT (S k) t) (TT k)); [|exact IH0].
    apply (derivable_pt_lim_mult (fun t => 2 * t) (TT (S k))); [|exact IH1].
    pose proof (derivable_pt_lim_scal id 2 t 1 (derivable_pt_lim_id t)) as H. rewrite Rmult_1_r in H. exact H.
Qed.

(** the series from T_k on, and its derivative *)
Fixpoint ser (f : nat -> R -> R) (k : nat) (p : list R) (t : R) : R :=
  match p with [] => 0 | c :: rest => c * f k t + ser f (S k) rest t end.
Lemma ser_nth f t : forall p k, ser f k p t = sumn (length p) (fun i => nth i p 0 * f (k + i)%nat t).
Proof.
  unfold sumn. induction p as [|c p IH]; intros k; [reflexivity|].
  cbn [ser length]. rewrite IH. cbn [seq map rsum fold_right nth]. rewrite Nat.add_0_r. f_equal.
  rewrite <- seq_shift, map_map. apply (f_equal rsum). apply map_ext. intros i. cbn [nth]. f_equal. f_equal. lia.
Qed.
Lemma vel_loop_ser t p : forall k y v,
  vel_loop (2 * t) p y v (TT k t) (TT (S k) t) (DD k t) (DD (S k) t) = (y + ser TT k p t, v + ser DD k p t).
Proof.
  induction p as [|c|c d p IH] using two_step_list; intros k y v.
  - cbn. f_equal; ring.
  - cbn [vel_loop ser]. f_equal; ring.
  - cbn [vel_loop]. rewrite <- TT_SS.
    replace (2 * t * TT (S (S k)) t - TT (S k) t) with (TT (S (S (S k))) t) by reflexivity.
    rewrite <- DD_SS.
    replace (2 * t * DD (S (S k)) t - DD (S k) t + 2 * TT (S (S k)) t) with (DD (S (S (S k))) t) by reflexivity.
    rewrite IH. cbn [ser]. f_equal; ring.
Qed.
Lemma pos_loop_ser t p : forall k y, pos_loop (2 * t) p y (TT k t) (TT (S k) t) = y + ser TT k p t.
Proof.
  induction p as [|c|c d p IH] using two_step_list; intros k y.
  - cbn. ring.
  - cbn [pos_loop ser]. ring.
  - cbn [pos_loop]. rewrite <- TT_SS.
    replace (2 * t * TT (S (S k)) t - TT (S k) t) with (TT (S (S (S k))) t) by reflexivity.
    rewrite IH. cbn [ser]. ring.
Qed.
Lemma cheb_yv_ser a b x p : cheb_yv a b x p = (ser TT 0 p (scaled a b x), ser DD 0 p (scaled a b x)).
Proof. unfold cheb_yv. pose proof (vel_loop_ser (scaled a b x) p 0 0 0) as H. cbn [TT DD] in H. rewrite H. f_equal; ring. Qed.
Lemma cheb_y_ser a b x p : cheb_y a b x p = ser TT 0 p (scaled a b x).
Proof. unfold cheb_y. pose proof (pos_loop_ser (scaled a b x) p 0 0) as H. cbn [TT] in H. rewrite H. ring. Qed.
Lemma ser_cos theta : forall p k, ser TT k p (cos theta) = cos_series k p theta.
Proof. induction p as [|c p IH]; intros k; [reflexivity|]. cbn [ser cos_series]. rewrite IH, TT_cos. reflexivity. Qed.
Lemma ser_lim t : forall p k, derivable_pt_lim (ser TT k p) t (ser DD k p t).
Proof.
  induction p as [|c p IH]; intros k; [apply (derivable_pt_lim_const 0)|].
  cbn [ser]. apply (derivable_pt_lim_plus (fun t => c * TT k t) (ser TT (S k) p)); [|apply IH].
  apply (derivable_pt_lim_scal (TT k)). apply TT_lim.
Qed.
Lemma scaled_lim a b x : a <> b -> derivable_pt_lim (scaled a b) x (2 / (b - a)).
Proof.
  intros H. unfold scaled. unfold derivable_pt_lim. intros eps He. exists (mkposreal 1 Rlt_0_1). intros h Hh _.
  replace (((2 * (x + h) - a - b) / (b - a) - (2 * x - a - b) / (b - a)) / h - 2 / (b - a)) with 0
    by (field; split; [lra|assumption]).
  rewrite Rabs_R0. exact He.
Qed.
Lemma eval_lim a b x p : a <> b -> derivable_pt_lim (fun u => ser TT 0 p (scaled a b u)) x (2 * ser DD 0 p (scaled a b x) / (b - a)).
Proof.
  intros H. replace (2 * ser DD 0 p (scaled a b x) / (b - a)) with (ser DD 0 p (scaled a b x) * (2 / (b - a)))
    by (field; lra).
  apply (derivable_pt_lim_comp (scaled a b) (ser TT 0 p)); [apply scaled_lim; exact H|apply ser_lim].
Qed.
Lemma scaled_range a b x : a < b -> a <= x <= b -> -1 <= scaled a b x <= 1.
Proof.
  intros H [H1 H2]. unfold scaled. split.
  - apply (Rmult_le_reg_r (b - a)); [lra|]. unfold Rdiv. rewrite Rmult_assoc, Rinv_l by lra. lra.
  - apply (Rmult_le_reg_r (b - a)); [lra|]. unfold Rdiv. rewrite Rmult_assoc, Rinv_l by lra. lra.
Qed.
Lemma outside_false a b x : a <= x <= b -> outside a b x = false.
Proof. intros H. unfold outside. destruct (Rlt_dec x a); [lra|]. destruct (Rlt_dec b x); [lra|reflexivity]. Qed.
Lemma outside_true a b x : x < a \/ b < x -> outside a b x = true.
Proof. intros H. unfold outside. destruct (Rlt_dec x a); [reflexivity|]. destruct (Rlt_dec b x); [reflexivity|lra]. Qed.

(** * C206 *)
Lemma series_ok a b theta p dv mask : a < b ->
  exists v, chebeval ((a + b) / 2 + (b - a) / 2 * cos theta) p [a; b] dv mask = Ok (Some (cos_series 0 p theta), v).
Proof.
  intros H. set (x := (a + b) / 2 + (b - a) / 2 * cos theta).
  assert (Hs : scaled a b x = cos theta) by (unfold scaled, x; field; lra).
  assert (Hx : a <= x <= b).
  { pose proof (COS_bound theta) as [C1 C2]. unfold x. split; nra. }
  unfold chebeval. rewrite cheb_yv_ser, cheb_y_ser, Hs, ser_cos. cbn [fst snd]. unfold masked.
  rewrite (outside_false _ _ _ Hx), Bool.andb_false_r. destruct dv; eexists; reflexivity.
Qed.
Lemma velocity_ok a b x p mask y v : a < b -> chebeval x p [a; b] true mask = Ok (Some y, Some (Some v)) ->
  chebeval x p [a; b] false mask = Ok (Some y, None) /\
  derivable_pt_lim (value_at a b p) x v.
Proof.
  intros H E. unfold chebeval in *. rewrite cheb_yv_ser in E. rewrite cheb_y_ser. cbn [fst snd] in E.
  unfold masked in *. destruct (mask && outside a b x)%bool; [discriminate|]. cbn [option_map] in E.
  injection E as E1 E2. subst y v. split; [reflexivity|].
  assert (X : forall u, value_at a b p u = ser TT 0 p (scaled a b u)).
  { intros u. unfold value_at, chebeval. rewrite cheb_y_ser. reflexivity. }
  intros eps He. destruct (eval_lim a b x p ltac:(lra) eps He) as [d Hd]. exists d. intros h Hh Hl. rewrite !X. apply Hd; assumption.
Qed.
Lemma mask_ok a b x p dv : a < b ->
  (x < a \/ b < x -> chebeval x p [a; b] dv true = Ok (None, if dv then Some None else None)) /\
  (a <= x <= b -> chebeval x p [a; b] dv true = chebeval x p [a; b] dv false).
Proof.
  intros H. split; intros Hx; unfold chebeval, masked; [rewrite (outside_true _ _ _ Hx)|rewrite (outside_false _ _ _ Hx)];
    destruct dv; reflexivity.
Qed.
Lemma chebeval_total x p iv dv : length iv = 2%nat -> exists y v, chebeval x p iv dv false = Ok (Some y, v) /\ (v = None <-> dv = false).
Proof.
  intros H. destruct iv as [|a [|b [|c iv]]]; try discriminate. unfold chebeval, masked. cbn [andb].
  destruct dv; eexists; eexists; (split; [reflexivity|]); split; intros E; try discriminate; reflexivity.
Qed.
