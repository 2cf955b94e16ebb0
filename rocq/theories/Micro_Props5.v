(** The information of light curves and the uncertainty of the crossing time: property C366. *)
From Coq Require Import String Reals Lra Lia List Bool Psatz Sorted.
From Verif Require Import Base Plane_Spec Micro_Model Micro_Spec Micro_Props Micro_Props2 Micro_Proofs Micro_Props3 Micro_Props4 Web_Spec.
From Verif Require Web_Model Web_Proofs.
Import ListNotations.
Open Scope R_scope.

Lemma both_halves_eq d i j : both_halves d i j = nth i d 0 * nth j d 0.
Proof.
  unfold both_halves, upper. destruct (Nat.eqb_spec i j) as [->|N]; [ rewrite Nat.leb_refl; ring | ].
  destruct (Nat.leb_spec i j), (Nat.leb_spec j i); try lia; ring.
Qed.
Definition weight (t0 te u0 fs fb : R) (p : R * R) : R := / flux_error (fst p) t0 te u0 fs fb (snd p) ^ 2.
Lemma weight_nonneg t0 te u0 fs fb p : 0 <= weight t0 te u0 fs fb p.
Proof.
  unfold weight. set (e := flux_error (fst p) t0 te u0 fs fb (snd p)). destruct (Req_dec e 0) as [->|N].
  - rewrite pow_i, Rinv_0 by lia. lra.
  - apply Rlt_le, Rinv_0_lt_compat. rewrite <- Rsqr_pow2. apply Rsqr_pos_lt, N.
Qed.
Lemma fisher_cons n t0 te u0 fs fb p l i j : fisher_matrix n t0 te u0 fs fb (p :: l) i j =
  nth i (derivatives n (fst p) t0 te u0 fs) 0 * nth j (derivatives n (fst p) t0 te u0 fs) 0 * weight t0 te u0 fs fb p + fisher_matrix n t0 te u0 fs fb l i j.
Proof. unfold fisher_matrix. cbn [fold_right]. rewrite both_halves_eq. reflexivity. Qed.
(** ** C366: the information matrix is symmetric and non-negative, the sum over the visits of the products of the derivatives of the flux by two
    of the peak time, the impact parameter and the crossing time, divided by the squared error *)
Theorem C366_symmetric n t0 te u0 fs fb l i j : fisher_matrix n t0 te u0 fs fb l i j = fisher_matrix n t0 te u0 fs fb l j i.
Proof. induction l as [|p l IH]; [ reflexivity | ]. rewrite !fisher_cons, IH. ring. Qed.
Print Assumptions C366_symmetric.
Lemma sum_prod (a b : nat -> R) k : sum_f_R0 (fun i => sum_f_R0 (fun j => a i * b j) k) k = sum_f_R0 a k * sum_f_R0 b k.
Proof.
  transitivity (sum_f_R0 (fun i => a i * sum_f_R0 b k) k).
  - apply sum_eq. intros i _. rewrite scal_sum. apply sum_eq. intros; ring.
  - rewrite Rmult_comm, scal_sum. reflexivity.
Qed.
Theorem C366_nonnegative n t0 te u0 fs fb l (w : nat -> R) k :
  0 <= sum_f_R0 (fun i => sum_f_R0 (fun j => w i * w j * fisher_matrix n t0 te u0 fs fb l i j) k) k.
Proof.
  induction l as [|p l IH].
  - right. symmetry. rewrite <- (Rmult_0_l (INR (S k))). rewrite <- (sum_cte 0 k). apply sum_eq. intros i _. rewrite <- (Rmult_0_l (INR (S k))), <- (sum_cte 0 k).
    apply sum_eq. intros j _. unfold fisher_matrix. cbn [fold_right]. ring.
  - set (d := derivatives n (fst p) t0 te u0 fs) in *. set (c := weight t0 te u0 fs fb p).
    replace (sum_f_R0 (fun i => sum_f_R0 (fun j => w i * w j * fisher_matrix n t0 te u0 fs fb (p :: l) i j) k) k)
      with (sum_f_R0 (fun i => w i * nth i d 0) k * sum_f_R0 (fun j => w j * nth j d 0) k * c +
            sum_f_R0 (fun i => sum_f_R0 (fun j => w i * w j * fisher_matrix n t0 te u0 fs fb l i j) k) k).
    + assert (0 <= c) by apply weight_nonneg. set (q := sum_f_R0 (fun i => w i * nth i d 0) k). assert (0 <= q * q) by nra.
      assert (0 <= q * q * c) by (apply Rmult_le_pos; assumption). lra.
    + rewrite <- sum_prod. rewrite Rmult_comm, scal_sum, <- plus_sum. apply sum_eq. intros i _. rewrite Rmult_comm, scal_sum, <- plus_sum. apply sum_eq. intros j _.
      rewrite fisher_cons. fold d c. ring.
Qed.
Print Assumptions C366_nonnegative.
Lemma nth_pspl n t t0 te u0 fs a b c i : coefficients_pspl t t0 te u0 fs = [a; b; c] -> nth i (derivatives n t t0 te u0 fs) 0 = nth i [a; b; c] 0.
Proof.
  intro E. unfold derivatives. rewrite E. destruct i as [|[|[|i]]]; try reflexivity.
  change (nth i (repeat 0 (2 * n)) 0 = nth i [] 0). transitivity 0; [ apply nth_repeat | destruct i; reflexivity ].
Qed.
Theorem C366_information n t0 te u0 fs fb l t snr : te <> 0 -> u0 <> 0 \/ t <> t0 ->
  exists d, derivable_pt_lim (fun y => fs * amplification u0 te y 1 t + fb) t0 (d 0%nat) /\
            derivable_pt_lim (fun y => fs * amplification y te t0 1 t + fb) u0 (d 1%nat) /\
            derivable_pt_lim (fun y => fs * amplification u0 y t0 1 t + fb) te (d 2%nat) /\
    forall i j, fisher_matrix n t0 te u0 fs fb ((t, snr) :: l) i j =
      (if (i <? 3)%nat && (j <? 3)%nat then d i * d j / ((fs * amplification u0 te t0 1 t + fb) / snr) ^ 2 else 0) + fisher_matrix n t0 te u0 fs fb l i j.
Proof.
  intros N H. destruct (C362_derivatives t t0 te u0 fs fb N H) as (a & b & c & E & D0 & D1 & D2).
  exists (fun i => nth i [a; b; c] 0). split; [ exact D0 | split; [ exact D1 | split; [ exact D2 | ] ] ].
  intros i j. rewrite fisher_cons. f_equal. cbn [fst]. rewrite !(nth_pspl n t t0 te u0 fs a b c _ E).
  assert (W : weight t0 te u0 fs fb (t, snr) = / ((fs * amplification u0 te t0 1 t + fb) / snr) ^ 2).
  { unfold weight, flux_error. cbn [fst snd]. rewrite amplification_curve. unfold curve.
    pose proof (inner_pos u0 te t0 t N H) as P. replace ((t - t0) ^ 2 / te ^ 2 + u0 ^ 2) with (u0 ^ 2 + (t - t0) ^ 2 / te ^ 2) by ring.
    rewrite <- sqrt_mult by lra. f_equal. f_equal. f_equal. ring. }
  rewrite W. destruct (Nat.ltb_spec i 3), (Nat.ltb_spec j 3); cbn [andb]; try reflexivity;
    repeat match goal with K : (3 <= ?x)%nat |- _ => rewrite (nth_overflow [a; b; c] 0 K) in *; clear K end; unfold Rdiv; ring.
Qed.
Print Assumptions C366_information.
(** a case *)
Example C366_case : 0 < fisher_matrix 1 10 10 1 24 24 [(5, 7)] 2 2.
Proof.
  rewrite fisher_cons. cbn [fst]. unfold fisher_matrix. cbn [fold_right]. rewrite Rplus_0_r.
  assert (P : 0 < 1 ^ 2 + (5 - 10) ^ 2 / 10 ^ 2) by lra. pose proof (coefficients_slope 5 10 10 1 24 ltac:(lra) P) as E. cbv zeta in E.
  rewrite (nth_pspl _ _ _ _ _ _ _ _ _ 2 E). cbn [nth]. set (x := 1 ^ 2 + (5 - 10) ^ 2 / 10 ^ 2) in *.
  assert (S : slope x <> 0).
  { unfold slope. assert (0 < sqrt x) by (apply sqrt_lt_R0; lra). assert (0 < sqrt (x + 4)) by (apply sqrt_lt_R0; lra).
    apply Rmult_integral_contrapositive. split; [ lra | ]. apply Rinv_neq_0_compat, Rgt_not_eq. repeat apply Rmult_lt_0_compat; lra. }
  assert (W : 0 < weight 10 10 1 24 24 (5, 7)).
  { unfold weight, flux_error. cbn [fst snd]. apply Rinv_0_lt_compat. rewrite <- Rsqr_pow2. apply Rsqr_pos_lt.
    assert (0 < (5 - 10) ^ 2 / 10 ^ 2 + 1 ^ 2) by lra. set (y := (5 - 10) ^ 2 / 10 ^ 2 + 1 ^ 2) in *.
    assert (0 < sqrt (y * (y + 4))) by (apply sqrt_lt_R0; nra). assert (0 < (y + 2) / sqrt (y * (y + 4))) by (apply Rdiv_lt_0_compat; lra). lra. }
  apply Rmult_lt_0_compat; [ | exact W ]. replace (-2 * (5 - 10) ^ 2 / 10 ^ 3) with (- (1 / 20)) by lra.
  assert (0 < slope x * slope x) by (apply Rsqr_pos_lt in S; exact S). nra.
Qed.
(** The documentation says that the matrix has the derivatives by the fluxes too: their rows and columns are zero *)
Theorem C366_no_fluxes n t0 te u0 fs fb l i j : (3 <= i)%nat \/ (3 <= j)%nat -> fisher_matrix n t0 te u0 fs fb l i j = 0.
Proof.
  intro H. induction l as [|p l IH]; [ reflexivity | ]. rewrite fisher_cons, IH.
  destruct (coefficients_pspl (fst p) t0 te u0 fs) as [|a [|b [|c [|? ?]]]] eqn:E; try discriminate. rewrite !(nth_pspl n _ _ _ _ _ a b c _ E).
  destruct H as [H|H]; rewrite (nth_overflow [a; b; c] 0 H); ring.
Qed.
Print Assumptions C366_no_fluxes.
Theorem C366_fluxes_refuted : exists n t0 te u0 fs fb t snr d, te <> 0 /\ u0 <> 0 /\ 0 < snr /\
  derivable_pt_lim (fun y => fs * amplification u0 te t0 1 t + y) fb d /\
  fisher_matrix n t0 te u0 fs fb [(t, snr)] 4 4 <> d * d / ((fs * amplification u0 te t0 1 t + fb) / snr) ^ 2.
Proof.
  exists 1%nat, 10, 10, 1, 24, 24, 5, 7, 1. repeat split; try lra.
  - destruct (C362_fluxes 5 10 10 1 24 24 ltac:(lra) (or_introl R1_neq_R0)) as [D _]. exact D.
  - rewrite C366_no_fluxes by (left; lia). pose proof (C361_point_lens 1 10 10 5 ltac:(lra) (or_introl R1_neq_R0)) as [G _].
    set (q := (24 * amplification 1 10 10 1 5 + 24) / 7). assert (0 < q) by (unfold q; lra). assert (0 < q ^ 2) by (apply pow_lt; assumption).
    pose proof (Rinv_0_lt_compat _ H0). unfold Rdiv. lra.
Qed.
Print Assumptions C366_fluxes_refuted.

(** ** The result *)
Lemma bands_points M first l : bands (map (point_of M first) l) = Web_Model.unique (map v_band l).
Proof. unfold bands. rewrite map_map. reflexivity. Qed.
Lemma last_max l d : StronglySorted TextLt l -> forall y, In y l -> y = last l d \/ TextLt y (last l d).
Proof.
  induction 1 as [|x l S IH F]; intros y I; [ contradiction | ]. destruct l as [|z l]; [ destruct I as [->|[]]; left; reflexivity | ].
  change (last (x :: z :: l) d) with (last (z :: l) d). destruct I as [<-|I]; [ right | apply IH, I ].
  rewrite Forall_forall in F. destruct (IH z (or_introl eq_refl)) as [E|E]; [ rewrite <- E; apply F; left; reflexivity | ].
  apply (Web_Proofs.textlt_trans _ z); [ apply F; left; reflexivity | exact E ].
Qed.
(** only the visits of the band that is last in the alphabet are used: more visits in other bands, not before the first, change nothing *)
Theorem C366_other_bands inv mags b detect sp l k first M : First l first -> Lit mags sp (l ++ k) first M ->
  (forall v, In v k -> (exists w, In w l /\ v_band w = v_band v) /\ (exists w, In w l /\ TextLt (v_band v) (v_band w))) ->
  run_fisher inv mags b detect sp (l ++ k) = run_fisher inv mags b detect sp l.
Proof.
  intros F Li H. assert (Li0 : Lit mags sp l first M) by (split; [ exact F | intros v I; apply Li, in_or_app; auto ]).
  destruct (points_shows mags sp l first M F (proj2 Li0)) as (e & u0 & te & t0 & Po & Re & _).
  destruct (points_shows mags sp (l ++ k) first M (proj1 Li) (proj2 Li)) as (e' & u0' & te' & t0' & Po' & Re' & _).
  rewrite Re in Re'. injection Re' as <-. unfold run_fisher. rewrite Po, Po'. cbn [bind]. clear Po Po'.
  assert (B : bands (map (point_of M first) (l ++ k)) = bands (map (point_of M first) l)).
  { rewrite !bands_points. apply (Web_Proofs.sorted_same TextLt); [ apply Web_Proofs.textlt_irrefl | intros x y z A; apply (Web_Proofs.textlt_trans _ _ A) | | | ];
      try apply Web_Proofs.unique_sorted. intro x. rewrite !Web_Proofs.unique_in, map_app, in_app_iff. split; [ | auto ].
    intros [I|I]; [ exact I | ]. apply in_map_iff in I. destruct I as (v & <- & I). destruct (H v I) as [(w & Iw & <-) _]. apply in_map, Iw. }
  assert (U : used (map (point_of M first) (l ++ k)) = used (map (point_of M first) l)).
  { unfold used. rewrite B. rewrite map_app. unfold of_band. rewrite filter_app. f_equal.
    rewrite <- (app_nil_r (filter _ (map (point_of M first) l))) at 2. f_equal.
    set (z := last (bands (map (point_of M first) l)) EmptyString).
    assert (Z : forall v, In v k -> v_band v <> z).
    { intros v I E. destruct (H v I) as [_ (w & Iw & T)]. rewrite E in T.
      assert (Q : v_band w = z \/ TextLt (v_band w) z).
      { apply last_max; rewrite bands_points; [ apply Web_Proofs.unique_sorted | apply Web_Proofs.unique_in, in_map, Iw ]. }
      destruct Q as [Q|Q]; [ rewrite Q in T | pose proof (Web_Proofs.textlt_trans _ _ T _ Q) as T2; clear T; rename T2 into T ]; apply (Web_Proofs.textlt_irrefl _ T). }
    clearbody z. clear -Z. induction k as [|v k IH]; [ reflexivity | ]. cbn [map filter]. cbn [point_of o_band].
    destruct (String.eqb_spec (v_band v) z) as [E|_]; [ exfalso; apply (Z v (or_introl eq_refl) E) | ]. apply IH. intros; apply Z; right; assumption. }
  rewrite B, U. reflexivity.
Qed.
Print Assumptions C366_other_bands.
(** a case: more visits in g beside those in r *)
Definition six : list lens_visit := [at_day 0 30 "g"; at_day 9 30 "r"; at_day 10 30 "r"; at_day 11 30 "r"].
Example C366_bands_case : First six 0 /\ Lit mags1 sp1 (six ++ [at_day 3 30 "g"]) 0 M1 /\
  (exists w, In w six /\ v_band w = "g"%string) /\ (exists w, In w six /\ TextLt "g" (v_band w)).
Proof.
  repeat split.
  - exists (at_day 0 30 "g"). split; [ left | ]; reflexivity.
  - intros v I; cbn in I; intuition (subst; cbn; lra).
  - exists (at_day 0 30 "g"). split; [ left | ]; reflexivity.
  - intros v I; cbn in I; intuition (subst; cbn; lra).
  - intros v I. apply shows1. cbn in I; intuition (subst; cbn; auto).
  - exists (at_day 0 30 "g"). split; [ left | ]; reflexivity.
  - exists (at_day 9 30 "r"). split; [ right; left; reflexivity | ]. apply Web_Proofs.compare_lt. reflexivity.
Qed.
(** The result for visits in one band: the square root of the first variance, that of the peak time, divided by the crossing time *)
Theorem C366_result inv mags b detect sp l first M u0 te t0 f m : Lit mags sp l first M -> Parameters sp u0 te t0 -> Allowed detect b ->
  NoEntry sp "apparent_m_no_blend_u" -> Entry mags f m -> (forall v, In v l -> v_band v = f) ->
  forall F, F = fisher_matrix 1 t0 te u0 m m (map (fun v => (v_mjd v - first, Ratio (M v) (v_m5 v))) l) ->
  F 0%nat 0%nat <> 0 -> F 1%nat 1%nat <> 0 -> F 2%nat 2%nat <> 0 ->
  run_fisher inv mags b detect sp l =
    match inv [[F 0%nat 0%nat; F 0%nat 1%nat; F 0%nat 2%nat]; [F 1%nat 0%nat; F 1%nat 1%nat; F 1%nat 2%nat]; [F 2%nat 0%nat; F 2%nat 1%nat; F 2%nat 2%nat]] with
    | None => Ok None
    | Some ((x :: _) :: _) => Ok (Some (sqrt x / te))
    | Some _ => Err IndexError
    end.
Proof.
  intros [Fi Sh] (Pu & Pc & Pp) A NE Em Hf F EF N0 N1 N2.
  destruct (points_shows mags sp l first M Fi Sh) as (e & u1 & c1 & p1 & Po & Re & Eu & Ec & Ep & Ku & Kc & Kp).
  rewrite <- (entry_unique _ _ _ _ Pu Ku) in Eu. rewrite <- (entry_unique _ _ _ _ Pc Kc) in Ec. rewrite <- (entry_unique _ _ _ _ Pp Kp) in Ep.
  unfold run_fisher. rewrite (allowed_ok _ _ A). cbn [bind]. rewrite Po. cbn [bind].
  assert (B : bands (map (point_of M first) l) = [f]).
  { rewrite bands_points. apply (Web_Proofs.sorted_same TextLt); [ apply Web_Proofs.textlt_irrefl | intros x y z T; apply (Web_Proofs.textlt_trans _ _ T) | | | ].
    - apply Web_Proofs.unique_sorted.
    - repeat constructor.
    - intro x. rewrite Web_Proofs.unique_in, in_map_iff. destruct Fi as [(v & I & _) _]. split.
      + intros (w & <- & Iw). left. symmetry. apply Hf, Iw.
      + intros [<-|[]]. exists v. split; [ apply Hf, I | exact I ]. }
  rewrite B. cbn [length add_bands]. unfold fs_fb.
  assert (O : ev_own e = None).
  { unfold read, lookup in Re. apply noentry_get in NE. apply entry_get in Ku, Kc, Kp. rewrite Ku, Kc, Kp in Re. cbn [bind] in Re. injection Re as <-. cbn [ev_own].
    unfold no_blend_key. cbn [append]. rewrite NE. reflexivity. }
  rewrite O. unfold lookup. rewrite (proj1 (entry_get _ _ _) Em). cbn [bind fst snd]. rewrite Eu, Ec, Ep.
  assert (U : used (map (point_of M first) l) = map (fun v => (v_mjd v - first, Ratio (M v) (v_m5 v))) l).
  { unfold used. rewrite B. cbn [last]. unfold of_band. clear -Hf. induction l as [|v l IH]; [ reflexivity | ]. cbn [map filter]. cbn [point_of o_band].
    rewrite (Hf v (or_introl eq_refl)), String.eqb_refl. cbn [map]. rewrite IH by (intros; apply Hf; right; assumption). reflexivity. }
  rewrite U, <- EF. set (G := fun i j => 0 + F i j).
  assert (GF : forall i j, G i j = F i j) by (intros; unfold G; ring).
  assert (Z3 : F 3%nat 3%nat = 0) by (rewrite EF; apply C366_no_fluxes; left; lia). assert (Z4 : F 4%nat 4%nat = 0) by (rewrite EF; apply C366_no_fluxes; left; lia).
  assert (K : kept 5 G = [0; 1; 2]%nat).
  { unfold kept. cbn [seq filter]. rewrite !GF.
    destruct (Req_EM_T (F 0%nat 0%nat) 0); [ contradiction | ]. destruct (Req_EM_T (F 1%nat 1%nat) 0); [ contradiction | ]. destruct (Req_EM_T (F 2%nat 2%nat) 0); [ contradiction | ].
    destruct (Req_EM_T (F 3%nat 3%nat) 0); [ | contradiction ]. destruct (Req_EM_T (F 4%nat 4%nat) 0); [ | contradiction ]. reflexivity. }
  change (2 * 1 + 3)%nat with 5%nat. unfold submatrix. rewrite K. cbn [map]. rewrite !GF.
  destruct (inv _) as [[|[|x r] cov]|]; reflexivity.
Qed.
Print Assumptions C366_result.
