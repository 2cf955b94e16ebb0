(** Lemmas about dust laws, interpolation and the cache of spectra. *)
From Verif Require Import Base Astrom_Model MoMag_Model Astrom_Proofs MoMag_Proofs Resample_Model Resample_Spec Resample_Proofs Resample_Proofs3 Phot_Model Phot_Spec Phot_Proofs Phot_Proofs2 Sed_Model Sed_Spec.
From Coq Require Import Reals Lra Lia QArith Qreals Qminmax.
Open Scope R_scope.

(** bounds of polynomials on intervals, with rational numbers *)
Definition ival := (Q * Q)%type.
Definition within (x : R) (i : ival) : Prop := Q2R (fst i) <= x <= Q2R (snd i).
Definition imul (a b : ival) : ival :=
  let p := (fst a * fst b)%Q in let q := (fst a * snd b)%Q in let r := (snd a * fst b)%Q in let s := (snd a * snd b)%Q in
  (Qmin (Qmin p q) (Qmin r s), Qmax (Qmax p q) (Qmax r s)).
Definition iadd (c : Q) (a : ival) : ival := (Qred (c + fst a), Qred (c + snd a)).
Fixpoint ihorner (cs : list Q) (y : ival) : ival := match cs with [] => (0%Q, 0%Q) | c :: t => iadd c (imul y (ihorner t y)) end.
Lemma Q2R_le a b : (a <= b)%Q -> Q2R a <= Q2R b. Proof. apply Qle_Rle. Qed.
Lemma mul_within x y a b : within x a -> within y b -> within (x * y) (imul a b).
Proof.
  destruct a as [l h], b as [m n]. unfold within, imul; cbn [fst snd]. intros [A B] [C D].
  set (p := (l * m)%Q). set (q := (l * n)%Q). set (r := (h * m)%Q). set (s := (h * n)%Q).
  assert (Q2R (Qmin (Qmin p q) (Qmin r s)) <= Q2R l * Q2R m /\ Q2R (Qmin (Qmin p q) (Qmin r s)) <= Q2R l * Q2R n /\
          Q2R (Qmin (Qmin p q) (Qmin r s)) <= Q2R h * Q2R m /\ Q2R (Qmin (Qmin p q) (Qmin r s)) <= Q2R h * Q2R n) as (L1 & L2 & L3 & L4).
  { rewrite <- !Q2R_mult. fold p q r s. repeat split; apply Q2R_le.
    - eapply Qle_trans; [apply Q.le_min_l|apply Q.le_min_l].
    - eapply Qle_trans; [apply Q.le_min_l|apply Q.le_min_r].
    - eapply Qle_trans; [apply Q.le_min_r|apply Q.le_min_l].
    - eapply Qle_trans; [apply Q.le_min_r|apply Q.le_min_r]. }
  assert (Q2R l * Q2R m <= Q2R (Qmax (Qmax p q) (Qmax r s)) /\ Q2R l * Q2R n <= Q2R (Qmax (Qmax p q) (Qmax r s)) /\
          Q2R h * Q2R m <= Q2R (Qmax (Qmax p q) (Qmax r s)) /\ Q2R h * Q2R n <= Q2R (Qmax (Qmax p q) (Qmax r s))) as (U1 & U2 & U3 & U4).
  { rewrite <- !Q2R_mult. fold p q r s. repeat split; apply Q2R_le.
    - eapply Qle_trans; [apply Q.le_max_l|apply Q.le_max_l].
    - eapply Qle_trans; [apply Q.le_max_r|apply Q.le_max_l].
    - eapply Qle_trans; [apply Q.le_max_l|apply Q.le_max_r].
    - eapply Qle_trans; [apply Q.le_max_r|apply Q.le_max_r]. }
  set (lo := Q2R (Qmin (Qmin p q) (Qmin r s))) in *. set (hi := Q2R (Qmax (Qmax p q) (Qmax r s))) in *. clearbody lo hi.
  set (L := Q2R l) in *. set (H := Q2R h) in *. set (M := Q2R m) in *. set (N := Q2R n) in *. clearbody L H M N.
  assert (forall c, M <= c <= N -> lo <= L * c <= hi) as EL. { intros c K. destruct (Rle_dec 0 L); split; nra. }
  assert (forall c, M <= c <= N -> lo <= H * c <= hi) as EH. { intros c K. destruct (Rle_dec 0 H); split; nra. }
  specialize (EL y (conj C D)). specialize (EH y (conj C D)). destruct (Rle_dec 0 y); split; nra.
Qed.
Lemma add_within c x a : within x a -> within (Q2R c + x) (iadd c a).
Proof.
  unfold within, iadd; cbn [fst snd]. rewrite !(Qeq_eqR _ _ (Qred_correct _)), !Q2R_plus. lra.
Qed.
Lemma horner_within cs y i : within y i -> within (horner (map Q2R cs) y) (ihorner cs i).
Proof.
  intros H. induction cs as [|c t IH]; cbn; [unfold within; cbn; unfold Q2R; cbn; lra|]. apply add_within, mul_within; assumption.
Qed.
(** a polynomial is positive on [l, l + n d] *)
Fixpoint positive_on (cs : list Q) (l d : Q) (n : nat) : bool :=
  match n with
  | O => true
  | S k => let h := Qred (l + d) in andb (match Qlt_le_dec 0 (fst (ihorner cs (l, h))) with left _ => true | right _ => false end) (positive_on cs h d k)
  end.
Lemma positive_on_ok cs : forall n l d, positive_on cs l d n = true -> (0 < d)%Q -> forall y, Q2R l <= y < Q2R l + INR n * Q2R d -> 0 < horner (map Q2R cs) y.
Proof.
  induction n as [|n IH]; intros l d H D y Y; [cbn in Y; lra|]. cbn [positive_on] in H. apply andb_true_iff in H as [A B].
  assert (Q2R (Qred (l + d)) = Q2R l + Q2R d) as E by (rewrite (Qeq_eqR _ _ (Qred_correct _)), Q2R_plus; reflexivity).
  destruct (Qlt_le_dec 0 (fst (ihorner cs (l, Qred (l + d))))) as [P|]; [|discriminate]. apply Qlt_Rlt in P. assert (Q2R 0 = 0) as Z by (unfold Q2R; cbn; lra).
  rewrite S_INR in Y. destruct (Rle_dec y (Q2R l + Q2R d)) as [S|S].
  - pose proof (horner_within cs y (l, Qred (l + d))) as W. unfold within in W; cbn [fst snd] in W. rewrite E in W. specialize (W (conj (proj1 Y) S)). rewrite Z in P. lra.
  - apply (IH _ _ B D). rewrite E. lra.
Qed.
Lemma horner_plus t : forall cs ds y, length cs = length ds -> horner (zip_with (fun a b => a + b * t) cs ds) y = horner cs y + horner ds y * t.
Proof.
  unfold zip_with. induction cs as [|c cs IH]; intros [|d ds] y L; cbn in *; try lia; [ring|].
  change (fold_right (fun c0 acc => c0 + y * acc) 0) with (fun l => horner l y). cbn beta. rewrite IH by lia. ring.
Qed.
Definition qccm_a : list Q := [1; 17699#100000; -50447#100000; -2427#100000; 72085#100000; 1979#100000; -77530#100000; 32999#100000]%Q.
Definition qccm_b : list Q := [0; 141338#100000; 228305#100000; 107233#100000; -538434#100000; -62251#100000; 530260#100000; -209002#100000]%Q.
Definition qodo_a : list Q := [1; 104#1000; -609#1000; 701#1000; 1137#1000; -1718#1000; -827#1000; 1647#1000; -505#1000]%Q.
Definition qodo_b : list Q := [0; 1952#1000; 2908#1000; -3989#1000; -7985#1000; 11102#1000; 5491#1000; -10805#1000; 3347#1000]%Q.
Definition qmix (t : Q) (a b : list Q) : list Q := map (fun p => Qred (fst p + snd p * t)) (combine a b).
Lemma qmix_R t : forall a b, map Q2R (qmix t a b) = zip_with (fun a b => a + b * Q2R t) (map Q2R a) (map Q2R b).
Proof.
  unfold qmix, zip_with. induction a as [|x a IH]; intros [|y b]; cbn [map combine fst snd]; try reflexivity. rewrite IH. f_equal.
  rewrite (Qeq_eqR _ _ (Qred_correct _)), Q2R_plus, Q2R_mult. reflexivity.
Qed.
Lemma ccm_a_R : ccm_opt_a = map Q2R qccm_a. Proof. unfold ccm_opt_a, qccm_a, Q2R; cbn. repeat (f_equal; try lra). Qed.
Lemma ccm_b_R : ccm_opt_b = map Q2R qccm_b. Proof. unfold ccm_opt_b, qccm_b, Q2R; cbn. repeat (f_equal; try lra). Qed.
Lemma odo_a_R : odo_opt_a = map Q2R qodo_a. Proof. unfold odo_opt_a, qodo_a, Q2R; cbn. repeat (f_equal; try lra). Qed.
Lemma odo_b_R : odo_opt_b = map Q2R qodo_b. Proof. unfold odo_opt_b, qodo_b, Q2R; cbn. repeat (f_equal; try lra). Qed.
Lemma optical_pos (qa qb : list Q) : length qa = length qb ->
  positive_on (qmix (1#2) qa qb) (-72#100) (1#20) 45 = true -> positive_on (qmix (1#6) qa qb) (-72#100) (1#20) 45 = true ->
  forall y t, - (72/100) <= y <= 148/100 -> 1/6 <= t <= 1/2 -> 0 < horner (map Q2R qa) y + horner (map Q2R qb) y * t.
Proof.
  intros L A B y t Y T.
  assert (Q2R (-72#100) <= y < Q2R (-72#100) + INR 45 * Q2R (1#20)) as K by (unfold Q2R; cbn; lra).
  pose proof (positive_on_ok _ _ _ _ A eq_refl y K) as P1. pose proof (positive_on_ok _ _ _ _ B eq_refl y K) as P2.
  rewrite qmix_R, horner_plus in P1, P2 by (rewrite !map_length; exact L).
  assert (Q2R (1#2) = 1/2) as E1 by (unfold Q2R; cbn; lra). assert (Q2R (1#6) = 1/6) as E2 by (unfold Q2R; cbn; lra). rewrite E1 in P1. rewrite E2 in P2.
  set (u := horner (map Q2R qa) y) in *. set (v := horner (map Q2R qb) y) in *. clearbody u v. destruct (Rle_dec 0 v); nra.
Qed.
Lemma ccm_optical y t : - (72/100) <= y <= 148/100 -> 1/6 <= t <= 1/2 -> 0 < horner ccm_opt_a y + horner ccm_opt_b y * t.
Proof. rewrite ccm_a_R, ccm_b_R. apply optical_pos; [reflexivity|vm_compute; reflexivity|vm_compute; reflexivity]. Qed.
Lemma odo_optical y t : - (72/100) <= y <= 148/100 -> 1/6 <= t <= 1/2 -> 0 < horner odo_opt_a y + horner odo_opt_b y * t.
Proof. rewrite odo_a_R, odo_b_R. apply optical_pos; [reflexivity|vm_compute; reflexivity|vm_compute; reflexivity]. Qed.
Lemma ir_pos x t : 0 < x -> 1/6 <= t <= 1/2 -> 0 < ir_a x + ir_b x * t.
Proof. intros X T. unfold ir_a, ir_b. assert (0 < Rpower x (161/100)) by apply exp_pos. set (p := Rpower x (161/100)) in *. clearbody p. nra. Qed.
Lemma uv_base y t : 33/10 <= y <= 8 -> 1/6 <= t <= 1/2 -> 8/10 < uv_a y + uv_b y * t.
Proof.
  intros Y T. unfold uv_a, uv_b.
  assert (104/1000 / ((y - 467/100) * (y - 467/100) + 341/1000) <= 306/1000) as A.
  { assert (0 <= (y - 467/100) * (y - 467/100)) as S by apply Rle_0_sqr. set (s := (y - 467/100) * (y - 467/100)) in *. clearbody s.
    apply (Rmult_le_reg_r (s + 341/1000)); [lra|]. unfold Rdiv at 1. rewrite Rmult_assoc, Rinv_l by lra. lra. }
  assert (0 < 1206/1000 / ((y - 462/100) * (y - 462/100) + 263/1000)) as B.
  { assert (0 <= (y - 462/100) * (y - 462/100)) by apply Rle_0_sqr. apply Rdiv_lt_0_compat; lra. }
  set (u := 104/1000 / _) in *. set (v := 1206/1000 / _) in *. clearbody u v.
  assert (0 <= v * t) by nra. assert (1/6 * (1825/1000 * y - 3090/1000) <= t * (1825/1000 * y - 3090/1000)) by nra. nra.
Qed.
Lemma uv_bump y t : 59/10 <= y <= 8 -> 1/6 <= t <= 1/2 -> - (5/100) < uv_fa y + uv_fb y * t.
Proof.
  intros Y T. unfold uv_fa, uv_fb. set (d := y - 59/10). assert (0 <= d <= 21/10) as D by (unfold d; lra). clearbody d.
  assert (0 <= d * d) by nra. assert (0 <= d * d * d) by nra. assert (d * d <= 441/100) by nra.
  assert (1/6 * (2130/10000 * (d * d) + 1207/10000 * (d * d * d)) <= t * (2130/10000 * (d * d) + 1207/10000 * (d * d * d))) by nra. nra.
Qed.
Lemma fuv_pos x t : 8 <= x <= 11 -> 1/6 <= t <= 1/2 -> 0 < fuv_a x + fuv_b x * t.
Proof.
  intros X T. unfold fuv_a, fuv_b, horner; cbn. set (y := x - 8). assert (0 <= y <= 3) as Y by (unfold y; lra). clearbody y.
  assert (0 <= y * y) by nra. assert (0 <= y * y * y) by nra. assert (y * y * y <= 9 * y) by nra.
  set (b := 13670/1000 + y * (4257/1000 + y * (-420/1000 + y * (374/1000 + y * 0)))).
  assert (b = 13670/1000 + 4257/1000 * y - 420/1000 * (y * y) + 374/1000 * (y * y * y)) as E by (unfold b; lra).
  assert (0 <= b) by (rewrite E; nra). assert (1/6 * b <= b * t) by nra. clearbody b. subst b.
  replace (-1073 / 1000 + y * (-628 / 1000 + y * (137 / 1000 + y * (-70 / 1000 + y * 0)))) with (-1073/1000 - 628/1000 * y + 137/1000 * (y * y) - 70/1000 * (y * y * y)) by lra.
  nra.
Qed.
(** the law dims at every wavelength of its range but one *)
Lemma law_pos oa ob x t : (forall y t, - (72/100) <= y <= 148/100 -> 1/6 <= t <= 1/2 -> 0 < horner oa y + horner ob y * t) ->
  3/10 <= x <= 11 -> x <> 59/10 -> 1/6 <= t <= 1/2 -> 0 < fst (dust_law oa ob x) + snd (dust_law oa ob x) * t.
Proof.
  intros O X N T. unfold dust_law, rleb, rltb.
  destruct (Rle_dec 8 x), (Rle_dec x 11); cbn; try lra; [apply fuv_pos; lra|].
  destruct (Rlt_dec (59/10) x), (Rlt_dec x 8); cbn; try lra.
  { pose proof (uv_base x t ltac:(lra) T). pose proof (uv_bump x t ltac:(lra) T). lra. }
  destruct (Rle_dec (33/10) x), (Rlt_dec x (59/10)); cbn; try lra.
  { pose proof (uv_base x t ltac:(lra) T). lra. }
  destruct (Rle_dec (11/10) x), (Rle_dec x (33/10)); cbn; try lra.
  { apply O; lra. }
  destruct (Rle_dec (3/10) x), (Rle_dec x (11/10)); cbn; try lra.
  apply ir_pos; lra.
Qed.

(** interpolation *)
Lemma interp_cons a b w p r f x : interp (a :: b :: w) (p :: r :: f) x =
  if rleb x a then p else if rleb x b then p + (r - p) / (b - a) * (x - a) else interp (b :: w) (r :: f) x.
Proof. reflexivity. Qed.
Lemma interp_scale k : forall w f x, interp w (map (fun y => y * k) f) x = interp w f x * k.
Proof.
  induction w as [|a w IH]; intros f x; [destruct f; cbn; ring|]. destruct w as [|b w]; [destruct f; cbn; ring|]. destruct f as [|p [|r f]]; [cbn; ring|cbn; ring|].
  cbn [map]. rewrite !interp_cons. pose proof (IH (r :: f) x) as J. cbn [map] in J. rewrite J. destruct (rleb x a); [ring|]. destruct (rleb x b); [unfold Rdiv; ring|]. ring.
Qed.
Lemma interp_line : forall w f x, ascending w -> (2 <= length w)%nat -> length f = length w -> hd 0 w <= x -> x <= last w 0 -> on_line w f x (interp w f x).
Proof.
  induction w as [|a w IH]; intros f x A L F H1 H2; [cbn in L; lia|]. destruct w as [|b w]; [cbn in L; lia|]. destruct f as [|p [|r f]]; try (cbn in F; lia).
  cbn [hd] in H1. assert (a < b) as AB by (apply (A 0%nat 1%nat); cbn; lia). rewrite interp_cons. unfold rleb. destruct (Rle_dec x a).
  - exists 0%nat. cbn. split; [lia|]. assert (x = a) by lra. subst. split; [lra|ring].
  - destruct (Rle_dec x b).
    + exists 0%nat. cbn. split; [lia|]. split; [lra|]. field. lra.
    + destruct w as [|c w]. { cbn in H2. lra. }
      destruct (IH (r :: f) x (ascending_tail _ _ A) ltac:(cbn; lia) ltac:(cbn in *; lia) ltac:(cbn; lra) H2) as (i & I1 & I2 & I3).
      exists (S i). split; [cbn in *; lia|]. split; [exact I2|exact I3].
Qed.
Lemma line_bounds w f x v lo : on_line w f x v -> ascending w -> length f = length w -> (forall y, In y f -> lo < y) -> lo < v.
Proof.
  intros (i & I1 & I2 & I3) A L P. assert (nth i w 0 < nth (S i) w 0) by (apply A; lia).
  assert (lo < nth i f 0) by (apply P, nth_In; lia). assert (lo < nth (S i) f 0) by (apply P, nth_In; lia).
  set (a := nth i w 0) in *. set (b := nth (S i) w 0) in *. set (u := nth i f 0) in *. set (t := nth (S i) f 0) in *. clearbody a b u t.
  apply (Rmult_lt_reg_r (b - a)); [lra|]. rewrite I3.
  assert (0 <= (t - lo) * (x - a)) by (apply Rmult_le_pos; lra). destruct (Rlt_dec x b).
  - assert (0 < (u - lo) * (b - x)) by (apply Rmult_lt_0_compat; lra). lra.
  - assert (x = b) by lra. subst x. assert (0 < (t - lo) * (b - a)) by (apply Rmult_lt_0_compat; lra). lra.
Qed.
