(** Theorems about the light curves and the kilonova counts: C341, C342. *)
From Coq Require Import String Reals Lra Lia ZArith List Bool.
From Verif Require Import Base Depth_Model Depth_Proofs Template_Model Sky_Proofs Pop_Model Pop_Spec Runs_Spec Plane_Spec.
From Verif Require Astrom_Model Runs_Props.
Import ListNotations.
Open Scope R_scope.

Lemma inc_tail a l : Increasing (a :: l) -> Increasing l.
Proof. intros H i j x y L X Y. apply (H (S i) (S j) x y); auto; lia. Qed.
Lemma inc_head a l x : Increasing (a :: l) -> In x l -> a < x.
Proof. intros H I. apply In_nth_error in I. destruct I as [k K]. apply (H 0%nat (S k) a x); auto; lia. Qed.

(** reading from a point on *)
Lemma interp_from_spec : forall ph mag t x0 y0, length ph = length mag -> Increasing (x0 :: ph) -> x0 <= t ->
  let m := interp_from t x0 y0 (combine ph mag) in
  (last ph x0 < t -> m = 99)
  /\ (t <= last ph x0 -> (exists k, nth_error (x0 :: ph) k = Some t /\ nth_error (y0 :: mag) k = Some m)
        \/ exists k a b c d, nth_error (x0 :: ph) k = Some a /\ nth_error (x0 :: ph) (S k) = Some b /\ nth_error (y0 :: mag) k = Some c /\ nth_error (y0 :: mag) (S k) = Some d
             /\ a < t < b /\ (m - c) * (b - a) = (d - c) * (t - a)).
Proof.
  induction ph as [|x1 ph IH]; intros mag t x0 y0 L I X; destruct mag as [|y1 mag]; try discriminate L; cbn [combine interp_from].
  - cbn [last]. split; intros H.
    + destruct (rltb x0 t) eqn:E; [reflexivity|]. apply rltb_false in E. lra.
    + left. exists 0%nat. cbn. assert (x0 = t) by lra. subst. destruct (rltb t t) eqn:E; [apply rltb_true in E; lra|]. auto.
  - injection L as L. pose proof (IH mag t x1 y1 L (inc_tail _ _ I)) as J.
    assert (LL : last (x1 :: ph) x0 = last ph x1).
    { clear. revert x0 x1. induction ph as [|a p IH]; intros; [reflexivity|]. change (last (x1 :: a :: p) x0) with (last (a :: p) x0). rewrite (IH x0 a). rewrite (IH x1 a). reflexivity. }
    rewrite LL. destruct (rleb x1 t) eqn:E.
    + apply rleb_true in E. destruct (J E) as [A B]. split; [exact A|]. intros H. destruct (B H) as [(k & K1 & K2)|(k & a & b & c & d & K)].
      * left. exists (S k). auto.
      * right. exists (S k), a, b, c, d. exact K.
    + apply rleb_false in E. split; intros H.
      * exfalso. assert (x1 <= last ph x1); [|lra].
        destruct ph as [|p ph]; [cbn; lra|]. apply Rlt_le. apply (inc_head x1 (p :: ph)); [exact (inc_tail _ _ I)|].
        clear. revert p. induction ph as [|q ph IH]; intros p; [left; reflexivity|]. right. change (In (last (q :: ph) x1) (q :: ph)). apply IH.
      * assert (x0 < x1) by (apply (inc_head x0 (x1 :: ph)); [exact I|left; reflexivity]).
        destruct (Req_dec x0 t) as [->|N].
        -- left. exists 0%nat. cbn. split; [reflexivity|]. f_equal. field. lra.
        -- right. exists 0%nat, x0, x1, y0, y1. cbn. repeat split; try reflexivity; try lra. field. lra.
Qed.

Lemma last_any {A} (l : list A) : forall a x y, last (a :: l) x = last (a :: l) y.
Proof. induction l as [|b l IH]; intros a x y; [reflexivity|]. change (last (b :: l) x = last (b :: l) y). apply IH. Qed.
Lemma last_cons {A} (l : list A) a x : last (a :: l) x = last l a.
Proof. destruct l as [|b l]; [reflexivity|]. change (last (b :: l) x = last (b :: l) a). apply last_any. Qed.
Lemma last_nth {A} (l : list A) : forall x, nth_error (x :: l) (length (x :: l) - 1) = Some (last l x).
Proof.
  induction l as [|a l IH]; intros x; [reflexivity|]. cbn [length]. replace (S (S (length l)) - 1)%nat with (S (length l)) by lia.
  cbn [nth_error]. specialize (IH a). cbn [length] in IH. replace (S (length l) - 1)%nat with (length l) in IH by lia. rewrite last_cons. exact IH.
Qed.

(** C341: inside the table the magnitude is the tabulated one or on the line between the neighbours, outside it is 99 *)
Theorem C341_read : forall ph mag t, length ph = length mag -> ph <> [] -> Increasing ph ->
  exists m, interp99 ph mag t = Ok m /\ Reads ph mag t m.
Proof.
  intros ph mag t L N I. unfold interp99. rewrite L, Nat.eqb_refl. cbn [negb].
  destruct ph as [|x0 ph]; [contradiction|]. destruct mag as [|y0 mag]; [discriminate L|]. cbn [combine].
  eexists. split; [reflexivity|]. exists x0, (last ph x0). split; [reflexivity|]. split; [apply (last_nth ph)|].
  injection L as L. assert (X : x0 <= last ph x0).
  { destruct ph as [|p ph]; [cbn; lra|]. apply Rlt_le. apply (inc_head x0 (p :: ph)); [exact I|].
    clear. revert p. induction ph as [|q ph IH]; intros p; [left; reflexivity|]. right. change (In (last (q :: ph) x0) (q :: ph)). apply IH. }
  destruct (rltb t x0) eqn:E.
  - apply rltb_true in E. split; [reflexivity|]. intros H. lra.
  - apply rltb_false in E. destruct (interp_from_spec ph mag t x0 y0 L I) as [A B]; [lra|]. split.
    + intros [H|H]; [lra|]. exact (A H).
    + intros H. apply B. lra.
Qed.
Print Assumptions C341_read.

Example C341_read_case : Increasing [-1; 2; 5] /\ interp99 [-1; 2; 5] [20; 17; 18] 0 = Ok 19 /\ interp99 [-1; 2; 5] [20; 17; 18] 6 = Ok 99.
Proof.
  split; [|split].
  - intros i j x y L X Y. destruct i as [|[|[|[|i]]]], j as [|[|[|[|j]]]]; cbn in X, Y; try lia; try discriminate; injection X as <-; injection Y as <-; lra.
  - unfold interp99; cbn. f_equal. destruct (rltb 0 (-1)) eqn:A; [apply rltb_true in A; lra|]. destruct (rleb 2 0) eqn:B; [apply rleb_true in B; lra|]. field.
  - unfold interp99; cbn. f_equal. destruct (rltb 6 (-1)) eqn:A; [reflexivity|]. destruct (rleb 2 6) eqn:B; [|apply rleb_false in B; lra].
    destruct (rleb 5 6) eqn:C; [|apply rleb_false in C; lra]. destruct (rltb 5 6) eqn:D; [reflexivity|apply rltb_false in D; lra].
Qed.

(** inside the table the magnitude stays within the tabulated ones *)
Theorem C341_within : forall ph mag t m a z lo hi, Reads ph mag t m -> FirstOf ph a -> LastOf ph z -> a <= t <= z -> (forall y, In y mag -> lo <= y <= hi) -> lo <= m <= hi.
Proof.
  intros ph mag t m a z lo hi (a' & z' & F & L & _ & H) F' L' T B. unfold FirstOf, LastOf in *.
  assert (a' = a) by congruence. assert (z' = z) by congruence. subst.
  destruct (H T) as [(k & _ & K)|(k & x0 & x1 & y0 & y1 & _ & _ & K & K' & X & E)].
  - apply B. eapply nth_error_In; eauto.
  - pose proof (B y0 (nth_error_In _ _ K)). pose proof (B y1 (nth_error_In _ _ K')).
    assert (D : 0 < x1 - x0) by lra. assert (D1 : 0 < t - x0) by lra. assert (D2 : 0 < x1 - t) by lra.
    assert (M : m * (x1 - x0) = y1 * (t - x0) + y0 * (x1 - t)) by lra.
    split.
    + apply Rmult_le_reg_r with (x1 - x0); [exact D|]. rewrite M.
      assert (lo * (t - x0) <= y1 * (t - x0)) by (apply Rmult_le_compat_r; lra). assert (lo * (x1 - t) <= y0 * (x1 - t)) by (apply Rmult_le_compat_r; lra). lra.
    + apply Rmult_le_reg_r with (x1 - x0); [exact D|]. rewrite M.
      assert (y1 * (t - x0) <= hi * (t - x0)) by (apply Rmult_le_compat_r; lra). assert (y0 * (x1 - t) <= hi * (x1 - t)) by (apply Rmult_le_compat_r; lra). lra.
Qed.
Print Assumptions C341_within.

Lemma entry_dget {V} (d : list (string * V)) k v : dget String.eqb d k = Some v <-> Entry d k v.
Proof.
  induction d as [|[k' w] d IH]; cbn [dget].
  - split; [discriminate|]. intros (i & H & _). destruct i; discriminate.
  - destruct (String.eqb k k') eqn:E.
    + apply String.eqb_eq in E. subst. split.
      * intros [= ->]. exists 0%nat. split; [reflexivity|]. intros; lia.
      * intros (i & H & N). destruct i as [|i]; [cbn in H; congruence|]. exfalso. apply (N 0%nat w); [lia|reflexivity].
    + apply String.eqb_neq in E. rewrite IH. split; intros (i & H & N).
      * exists (S i). split; [exact H|]. intros j u L. destruct j as [|j]; [cbn; congruence|]. apply N. lia.
      * destruct i as [|i]; [cbn in H; congruence|]. exists i. split; [exact H|]. intros j u L. apply (N (S j) u). lia.
Qed.
Lemma entry_in {V} (d : list (string * V)) k v : Entry d k v -> In (k, v) d.
Proof. intros (i & H & _). eapply nth_error_In; eauto. Qed.
Lemma lookup_ok {V} (d : list (string * V)) k v : lookup d k = Ok v <-> Entry d k v.
Proof. unfold lookup. rewrite <- entry_dget. destruct (dget String.eqb d k); split; intros H; congruence. Qed.
Lemma arr_ok {A} (l : list A) i x : arr_get l i = Ok x <-> nth_error l i = Some x.
Proof. unfold arr_get. destruct (nth_error l i); split; congruence. Qed.

Lemma interp99_ok ph mag t m : interp99 ph mag t = Ok m -> length ph = length mag /\ ph <> [].
Proof.
  unfold interp99. destruct (Nat.eqb (length ph) (length mag)) eqn:E; cbn [negb]; [|discriminate]. apply Nat.eqb_eq in E.
  destruct ph; [cbn; discriminate|]. intros _. split; [exact E|discriminate].
Qed.

(** the brightness used by the metrics *)
Theorem C341_brightness : forall (curves : list curve) ax1 indx ebv dist t band m, Curves curves ->
  apparent curves ax1 indx ebv dist t band = Ok m -> Shines curves ax1 indx ebv dist t band m.
Proof.
  intros curves ax1 indx ebv dist t band m C. unfold apparent.
  destruct (arr_get curves indx) as [lc|] eqn:E1; cbn [bind]; [|discriminate].
  destruct (lookup lc band) as [[ph mag]|] eqn:E2; cbn [bind fst snd]; [|discriminate].
  destruct (interp99 ph mag t) as [m0|] eqn:E3; cbn [bind]; [|discriminate].
  destruct (lookup ax1 band) as [a|] eqn:E4; cbn [bind]; [|discriminate]. intros [= <-].
  apply arr_ok in E1. apply lookup_ok in E2. apply lookup_ok in E4. destruct (interp99_ok _ _ _ _ E3) as [L N].
  exists lc, ph, mag, m0, a. split; [exact E1|]. split; [exact E2|]. split.
  - destruct (C341_read ph mag t L N) as (m' & M & Rd).
    + apply (C lc band ph mag); [eapply nth_error_In; eauto|apply entry_in; exact E2].
    + congruence.
  - split; [exact E4|reflexivity].
Qed.
Print Assumptions C341_brightness.

(** more dust never makes an event brighter *)
Theorem C341_dust : forall curves ax1 indx ebv ebv' dist t band m m', (forall a, Entry ax1 band a -> 0 <= a) -> ebv <= ebv' ->
  apparent curves ax1 indx ebv dist t band = Ok m -> apparent curves ax1 indx ebv' dist t band = Ok m' -> m <= m'.
Proof.
  intros curves ax1 indx ebv ebv' dist t band m m' P L. unfold apparent.
  destruct (arr_get curves indx) as [lc|]; cbn [bind]; [|discriminate].
  destruct (lookup lc band) as [[ph mag]|]; cbn [bind fst snd]; [|discriminate].
  destruct (interp99 ph mag t) as [m0|]; cbn [bind]; [|discriminate].
  destruct (lookup ax1 band) as [a|] eqn:E4; cbn [bind]; [|discriminate]. intros [= <-] [= <-]. apply lookup_ok in E4. specialize (P a E4).
  assert (a * ebv <= a * ebv') by (apply Rmult_le_compat_l; lra). lra.
Qed.
Print Assumptions C341_dust.

(** farther is fainter: 5 magnitudes for ten times the distance *)
Theorem C341_distance : forall curves ax1 indx ebv d d' t band m m', 0 < d -> 0 < d' ->
  apparent curves ax1 indx ebv (Some d) t band = Ok m -> apparent curves ax1 indx ebv (Some d') t band = Ok m' ->
  (d < d' -> m < m') /\ (d' = 10 * d -> m' = m + 5).
Proof.
  intros curves ax1 indx ebv d d' t band m m' P P'. unfold apparent.
  destruct (arr_get curves indx) as [lc|]; cbn [bind]; [|discriminate].
  destruct (lookup lc band) as [[ph mag]|]; cbn [bind fst snd]; [|discriminate].
  destruct (interp99 ph mag t) as [m0|]; cbn [bind]; [|discriminate].
  destruct (lookup ax1 band) as [a|] eqn:E4; cbn [bind]; [|discriminate]. intros [= <-] [= <-]. unfold log10. pose proof ln10_pos as T. split.
  - intros L. assert (ln (d * 1000000) < ln (d' * 1000000)) by (apply ln_increasing; lra).
    assert (ln (d * 1000000) / ln 10 < ln (d' * 1000000) / ln 10) by (apply Rmult_lt_compat_r; [apply Rinv_0_lt_compat; exact T|assumption]). lra.
  - intros ->. replace (10 * d * 1000000) with (10 * (d * 1000000)) by ring. rewrite ln_mult by lra. field. lra.
Qed.
Print Assumptions C341_distance.

(** outside its table an event at 10 pc or farther is fainter than 99 *)
Theorem C341_outside : forall (curves : list curve) ax1 indx ebv d t band m lc ph mag a z, Curves curves -> (forall x, Entry ax1 band x -> 0 <= x) -> 0 <= ebv ->
  (forall x, d = Some x -> 0.00001 <= x) -> nth_error curves indx = Some lc -> Entry lc band (ph, mag) -> FirstOf ph a -> LastOf ph z -> t < a \/ z < t ->
  apparent curves ax1 indx ebv d t band = Ok m -> 99 <= m.
Proof.
  intros curves ax1 indx ebv d t band m lc ph mag a z C A E D L1 L2 F L O H. apply C341_brightness in H; [|exact C].
  destruct H as (lc' & ph' & mag' & m0 & ax & H1 & H2 & (a' & z' & F' & L' & R1 & _) & H4 & ->).
  unfold curve in *.   assert (lc' = lc) by congruence. subst lc'. apply entry_dget in L2, H2. assert (ph' = ph) by congruence. subst ph'.
  unfold FirstOf, LastOf in *. assert (a' = a) by congruence. assert (z' = z) by congruence. subst. rewrite (R1 O). specialize (A ax H4).
  assert (0 <= ax * ebv) by (apply Rmult_le_pos; lra).
  destruct d as [x|]; [|lra]. specialize (D x eq_refl).
  assert (G : 1 <= ln (x * 1000000) / ln 10); [|lra]. pose proof ln10_pos.
  assert (X : ln 10 <= ln (x * 1000000)).
  { destruct (Req_dec 10 (x * 1000000)) as [<-|N]; [lra|]. apply Rlt_le, ln_increasing; lra. }
  apply Rmult_le_reg_r with (ln 10); [assumption|]. unfold Rdiv. rewrite Rmult_assoc, Rinv_l by lra. lra.
Qed.
Print Assumptions C341_outside.
