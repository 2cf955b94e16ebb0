(** Theorems about the moving object magnitude stackers. *)
From Verif Require Import Base Astrom_Model Astrom_Spec Astrom_Proofs Astrom_Proofs2 MoMag_Model MoMag_Spec MoMag_Proofs MoMag_Proofs2.
From Coq Require Import Reals Ratan Lra Lia Psatz Ascii.
Open Scope R_scope.

(** * C162 signal to noise of the moving objects *)
(** in every run: positive, at least 5 exactly when the object is not fainter than the depth of its visit, and higher for the
    brighter of two objects at the same depth *)
Theorem C162_snr : forall hm draws memory s href hval rows col out s', 0 <= k_gamma s <= 1/25 -> col_ok rows col ->
  mo_run hm draws memory s href hval rows col = Ok (out, s') ->
  length out = length rows /\
  forall i d, (i < length rows)%nat -> let '(a, snr, _) := nth i out d in let m5 := w_m5 (nth i rows w0) in
    0 < snr /\ (5 <= snr <-> a <= m5) /\ (snr = 5 <-> a = m5) /\
    forall j, (j < length rows)%nat -> w_m5 (nth j rows w0) = m5 -> let '(b, snr', _) := nth j out d in (a < b <-> snr' < snr).
Proof.
  intros hm draws memory s href hval rows col out s' G Hc E. destruct (mo_run_rows _ _ _ _ _ _ _ _ _ _ Hc E) as (ms & _ & _ & Lo & N & _). split; [exact Lo|].
  intros i d Hi. rewrite (N i d Hi). set (a := nth i ms 0). set (m := w_m5 (nth i rows w0)). cbv zeta. split; [rewrite mo_snr_gamma; apply snr_gamma_pos; [exact G|apply snr_x_pos]|].
  assert (forall x y, x < y <-> mo_snr (k_gamma s) y m < mo_snr (k_gamma s) x m) as M.
  { intros x y. split; [apply mo_snr_lt, G|]. intros L. destruct (Rtotal_order x y) as [H|[H|H]]; [exact H|subst; lra|apply (mo_snr_lt _ _ _ m G) in H; lra]. }
  pose proof (mo_snr_same (k_gamma s) m) as S5. pose proof (M m a) as M1. pose proof (M a m) as M2. rewrite S5 in M1, M2. split; [|split].
  - split; intros H; [destruct (Rle_dec a m) as [L|L]; [exact L|]; assert (m < a) as L' by lra; apply M1 in L'; lra|]. destruct (Rle_lt_or_eq_dec _ _ H) as [L|L]; [apply M2 in L; lra|rewrite L, S5; lra].
  - split; intros H; [|rewrite H; exact S5]. destruct (Rtotal_order a m) as [L|[L|L]]; [apply M2 in L; lra|exact L|apply M1 in L; lra].
  - intros j Hj Hm. rewrite (N j d Hj). rewrite Hm. apply M.
Qed.
Print Assumptions C162_snr.
Definition row20 (m5 : R) : mrow := {| w_magv := 20; w_color := 0; w_loss := 0; w_m5 := m5; w_seeing := 1; w_band := "r"; w_rh := 1; w_delta := 1; w_phase := 0 |}.
Definition st (seed : option Z) : mo_stacker := {| k_mag := Asteroid; k_gamma := 38/1000; k_sigma := 12/100; k_seed := seed; k_pos := None |}.
Example C162_case : mo_init "asteroid" (38/1000) (12/100) None = Ok (st None) /\ 0 <= k_gamma (st None) <= 1/25 /\ col_ok [row20 20; row20 24] None /\
  exists out s', mo_run (fun _ => 1) (fun _ _ => 0) (fun _ => 0) (st None) 10 None [row20 20; row20 24] None = Ok (out, s').
Proof. repeat split; cbn; try lra. eexists. eexists. reflexivity. Qed.

(** * C163 the two definitions of signal to noise in the package *)
(** line 432 has 0.5 where m52snr has 0.4 (and the formula of the LSST overview paper too): away from the limit the two differ *)
Theorem C163_same_refuted : ~ (forall g app m5, 0 <= g <= 1/25 -> mo_snr g app m5 = m52snr (Some g) app m5).
Proof.
  intros C. specialize (C (38/1000) 20 24 ltac:(lra)). rewrite mo_snr_stretch in C. assert (m52snr (Some (38/1000)) 20 24 < m52snr (Some (38/1000)) (24 + 5/4 * (20 - 24)) 24) as L by (apply m52snr_lt; lra). lra.
Qed.
Print Assumptions C163_same_refuted.
(** what holds: the same function of a magnitude difference stretched by 5/4, hence too high for every object brighter than the
    limit, too low for every fainter one, equal only at the limit *)
Theorem C163_stretch_partial : forall g app m5, 0 <= g <= 1/25 ->
  mo_snr g app m5 = m52snr (Some g) (m5 + 5/4 * (app - m5)) m5 /\
  (app < m5 -> m52snr (Some g) app m5 < mo_snr g app m5) /\ (m5 < app -> mo_snr g app m5 < m52snr (Some g) app m5) /\ (app = m5 -> mo_snr g app m5 = m52snr (Some g) app m5).
Proof.
  intros g a m G. split; [apply mo_snr_stretch|]. rewrite mo_snr_stretch. split; [intros H; apply m52snr_lt; [exact G|lra]|]. split; [intros H; apply m52snr_lt; [exact G|lra]|]. intros ->. f_equal. lra.
Qed.
Print Assumptions C163_stretch_partial.
(** for gamma = 0.04 the factor is 10^0.1 per magnitude *)
Theorem C163_factor_partial : forall app m5, mo_snr (1/25) app m5 = Rpower 10 (1/10 * (m5 - app)) * m52snr (Some (1/25)) app m5.
Proof.
  intros a m. rewrite mo_snr_gamma. cbn [m52snr]. rewrite !snr_gamma_flat by apply pow10_pos. unfold snr_x. replace (2/5 * (a - m)) with (1/2 * (a - m) + 1/10 * (m - a)) by lra. rewrite pow10_plus. pose proof (pow10_pos (1/2 * (a - m))). pose proof (pow10_pos (1/10 * (m - a))). field. lra.
Qed.
Print Assumptions C163_factor_partial.
Example C163_case : 0 <= 38/1000 <= 1/25 /\ m52snr (Some (38/1000)) 20 24 < mo_snr (38/1000) 20 24.
Proof. split; [lra|]. apply C163_stretch_partial; lra. Qed.

(** * C164 which observations are visible *)
(** the flag of a row compares the next random number with the completeness at the magnitude of that row *)
Theorem C164_flag : forall hm draws memory s href hval rows col out s', col_ok rows col -> mo_run hm draws memory s href hval rows col = Ok (out, s') ->
  forall i d, (i < length rows)%nat -> let '(a, _, v) := nth i out d in
    (v = true <-> draws (match k_seed s with Some z => z | None => 734421%Z end) (match k_pos s with Some p => p | None => 0 end + i)%nat * (1 + exp ((a - w_m5 (nth i rows w0)) / k_sigma s)) <= 1).
Proof.
  intros hm draws memory s href hval rows col out s' Hc E i d Hi. destruct (mo_run_rows _ _ _ _ _ _ _ _ _ _ Hc E) as (ms & _ & _ & _ & N & _). rewrite (N i d Hi). rewrite vis_iff. unfold seed_of, pos_of, detect_prob. set (u := draws _ _). set (e := exp _). assert (0 < e) by apply exp_pos. split; intros H0.
  - apply (Rmult_le_compat_r (1 + e)) in H0; [|lra]. replace (1 / (1 + e) * (1 + e)) with 1 in H0 by (field; lra). exact H0.
  - apply (Rmult_le_reg_r (1 + e)); [lra|]. replace (1 / (1 + e) * (1 + e)) with 1 by (field; lra). exact H0.
Qed.
Print Assumptions C164_flag.
(** the completeness: a half at the depth of the visit, decreasing with the magnitude, symmetric about the depth, never 0 or 1 *)
Theorem C164_completeness : forall sigma m5, 0 < sigma ->
  detect_prob sigma m5 m5 = 1/2 /\ (forall a b, a < b -> detect_prob sigma b m5 < detect_prob sigma a m5) /\ (forall d, detect_prob sigma (m5 + d) m5 + detect_prob sigma (m5 - d) m5 = 1) /\ (forall a, 0 < detect_prob sigma a m5 < 1) /\
  (forall eps, 0 < eps -> exists k, forall a, a < m5 - k -> 1 - eps < detect_prob sigma a m5).
Proof.
  intros s m Hs. split; [apply detect_prob_half|]. split; [intros a b; apply detect_prob_lt, Hs|]. split; [intros d; apply detect_prob_sum|]. split; [intros a; apply detect_prob_bounds|].
  intros eps He. exists (- s * ln eps). intros a Ha. unfold detect_prob. assert (exp ((a - m) / s) < eps) as L.
  { rewrite <- (exp_ln eps He). apply exp_increasing. apply (Rmult_lt_reg_r s); [exact Hs|]. unfold Rdiv. rewrite Rmult_assoc, Rinv_l by lra. lra. }
  pose proof (exp_pos ((a - m) / s)) as P. set (e := exp ((a - m) / s)) in *. apply (Rmult_lt_reg_r (1 + e)); [lra|]. replace (1 / (1 + e) * (1 + e)) with 1 by (field; lra). nra.
Qed.
Print Assumptions C164_completeness.
Example C164_case : detect_prob (12/100) 24 24 = 1/2 /\ 0 < 12/100.
Proof. split; [apply detect_prob_half|lra]. Qed.

(** * C165 an object that is seen would be seen if it were brighter *)
(** false when one stacker clones the object over H values, as the slicer does: every clone gets other random numbers *)
Theorem C165_brighter_refuted : ~ (forall hm draws memory s href h h' rows o o' s', (forall z n, 0 <= draws z n < 1) -> 0 < k_sigma s -> h' <= h ->
  mo_runs hm draws memory s [(href, Some h, rows, None); (href, Some h', rows, None)] = Ok ([o; o'], s') ->
  forall i d, (i < length rows)%nat -> snd (nth i o d) = true -> snd (nth i o' d) = true).
Proof.
  intros C. set (c := detect_prob (12/100) 19 20). assert (0 < c < 1) as Hc by apply detect_prob_bounds.
  set (draws := fun (_ : Z) (n : nat) => match n with O => 0 | _ => (1 + c) / 2 end).
  specialize (C (fun _ => 1) draws (fun _ => 0) (st None) 10 10 9 [row20 20]).
  destruct (mo_runs (fun _ => 1) draws (fun _ => 0) (st None) [(10, Some 10, [row20 20], None); (10, Some 9, [row20 20], None)]) as [[os s']|e] eqn:E; [|discriminate E].
  cbn [mo_runs mo_run mo_run' mags st k_mag bind fst snd combine map length app_mag snr_rows] in E. injection E as E _.
  specialize (C _ _ s' ltac:(intros z n; unfold draws; destruct n; lra) ltac:(cbn; lra) ltac:(lra) ltac:(rewrite <- E; reflexivity) 0%nat (0, 0, false) ltac:(cbn; lia)).
  cbn [nth snd] in C. assert (vis (12/100) (20 + 0 + 0 + 9 - 10) 20 (draws 734421%Z 1%nat) = true) as V.
  { apply C. apply vis_iff. cbn [draws]. left. apply detect_prob_bounds. }
  apply vis_iff in V. replace (20 + 0 + 0 + 9 - 10) with 19 in V by lra. fold c in V. cbn [draws] in V. lra.
Qed.
Print Assumptions C165_brighter_refuted.
(** what holds: with the same random numbers, the flags of an asteroid at a brighter H contain those at the fainter H *)
Theorem C165_brighter_partial : forall hm draws memory s href h h' rows col out out' s1 s2, 0 < k_sigma s -> k_mag s = Asteroid -> col_ok rows col -> h' <= h ->
  mo_run hm draws memory s href (Some h) rows col = Ok (out, s1) -> mo_run hm draws memory s href (Some h') rows col = Ok (out', s2) ->
  forall i d, (i < length rows)%nat -> snd (nth i out d) = true -> snd (nth i out' d) = true.
Proof.
  intros hm draws memory s href h h' rows col out out' s1 s2 Hs Hk Hc Hh E1 E2 i d Hi V. destruct (mo_run_rows _ _ _ _ _ _ _ _ _ _ Hc E1) as (ms & M1 & _ & _ & N1 & _). destruct (mo_run_rows _ _ _ _ _ _ _ _ _ _ Hc E2) as (ms' & M2 & _ & _ & N2 & _).
  rewrite (N1 i d Hi) in V. rewrite (N2 i d Hi). cbn [snd] in *. rewrite vis_iff in *. rewrite Hk in M1, M2. cbn [row_mags h_of] in M1, M2. assert (ms = map (app_mag href h) rows) as Em by congruence. assert (ms' = map (app_mag href h') rows) as Em' by congruence.
  assert (forall hh, nth i (map (app_mag href hh) rows) 0 = app_mag href hh (nth i rows w0)) as Nm by (intros hh; rewrite (nth_indep _ 0 (app_mag href hh w0)) by (rewrite map_length; exact Hi); apply map_nth).
  rewrite Em, Nm in V. rewrite Em', Nm. eapply Rle_trans; [exact V|]. set (w := nth i rows w0). assert (app_mag href h' w <= app_mag href h w) as L by (unfold app_mag; lra). destruct (Rle_lt_or_eq_dec _ _ L) as [L'|L']; [left; apply detect_prob_lt; assumption|rewrite L'; lra].
Qed.
Print Assumptions C165_brighter_partial.
Example C165_case : 0 < k_sigma (st None) /\ k_mag (st None) = Asteroid /\ exists out s1, mo_run (fun _ => 1) (fun _ _ => 0) (fun _ => 0) (st None) 10 (Some 12) [row20 20] None = Ok (out, s1) /\ snd (nth 0 out (0, 0, false)) = true.
Proof. split; [cbn; lra|]. split; [reflexivity|]. eexists. eexists. split; [reflexivity|]. cbn [nth snd]. apply vis_iff. left. apply detect_prob_bounds. Qed.

(** * C166 reproducibility of the random flags *)
(** false: the flags of an object depend on which objects were processed before it *)
Theorem C166_order_refuted : ~ (forall hm draws memory s pre f o o' s1 s2, (forall z n, 0 <= draws z n < 1) -> frame_ok f -> (forall g, In g pre -> frame_ok g) ->
  mo_runs hm draws memory s [f] = Ok ([o], s1) -> mo_runs hm draws memory s (pre ++ [f]) = Ok (o', s2) -> last o' [] = o).
Proof.
  intros C. set (draws := fun (_ : Z) (n : nat) => match n with O => 0 | _ => 9/10 end).
  specialize (C (fun _ => 1) draws (fun _ => 0) (st (Some 1%Z)) [(10, None, [row20 20], None)] (10, None, [row20 20], None)).
  specialize (C _ _ _ _ ltac:(intros z n; unfold draws; destruct n; lra) I ltac:(intros g [<-|[]]; exact I) eq_refl eq_refl). cbn [last snr_rows combine map fst snd app_mag row20 w_magv w_color w_loss w_m5 st k_sigma k_gamma] in C. injection C as C.
  assert (app_mag 10 10 (row20 20) = 20) as A by (unfold app_mag; cbn; lra).
  assert (vis (12/100) (app_mag 10 10 (row20 20)) 20 0 = true) as V by (apply vis_iff; left; apply detect_prob_bounds).
  cbn in C. rewrite V in C. apply vis_iff in C. rewrite A, detect_prob_half in C. lra.
Qed.
Print Assumptions C166_order_refuted.
(** what holds: only the number of rows processed before matters; the default seed is 734421 *)
Theorem C166_position_partial : forall hm draws memory s t pre pre' href hval rows col os s1 os' s2,
  k_mag s = k_mag t -> k_gamma s = k_gamma t -> k_sigma s = k_sigma t -> k_pos s = None -> k_pos t = None ->
  match k_seed s with Some z => z | None => 734421%Z end = match k_seed t with Some z => z | None => 734421%Z end ->
  (forall f, In f pre -> frame_ok f) -> (forall f, In f pre' -> frame_ok f) -> col_ok rows col -> used pre = used pre' ->
  mo_runs hm draws memory s pre = Ok (os, s1) -> mo_runs hm draws memory t pre' = Ok (os', s2) ->
  match mo_run hm draws memory s1 href hval rows col, mo_run hm draws memory s2 href hval rows col with Ok (o, _), Ok (o', _) => o = o' | Err e, Err e' => e = e' | _, _ => False end.
Proof.
  intros hm draws memory s t pre pre' href hval rows col os s1 os' s2 H1 H2 H3 H4 H4' H5 Hp Hp' Hc U E E'. destruct (mo_runs_state _ _ _ _ _ _ _ Hp E) as (A1 & A2 & A3 & A4 & A5). destruct (mo_runs_state _ _ _ _ _ _ _ Hp' E') as (B1 & B2 & B3 & B4 & B5).
  set (s1' := {| k_mag := k_mag s1; k_gamma := k_gamma s1; k_sigma := k_sigma s1; k_seed := Some (seed_of s1); k_pos := k_pos s1 |}). set (s2' := {| k_mag := k_mag s2; k_gamma := k_gamma s2; k_sigma := k_sigma s2; k_seed := Some (seed_of s2); k_pos := k_pos s2 |}).
  assert (seed_of s1 = seed_of s2) as Es by (unfold seed_of; rewrite A4, B4; exact H5).
  assert (forall u, match mo_run hm draws memory u href hval rows col, mo_run hm draws memory {| k_mag := k_mag u; k_gamma := k_gamma u; k_sigma := k_sigma u; k_seed := Some (seed_of u); k_pos := k_pos u |} href hval rows col with Ok (o, _), Ok (o', _) => o = o' | Err e, Err e' => e = e' | _, _ => False end) as Q.
  { intros u. destruct rows as [|w rows'] eqn:Er; [reflexivity|]. rewrite <- Er in *. rewrite !mo_run_eq by (rewrite Er; discriminate). unfold mo_run'. cbn [k_mag k_pos]. destruct (mags _ _ _ _ _) as [ms|e]; cbn [bind]; [|reflexivity]. unfold seed_of at 2. cbn [k_seed]. generalize (match k_pos u with Some p => p | None => O end) as p. generalize (combine ms (map (fun p => w_m5 (fst p)) (combine rows (col_of memory rows col)))) as l. induction l as [|[a m] l IH]; intros p; [reflexivity|]. cbn [snr_rows k_gamma k_sigma]. rewrite IH. reflexivity. }
  pose proof (Q s1) as Q1. pose proof (Q s2) as Q2. fold s1' in Q1. fold s2' in Q2.
  pose proof (mo_run_pos hm draws memory s1' s2' href hval rows col Hc ltac:(cbn; congruence) ltac:(cbn; congruence) ltac:(cbn; congruence) ltac:(cbn; congruence)) as P.
  assert (pos_of s1' = pos_of s2') as Ep by (change (pos_of s1 = pos_of s2); rewrite A5, B5, U; unfold pos_of; rewrite H4, H4'; reflexivity). specialize (P Ep).
  destruct (mo_run hm draws memory s1 href hval rows col) as [[o1 ?]|e1], (mo_run hm draws memory s1' href hval rows col) as [[o1' ?]|e1'], (mo_run hm draws memory s2' href hval rows col) as [[o2' ?]|e2'], (mo_run hm draws memory s2 href hval rows col) as [[o2 ?]|e2]; try contradiction; congruence.
Qed.
Print Assumptions C166_position_partial.
Example C166_case : used [(10, None, [row20 20; row20 21], None)] = used [(12, Some 9, [row20 24], Some [3]); (1, None, [row20 1], None)] /\ frame_ok (12, Some 9, [row20 24], Some [3]) /\
  exists os s1, mo_runs (fun _ => 1) (fun _ _ => 0) (fun _ => 0) (st None) [(12, Some 9, [row20 24], Some [3]); (1, None, [row20 1], None)] = Ok (os, s1).
Proof. repeat split; try reflexivity. eexists. eexists. reflexivity. Qed.
