From Verif Require Import Base Astrom_Model Astrom_Spec Astrom_Proofs Astrom_Proofs2 MoMag_Model MoMag_Spec MoMag_Proofs.
From Coq Require Import Reals Ratan Lra Lia Psatz Ascii.
Open Scope R_scope.

(** * what a run gives *)
Definition w0 : mrow := {| w_magv := 0; w_color := 0; w_loss := 0; w_m5 := 0; w_seeing := 0; w_band := ""; w_rh := 0; w_delta := 0; w_phase := 0 |}.
Definition col_ok (rows : list mrow) (col : option (list R)) : Prop := match col with Some c => length c = length rows | None => True end.
Definition col_of (memory : nat -> R) (rows : list mrow) (col : option (list R)) : list R := match col with Some c => c | None => map memory (seq 0 (length rows)) end.
Lemma col_length memory rows col : col_ok rows col -> length (col_of memory rows col) = length rows.
Proof. destruct col as [c|]; intros H; [exact H|]. cbn. rewrite map_length, seq_length. reflexivity. Qed.
Definition h_of (href : R) (hval : option R) : R := match hval with Some h => h | None => href end.
Definition pos_of (s : mo_stacker) : nat := match k_pos s with Some p => p | None => O end.
Lemma mo_run_eq hm draws memory s href hval rows col : rows <> [] ->
  mo_run hm draws memory s href hval rows col = mo_run' hm draws s href (h_of href hval) (combine rows (col_of memory rows col)).
Proof. destruct rows; [congruence|reflexivity]. Qed.
Lemma fst_combine {A B} (a : list A) (b : list B) : length b = length a -> map fst (combine a b) = a.
Proof. revert b. induction a as [|x a IH]; intros [|y b] H; try discriminate; [reflexivity|]. cbn. f_equal. apply IH. injection H as H. exact H. Qed.
Lemma snd_combine {A B} (a : list A) (b : list B) : length b = length a -> map snd (combine a b) = b.
Proof. revert b. induction a as [|x a IH]; intros [|y b] H; try discriminate; [reflexivity|]. cbn. f_equal. apply IH. injection H as H. exact H. Qed.
Lemma map_ok_map {A B C} (f : A -> B) (g : B -> result C) l : map_ok (fun x => g (f x)) l = map_ok g (map f l).
Proof. induction l as [|x l IH]; [reflexivity|]. cbn. rewrite IH. reflexivity. Qed.
(** the magnitudes of the rows *)
Definition row_mags (hm : R -> R) (k : mag_kind) (href hval : R) (rows : list mrow) (c : list R) : result (list R) :=
  match k with Asteroid => Ok (map (app_mag href hval) rows) | Comet kc => map_ok (comet_mag hm (1/25) kc href hval) rows | NullMag => Ok c end.
Lemma mags_rows hm k href hval rows c : length c = length rows -> mags hm k href hval (combine rows c) = row_mags hm k href hval rows c.
Proof.
  intros H. destruct k; cbn [mags row_mags].
  - rewrite <- map_map, fst_combine by exact H. reflexivity.
  - rewrite (map_ok_map fst (comet_mag hm (1/25) kc href hval)), fst_combine by exact H. reflexivity.
  - rewrite snd_combine by exact H. reflexivity.
Qed.
Lemma mo_run_rows hm draws memory s href hval rows col out s' : col_ok rows col -> mo_run hm draws memory s href hval rows col = Ok (out, s') ->
  exists ms, row_mags hm (k_mag s) href (h_of href hval) rows (col_of memory rows col) = Ok ms /\ length ms = length rows /\ length out = length rows /\
    (forall i d, (i < length rows)%nat -> nth i out d = (nth i ms 0, mo_snr (k_gamma s) (nth i ms 0) (w_m5 (nth i rows w0)), vis (k_sigma s) (nth i ms 0) (w_m5 (nth i rows w0)) (draws (seed_of s) (pos_of s + i)%nat))) /\
    k_mag s' = k_mag s /\ k_gamma s' = k_gamma s /\ k_sigma s' = k_sigma s /\ k_seed s' = k_seed s /\ pos_of s' = (pos_of s + length rows)%nat.
Proof.
  intros Hc E. pose proof (col_length memory rows col Hc) as Hl. destruct rows as [|w rows'] eqn:Er.
  - cbn in E. assert (out = [] /\ s' = s) as [-> ->] by (split; congruence). cbn in Hl. exists []. split.
    { unfold row_mags. destruct (k_mag s); [reflexivity|reflexivity|]. destruct (col_of memory [] col); [reflexivity|discriminate]. }
    repeat split; try reflexivity; [intros i d H; cbn in H; lia|cbn; lia].
  - rewrite <- Er in *. assert (rows <> []) as N by (rewrite Er; discriminate). rewrite mo_run_eq in E by exact N. unfold mo_run' in E. rewrite mags_rows in E by exact Hl.
    destruct (row_mags hm (k_mag s) href (h_of href hval) rows (col_of memory rows col)) as [ms|e] eqn:Em; [|discriminate]. cbn [bind] in E.
    assert (length ms = length rows) as Lm.
    { rewrite <- mags_rows in Em by exact Hl. apply mags_length in Em. rewrite combine_length, Hl, Nat.min_id in Em. exact Em. }
    match type of E with Ok (?x, ?y) = Ok _ => assert (out = x) as -> by congruence; assert (s' = y) as -> by congruence end. exists ms. split; [reflexivity|]. split; [exact Lm|].
    rewrite <- (map_map fst w_m5), fst_combine by exact Hl. split; [rewrite snr_rows_length, combine_length, map_length, Lm; apply Nat.min_id|]. split.
    { intros i d Hi. rewrite snr_rows_nth by (rewrite combine_length, map_length, Lm, Nat.min_id; exact Hi). rewrite combine_nth by (rewrite map_length; exact Lm). cbn [fst snd]. fold (pos_of s).
      assert (nth i (map w_m5 rows) 0 = w_m5 (nth i rows w0)) as -> by (change 0 with (w_m5 w0) at 1; apply map_nth). reflexivity. }
    cbn [k_mag k_gamma k_sigma k_seed]. repeat split; try reflexivity. unfold pos_of at 1. cbn [k_pos]. rewrite combine_length, Hl, Nat.min_id. reflexivity.
Qed.
(** the generator only matters by what has been used of it *)
Definition frame : Type := R * option R * list mrow * option (list R).
Definition rows_of (f : frame) : list mrow := snd (fst f).
Definition frame_ok (f : frame) : Prop := col_ok (rows_of f) (snd f).
Definition used (l : list frame) : nat := fold_right (fun f n => (length (rows_of f) + n)%nat) 0%nat l.
Lemma mo_runs_state hm draws memory l : forall s outs s', (forall f, In f l -> frame_ok f) -> mo_runs hm draws memory s l = Ok (outs, s') ->
  k_mag s' = k_mag s /\ k_gamma s' = k_gamma s /\ k_sigma s' = k_sigma s /\ k_seed s' = k_seed s /\ pos_of s' = (pos_of s + used l)%nat.
Proof.
  induction l as [|[[[h0 h] rows] col] l IH]; intros s outs s' Hf E; cbn [mo_runs] in E.
  - assert (s' = s) as -> by congruence. cbn [used fold_right]. repeat split; try reflexivity. lia.
  - destruct (mo_run hm draws memory s h0 h rows col) as [[o s1]|e] eqn:E1; [|discriminate]. cbn [bind fst snd] in E. destruct (mo_runs hm draws memory s1 l) as [[os s2]|e] eqn:E2; [|discriminate]. cbn [bind fst snd] in E. assert (s' = s2) as -> by congruence.
    pose proof (Hf _ (or_introl eq_refl)) as Hc. unfold frame_ok, rows_of in Hc. cbn [fst snd] in Hc. destruct (mo_run_rows _ _ _ _ _ _ _ _ _ _ Hc E1) as (ms & _ & _ & _ & _ & A1 & A2 & A3 & A4 & A5). destruct (IH s1 os s2 (fun f H => Hf f (or_intror H)) E2) as (B1 & B2 & B3 & B4 & B5).
    cbn [used fold_right]. unfold rows_of at 1. cbn [fst snd]. fold (used l). repeat split; try congruence. rewrite B5, A5. lia.
Qed.
Lemma mo_run_pos hm draws memory s t href hval rows col : col_ok rows col -> k_mag s = k_mag t -> k_gamma s = k_gamma t -> k_sigma s = k_sigma t -> k_seed s = k_seed t -> pos_of s = pos_of t ->
  match mo_run hm draws memory s href hval rows col, mo_run hm draws memory t href hval rows col with Ok (o, _), Ok (o', _) => o = o' | Err e, Err e' => e = e' | _, _ => False end.
Proof.
  intros Hc E1 E2 E3 E4 E5. destruct rows as [|w rows'] eqn:Er; [reflexivity|]. rewrite <- Er in *. rewrite !mo_run_eq by (rewrite Er; discriminate). unfold mo_run'. rewrite E1. destruct (mags hm (k_mag t) href (h_of href hval) (combine rows (col_of memory rows col))) as [ms|e]; cbn [bind]; [|reflexivity].
  fold (pos_of s) (pos_of t). rewrite E5. assert (seed_of s = seed_of t) as -> by (unfold seed_of; rewrite E4; reflexivity). generalize (combine ms (map (fun p => w_m5 (fst p)) (combine rows (col_of memory rows col)))) as l. intros l. generalize (pos_of t) as p. induction l as [|[a m] l IH]; intros p; [reflexivity|]. cbn [snr_rows]. rewrite E2, E3, IH. reflexivity.
Qed.
(** * phase functions *)
Lemma npow_nonneg x p : 0 <= npow x p.
Proof. unfold npow. destruct (Rle_dec x 0); [lra|]. left. apply exp_pos. Qed.
Lemma npow_lt x y p : 0 < p -> 0 <= x -> x < y -> npow x p < npow y p.
Proof.
  intros Hp Hx H. unfold npow. destruct (Rle_dec y 0) as [Y|Y]; [lra|]. destruct (Rle_dec x 0) as [X|X]; [apply exp_pos|]. unfold Rpower. apply exp_increasing. apply Rmult_lt_compat_l; [exact Hp|]. apply ln_increasing; lra.
Qed.
Lemma tan_half_lt a b : 0 <= a -> a < b -> b < 180 -> 0 <= tan (radians a / 2) < tan (radians b / 2).
Proof.
  intros Ha Hb Hc. pose proof PI_RGT_0 as HP. unfold radians. assert (0 <= a * PI / 180 / 2) by (assert (0 <= a * PI) by (apply Rmult_le_pos; lra); lra).
  assert (a * PI / 180 / 2 < b * PI / 180 / 2) as L by (assert (a * PI < b * PI) by (apply Rmult_lt_compat_r; lra); lra).
  assert (b * PI / 180 / 2 < PI / 2) as U by (assert (b * PI < 180 * PI) by (apply Rmult_lt_compat_r; lra); lra).
  split; [|apply tan_increasing; lra]. destruct (Rle_lt_or_eq_dec _ _ H) as [P|P]; [left; apply tan_gt_0; lra|rewrite <- P, tan_0; lra].
Qed.
