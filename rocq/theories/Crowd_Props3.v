(** C314-C316: differential refraction, brown dwarfs and quasar counts. *)
From Coq Require Import String Ascii Reals ZArith List Lra Lia Bool Permutation Sorted.
From Verif Require Import Base Depth_Model Depth_Proofs Template_Model Sky_Spec Sky_Proofs Crowd_Model Crowd_Spec Crowd_Proofs.
From Verif Require Astrom_Model Astrom_Proofs Astrom_Proofs2.
Import ListNotations.
Open Scope R_scope.

Lemma rsum_two {A} (f g : A -> R) l : rsum (map f l) + rsum (map g l) = rsum (map (fun x => f x + g x) l).
Proof. induction l; simpl; [lra | rewrite <- IHl; lra]. Qed.
Lemma rsum_nonneg {A} (f : A -> R) l : (forall x, In x l -> 0 <= f x) -> 0 <= rsum (map f l).
Proof. induction l as [|a l IH]; intro H; simpl; [lra|]. apply Rplus_le_le_0_compat; [apply H; now left | apply IH; intros; apply H; now right]. Qed.
Lemma rsum_le {A} (f g : A -> R) l : (forall x, In x l -> f x <= g x) -> rsum (map f l) <= rsum (map g l).
Proof. induction l as [|a l IH]; intro H; simpl; [lra|]. apply Rplus_le_compat; [apply H; now left | apply IH; intros; apply H; now right]. Qed.
Lemma rsum_pos_in {A} (f : A -> R) l x : (forall x, In x l -> 0 <= f x) -> In x l -> 0 < f x -> 0 < rsum (map f l).
Proof.
  induction l as [|a l IH]; intros H I P; simpl; [elim I|]. destruct I as [->|I].
  - pose proof (rsum_nonneg f l (fun y Hy => H y (or_intror Hy))). lra.
  - pose proof (IH (fun y Hy => H y (or_intror Hy)) I P). pose proof (H a (or_introl eq_refl)). lra.
Qed.
Lemma sqrt_lt_iff a b : 0 <= a -> 0 <= b -> sqrt a <= sqrt b -> a <= b.
Proof. intros. now apply sqrt_le_0. Qed.

(** * C314 *)
(** the square of the position error of a visit: seeing over signal to noise, and the atmosphere *)
Definition dcr_err2 (m atm : R) (v : dcr_visit) : R :=
  let x := d_seeing v * Rpower 10 (4/10 * (m - d_m5 v)) / 5 in x * x + atm * atm.
(** what a visit contributes: the squared tangent of the zenith distance over the squared error *)
Definition DcrInfo (mags : list (string * R)) (atm : R) (v : dcr_visit) : R :=
  match dget String.eqb mags (d_band v) with
  | None => 0
  | Some m => tan (d_zd v * PI / 180) * tan (d_zd v * PI / 180) / dcr_err2 m atm v
  end.
Lemma snr_inverse m m5 s : s / Astrom_Model.m52snr (Some (1/25)) m m5 = s * Rpower 10 (4/10 * (m - m5)) / 5.
Proof.
  unfold Astrom_Model.m52snr. assert (P : 0 < Rpower 10 (2/5 * (m - m5))) by (unfold Rpower; apply exp_pos).
  rewrite Astrom_Proofs2.snr_gamma_flat by exact P. replace (4/10) with (2/5) by lra. field. lra.
Qed.
Lemma precision_square s x f : Astrom_Model.astrom_precision s x f * Astrom_Model.astrom_precision s x f = s / x * (s / x) + f * f.
Proof. unfold Astrom_Model.astrom_precision. apply sqrt_sqrt. nra. Qed.
Lemma dcr_info_sum mags atm v : fst (dcr_info mags atm v) + snd (dcr_info mags atm v) = DcrInfo mags atm v.
Proof.
  unfold dcr_info, DcrInfo. destruct (dget _ _ _) as [m|]; cbv zeta; cbn [fst snd]; [|lra].
  rewrite precision_square, snr_inverse. fold (radians (d_zd v)). unfold dcr_err2, Rdiv.
  set (t := tan (radians (d_zd v))). pose proof (sin2_cos2 (radians (d_pa v))) as T. unfold Rsqr in T. set (a := sin _) in *. set (b := cos _) in *.
  match goal with |- _ * / ?e + _ * / ?e' = _ * / ?e'' => replace e with e'' by ring; set (q := / e'') end.
  replace (t * a * (t * a) * q + t * b * (t * b) * q) with (t * t * (a * a + b * b) * q) by ring. rewrite T. ring.
Qed.
Lemma dcr_total mags atm vs : rsum (map (fun v => fst (dcr_info mags atm v)) vs) + rsum (map (fun v => snd (dcr_info mags atm v)) vs)
  = Sum (map (DcrInfo mags atm) vs).
Proof. rewrite rsum_two. change Sum with rsum. f_equal. apply map_ext. apply dcr_info_sum. Qed.
Lemma dcr_nonneg mags atm v : 0 <= DcrInfo mags atm v.
Proof.
  unfold DcrInfo. destruct (dget _ _ _) as [m|]; [|lra]. unfold Rdiv. apply Rmult_le_pos; [nra|].
  assert (E : 0 <= dcr_err2 m atm v) by (unfold dcr_err2; nra). destruct E as [E|E]; [apply Rlt_le, Rinv_0_lt_compat, E|].
  rewrite <- E, Rinv_0. lra.
Qed.
(** the precision is one over the root of the sum of what the visits contribute; infinite if none contributes *)
Theorem C314_precision mags atm vs :
  (0 < Sum (map (DcrInfo mags atm) vs) -> dcr_run mags atm vs = Some (1 / sqrt (Sum (map (DcrInfo mags atm) vs)))) /\
  (dcr_run mags atm vs = None <-> forall v, In v vs -> DcrInfo mags atm v = 0).
Proof.
  unfold dcr_run. rewrite dcr_total. split.
  - intro P. destruct (Rlt_dec _ _); [reflexivity | contradiction].
  - destruct (Rlt_dec _ _) as [P|P]; split; try discriminate; try reflexivity.
    + intro H. exfalso. assert (E : Sum (map (DcrInfo mags atm) vs) = 0); [|lra]. change Sum with rsum. now apply rsum_zero.
    + intros _ v Hv. destruct (Rle_lt_or_eq_dec 0 _ (dcr_nonneg mags atm v)) as [X|X]; [|now symmetry].
      elim P. change Sum with rsum. apply (rsum_pos_in _ _ v); auto. intros; apply dcr_nonneg.
Qed.
Print Assumptions C314_precision.
(** the parallactic angle makes no difference *)
Theorem C314_angle mags atm vs (turn : dcr_visit -> R) :
  dcr_run mags atm (map (fun v => {| d_band := d_band v; d_m5 := d_m5 v; d_seeing := d_seeing v; d_zd := d_zd v; d_pa := turn v |}) vs)
  = dcr_run mags atm vs.
Proof.
  unfold dcr_run. rewrite !dcr_total, map_map.
  assert (E : map (fun x => DcrInfo mags atm {| d_band := d_band x; d_m5 := d_m5 x; d_seeing := d_seeing x; d_zd := d_zd x; d_pa := turn x |}) vs
     = map (DcrInfo mags atm) vs) by (apply map_ext; reflexivity). now rewrite E.
Qed.
Print Assumptions C314_angle.
(** more visits never make it worse; their order does not matter *)
Theorem C314_more_visits mags atm vs ws r : dcr_run mags atm vs = Some r -> exists r', dcr_run mags atm (vs ++ ws) = Some r' /\ 0 < r' <= r.
Proof.
  unfold dcr_run. rewrite !dcr_total. destruct (Rlt_dec _ _) as [P|]; [|discriminate]. intro H. injection H as <-.
  assert (E : Sum (map (DcrInfo mags atm) vs) <= Sum (map (DcrInfo mags atm) (vs ++ ws))).
  { change Sum with rsum. rewrite map_app, rsum_app. pose proof (rsum_nonneg (DcrInfo mags atm) ws (fun x _ => dcr_nonneg mags atm x)). lra. }
  destruct (Rlt_dec _ _) as [P'|N]; [|lra]. eexists. split; [reflexivity|].
  pose proof (sqrt_lt_R0 _ P). pose proof (sqrt_le_1_alt _ _ E). split; [apply Rdiv_lt_0_compat; lra|].
  unfold Rdiv. rewrite !Rmult_1_l. apply Rinv_le_contravar; lra.
Qed.
Print Assumptions C314_more_visits.
Theorem C314_order mags atm vs ws : Permutation vs ws -> dcr_run mags atm vs = dcr_run mags atm ws.
Proof. intro P. unfold dcr_run. rewrite !dcr_total. change Sum with rsum. now rewrite (rsum_perm _ _ (Permutation_map (DcrInfo mags atm) P)). Qed.
Print Assumptions C314_order.
(** a flat spectrum: the same magnitude in all six bands, whatever the other package offers *)
Theorem C314_flat stellar rmag : exists mags, dcr_mags stellar "flat" rmag = Ok mags /\
  forall b, In b ["u"; "g"; "r"; "i"; "z"; "y"]%string -> dget String.eqb mags b = Some rmag.
Proof. eexists. split; [reflexivity|]. intros b I. simpl in I. repeat destruct I as [<-|I]; try reflexivity. elim I. Qed.
Print Assumptions C314_flat.
Example C314_case : exists r, dcr_run [("r"%string, 20)] (1/100) [{| d_band := "r"; d_m5 := 24; d_seeing := 1; d_zd := 45; d_pa := 10 |}] = Some r.
Proof.
  eexists. apply C314_precision. unfold Sum. simpl. unfold DcrInfo, dcr_err2. simpl. replace (45 * PI / 180) with (PI / 4) by lra. rewrite tan_PI4.
  rewrite Rplus_0_r. apply Rdiv_lt_0_compat; [lra|]. nra.
Qed.

(** * C315 *)
Section Dwarf.
Context (mags : list (string * R)) (atm : R) (vs : list bd_visit).
(** visits have a seeing, and one is in a band of the object and shifted by its parallax *)
Definition Useful : Prop := (forall v, In v vs -> 0 < b_seeing v) /\
  exists v m, In v vs /\ dget String.eqb mags (b_band v) = Some m /\ (b_ra v <> 0 \/ b_dec v <> 0).
(** the square of the position error at a distance *)
Definition bd_err2 (m d : R) (v : bd_visit) : R :=
  let x := b_seeing v * Rpower 10 (4/10 * (m + (5 * (ln d / ln 10) - 5) - b_m5 v)) / 5 in x * x + atm * atm.
(** what a visit contributes: the squared amplitudes over the squared error *)
Definition BdInfo (d : R) (v : bd_visit) : R :=
  match dget String.eqb mags (b_band v) with None => 0 | Some m => (b_ra v * b_ra v + b_dec v * b_dec v) / bd_err2 m d v end.
(** signal to noise of the parallax [1/d] arcseconds, all visits together *)
Definition BdSnr (d : R) : R := sqrt (Sum (map (BdInfo d) vs)) / d.
Lemma bd_info_sum d v : fst (bd_info mags atm d v) + snd (bd_info mags atm d v) = BdInfo d v.
Proof.
  unfold bd_info, BdInfo. destruct (dget _ _ _) as [m|]; cbv zeta; cbn [fst snd]; [|lra]. rewrite precision_square, snr_inverse. unfold bd_err2, distance_mod, log10, Rdiv. ring.
Qed.
Lemma err2_pos m d v : 0 < b_seeing v -> 0 < bd_err2 m d v.
Proof.
  intro P. unfold bd_err2. assert (0 < Rpower 10 (4/10 * (m + (5 * (ln d / ln 10) - 5) - b_m5 v))) by (unfold Rpower; apply exp_pos).
  set (p := Rpower _ _) in *. assert (0 < b_seeing v * p / 5) by (apply Rdiv_lt_0_compat; [now apply Rmult_lt_0_compat | lra]). nra.
Qed.
Lemma err2_le m d d' v : 0 < b_seeing v -> 0 < d -> d <= d' -> bd_err2 m d v <= bd_err2 m d' v.
Proof.
  intros P Pd L. unfold bd_err2. apply Rplus_le_compat_r.
  assert (X : Rpower 10 (4/10 * (m + (5 * (ln d / ln 10) - 5) - b_m5 v)) <= Rpower 10 (4/10 * (m + (5 * (ln d' / ln 10) - 5) - b_m5 v))).
  { assert (ln d / ln 10 <= ln d' / ln 10) by (apply (log10_le d d'); assumption). apply Rle_Rpower; lra. }
  assert (P0 : 0 < Rpower 10 (4/10 * (m + (5 * (ln d / ln 10) - 5) - b_m5 v))) by (unfold Rpower; apply exp_pos).
  set (p := Rpower 10 (4/10 * (m + (5 * (ln d / ln 10) - 5) - b_m5 v))) in *. set (p' := Rpower 10 (4/10 * (m + (5 * (ln d' / ln 10) - 5) - b_m5 v))) in *.
  assert (0 <= b_seeing v * p / 5 <= b_seeing v * p' / 5) by (split; [apply Rlt_le, Rdiv_lt_0_compat; [now apply Rmult_lt_0_compat | lra] | unfold Rdiv; apply Rmult_le_compat_r; [lra | apply Rmult_le_compat_l; [lra | exact X]]]).
  apply Rmult_le_compat; lra.
Qed.
Lemma bd_nonneg d v : 0 < b_seeing v -> 0 <= BdInfo d v.
Proof.
  intro P. unfold BdInfo. destruct (dget _ _ _) as [m|]; [|lra]. apply Rmult_le_pos; [nra|]. apply Rlt_le, Rinv_0_lt_compat. now apply err2_pos.
Qed.
Lemma bd_info_le d d' v : 0 < b_seeing v -> 0 < d -> d <= d' -> BdInfo d' v <= BdInfo d v.
Proof.
  intros P Pd L. unfold BdInfo. destruct (dget _ _ _) as [m|]; [|lra]. apply Rmult_le_compat_l; [nra|].
  pose proof (err2_pos m d v P). apply Rinv_le_contravar; [assumption|]. now apply err2_le.
Qed.
Lemma bd_sum_pos d : Useful -> 0 < Sum (map (BdInfo d) vs).
Proof.
  intros [S (v & m & I & D & A)]. change Sum with rsum. apply (rsum_pos_in _ _ v); auto; [intros x Hx; apply bd_nonneg; auto|].
  unfold BdInfo. rewrite D. apply Rdiv_lt_0_compat; [nra | apply err2_pos; auto].
Qed.
Lemma bd_snr_spec d : Useful -> 0 < d -> bd_snr mags atm vs d = BdSnr d.
Proof.
  intros U Pd. unfold bd_snr, BdSnr. rewrite rsum_two. rewrite (map_ext _ (BdInfo d) (bd_info_sum d)). change rsum with Sum.
  pose proof (bd_sum_pos d U) as P. destruct (Rlt_dec _ _); [|contradiction]. set (w := Sum _) in *.
  rewrite sqrt_div_alt by assumption. rewrite sqrt_1. pose proof (sqrt_lt_R0 _ P). field. lra.
Qed.
Lemma bd_snr_dec d d' : Useful -> 0 < d -> d < d' -> BdSnr d' < BdSnr d.
Proof.
  intros U Pd L. unfold BdSnr.
  assert (X : Sum (map (BdInfo d') vs) <= Sum (map (BdInfo d) vs)).
  { change Sum with rsum. apply rsum_le. intros v Hv. apply bd_info_le; [now apply (proj1 U) | assumption | lra]. }
  pose proof (bd_sum_pos d U) as P. pose proof (bd_sum_pos d' U) as P'. pose proof (sqrt_lt_R0 _ P'). pose proof (sqrt_le_1_alt _ _ X).
  set (a := sqrt (Sum (map (BdInfo d') vs))) in *. set (b := sqrt (Sum (map (BdInfo d) vs))) in *.
  apply Rle_lt_trans with (b / d'); [apply Rmult_le_compat_r; [apply Rlt_le, Rinv_0_lt_compat; lra | assumption]|].
  apply Rmult_lt_compat_l; [lra|]. apply Rinv_lt_contravar; [nra | assumption].
Qed.
(** further away the parallax is measured worse *)
Theorem C315_snr d d' : Useful -> 0 < d -> d < d' -> bd_snr mags atm vs d' < bd_snr mags atm vs d /\ bd_snr mags atm vs d = BdSnr d.
Proof. intros U Pd L. rewrite !bd_snr_spec by (auto; lra). split; [now apply bd_snr_dec | reflexivity]. Qed.

Lemma pinsert_last p l : (forall q, In q l -> fst q < fst p) -> pinsert p l = l ++ [p].
Proof.
  induction l as [|q l IH]; intro H; simpl; [reflexivity|]. destruct (Rle_dec _ _) as [L|L]; [pose proof (H q (or_introl eq_refl)); lra|].
  rewrite IH; [reflexivity|]. intros x Hx. apply H. now right.
Qed.
Lemma psort_dec l : StronglySorted (fun p q => fst q < fst p) l -> psort l = rev l.
Proof.
  induction 1 as [|p l _ IH F]; simpl; [reflexivity|]. change (psort (p :: l)) with (pinsert p (psort l)). rewrite IH. apply pinsert_last.
  intros q Hq. apply in_rev in Hq. rewrite Forall_forall in F. now apply F.
Qed.
Lemma sorted_dists ds : Useful -> Increasing ds -> (forall d, In d ds -> 0 < d) ->
  StronglySorted (fun p q => fst q < fst p) (combine (map (bd_snr mags atm vs) ds) ds).
Proof.
  intros U. induction ds as [|d ds IH]; intros Inc Pos; simpl; constructor.
  - apply IH; [exact (increasing_cons _ _ Inc) | intros; apply Pos; now right].
  - apply Forall_forall. intros [s d'] H. simpl. pose proof (in_combine_r _ _ _ _ H) as H2. 
    assert (s = bd_snr mags atm vs d').
    { clear - H. induction ds as [|x ds IH]; simpl in H; [elim H|]. destruct H as [H|H]; [congruence | auto]. }
    subst s. rewrite !bd_snr_spec; auto; try (apply Pos; simpl; auto). apply bd_snr_dec; auto; [apply Pos; now left|].
    exact (increasing_hd _ _ _ Inc H2).
Qed.
Lemma extrapolate_rev ds x : Useful -> Increasing ds -> (forall d, In d ds -> 0 < d) ->
  extrapolate (map (bd_snr mags atm vs) ds) ds x = broken (rev (map BdSnr ds)) (rev ds) x.
Proof.
  intros U Inc Pos. unfold extrapolate. rewrite psort_dec by now apply sorted_dists. rewrite !map_rev.
  assert (E : map (bd_snr mags atm vs) ds = map BdSnr ds) by (apply map_ext_in; intros; apply bd_snr_spec; auto).
  rewrite E. f_equal; f_equal; clear; induction ds as [|d ds IH]; simpl; congruence.
Qed.
Lemma rev_nth_error {A} (l : list A) i : (i < length l)%nat -> nth_error (rev l) i = nth_error l (length l - S i).
Proof.
  intro H. destruct l as [|a l]; [simpl in H; lia|]. set (L := a :: l) in *.
  rewrite (nth_error_nth' (rev L) a) by now rewrite rev_length. rewrite (nth_error_nth' L a) by (unfold L in *; simpl in *; lia).
  f_equal. now apply rev_nth.
Qed.
Lemma rev_increasing l : (forall i j x y, (i < j)%nat -> nth_error l i = Some x -> nth_error l j = Some y -> y < x) -> Increasing (rev l).
Proof.
  intros H i j x y Hij Ei Ej.
  assert (Li : (i < length l)%nat) by (rewrite <- rev_length; apply nth_error_Some; congruence).
  assert (Lj : (j < length l)%nat) by (rewrite <- rev_length; apply nth_error_Some; congruence).
  rewrite rev_nth_error in Ei, Ej by assumption. exact (H (length l - S j)%nat (length l - S i)%nat y x ltac:(lia) Ej Ei).
Qed.
Lemma snr_rev ds : Useful -> Increasing ds -> (forall d, In d ds -> 0 < d) -> Increasing (rev (map BdSnr ds)).
Proof.
  intros U Inc Pos. apply rev_increasing. intros i j x y Hij Ei Ej. rewrite nth_error_map in Ei, Ej.
  destruct (nth_error ds i) as [a|] eqn:Ea; [|discriminate]. destruct (nth_error ds j) as [b|] eqn:Eb; [|discriminate].
  injection Ei as <-. injection Ej as <-. apply bd_snr_dec; auto; [apply Pos; exact (nth_error_In _ _ Ea) | exact (Inc _ _ _ _ Hij Ea Eb)].
Qed.
Lemma bd_run_far goal badval ds r : bd_run mags atm goal badval ds vs = Ok r -> ds <> [] ->
  r = if rleb goal (match pmax (map (bd_snr mags atm vs) ds) with Ok t => t | Err _ => 0 end) then extrapolate (map (bd_snr mags atm vs) ds) ds goal else badval.
Proof. unfold bd_run. destruct (pmax _); [|discriminate]. cbn [bind]. intros H _. now injection H. Qed.
Lemma pmax_first d ds : Useful -> Increasing (d :: ds) -> (forall x, In x (d :: ds) -> 0 < x) -> pmax (map (bd_snr mags atm vs) (d :: ds)) = Ok (BdSnr d).
Proof.
  intros U Inc Pos. apply pmax_spec. split.
  - left. rewrite bd_snr_spec; auto. apply Pos. now left.
  - intros y Hy. apply in_map_iff in Hy as (x & <- & Hx). rewrite bd_snr_spec by auto. destruct Hx as [->|Hx]; [lra|].
    apply Rlt_le, bd_snr_dec; auto; [apply Pos; now left | exact (increasing_hd _ _ _ Inc Hx)].
Qed.
(** too faint already at the first distance: badval *)
Theorem C315_too_far goal badval d ds : Useful -> Increasing (d :: ds) -> (forall x, In x (d :: ds) -> 0 < x) -> BdSnr d < goal ->
  bd_run mags atm goal badval (d :: ds) vs = Ok badval.
Proof.
  intros U Inc Pos L. unfold bd_run. rewrite pmax_first by assumption. cbn [bind]. now rewrite (proj2 (rleb_false _ _) L).
Qed.
(** otherwise the distance lies between the neighbouring distances with enough and with too little signal to noise *)
Theorem C315_between goal badval d ds i a b : Useful -> Increasing (d :: ds) -> (forall x, In x (d :: ds) -> 0 < x) ->
  nth_error (d :: ds) i = Some a -> nth_error (d :: ds) (S i) = Some b -> BdSnr b <= goal <= BdSnr a ->
  exists r, bd_run mags atm goal badval (d :: ds) vs = Ok r /\ a <= r <= b.
Proof.
  intros U Inc Pos Ea Eb [G1 G2]. unfold bd_run. rewrite pmax_first by assumption. cbn [bind].
  assert (Gd : goal <= BdSnr d).
  { destruct i as [|i]; [injection Ea as <-; exact G2|]. apply Rle_trans with (BdSnr a); [exact G2|]. apply Rlt_le, bd_snr_dec; auto; [apply Pos; now left|].
    apply (increasing_hd _ _ _ Inc). exact (nth_error_In ds _ Ea). }
  rewrite (proj2 (rleb_true _ _) Gd). rewrite extrapolate_rev by assumption. eexists. split; [reflexivity|].
  set (l := d :: ds) in *. pose proof (snr_rev l U Inc Pos) as IncR.
  assert (Li : (S i < length l)%nat) by (apply nth_error_Some; congruence). set (k := (length l - S (S i))%nat).
  assert (X1 : nth_error (rev l) k = Some b) by (rewrite rev_nth_error by (unfold k; lia); rewrite <- Eb; f_equal; unfold k; lia).
  assert (X2 : nth_error (rev l) (S k) = Some a) by (rewrite rev_nth_error by (unfold k; lia); rewrite <- Ea; f_equal; unfold k; lia).
  assert (S1 : nth_error (rev (map BdSnr l)) k = Some (BdSnr b)) by (rewrite <- map_rev; now apply map_nth_error).
  assert (S2 : nth_error (rev (map BdSnr l)) (S k) = Some (BdSnr a)) by (rewrite <- map_rev; now apply map_nth_error).
  assert (Lr : length (rev l) = length (rev (map BdSnr l))) by now rewrite !rev_length, map_length.
  assert (L2 : (2 <= length (rev (map BdSnr l)))%nat) by (rewrite rev_length, map_length; lia).
  assert (B : hd 0 (rev (map BdSnr l)) <= goal <= last (rev (map BdSnr l)) 0).
  { split; [apply Rle_trans with (BdSnr b); [|exact G1]; apply hd_le; [exact IncR | exact (nth_error_In _ _ S1)]|].
    apply Rle_trans with (BdSnr a); [exact G2|]. apply last_le; [exact IncR | exact (nth_error_In _ _ S2)]. }
  pose proof (broken_interp _ (rev l) goal IncR Lr L2 B) as (n & x0 & x1 & y0 & y1 & E0 & F0 & V).
  assert (ab : a < b) by exact (Inc i (S i) a b (Nat.lt_succ_diag_r i) Ea Eb).
  destruct V as [[Eg ->]|(E1 & F1 & B1 & ->)].
  - subst x0. destruct (Rle_lt_or_eq_dec _ _ G1) as [G1'|G1'].
    + pose proof (increasing_index _ _ _ _ _ IncR S1 E0 G1'). destruct (Rle_lt_or_eq_dec _ _ G2) as [G2'|G2'].
      * pose proof (increasing_index _ _ _ _ _ IncR E0 S2 G2'). lia.
      * rewrite G2' in E0. pose proof (increasing_index_eq _ _ _ _ IncR E0 S2). subst n. assert (y0 = a) by congruence. lra.
    + rewrite <- G1' in E0. pose proof (increasing_index_eq _ _ _ _ IncR E0 S1). subst n. assert (y0 = b) by congruence. lra.
  - assert (n = k).
    { pose proof (increasing_index _ _ _ _ _ IncR E0 S2 ltac:(lra)). pose proof (increasing_index _ _ _ _ _ IncR S1 E1 ltac:(lra)). lia. }
    subst n. rewrite X1 in F0. injection F0 as <-. rewrite X2 in F1. injection F1 as <-.
    rewrite S1 in E0. injection E0 as <-. rewrite S2 in E1. injection E1 as <-.
    assert (T : 0 < (goal - BdSnr b) / (BdSnr a - BdSnr b) < 1).
    { split; [apply Rdiv_lt_0_compat; lra|]. apply (Rmult_lt_reg_r (BdSnr a - BdSnr b)); [lra|]. unfold Rdiv. rewrite Rmult_assoc, Rinv_l by lra. lra. }
    set (t := (goal - BdSnr b) / _) in *. nra.
Qed.
(** beyond the last distance the result is extrapolated, further than the last distance *)
Theorem C315_beyond goal badval d d1 ds z : Useful -> Increasing (d :: d1 :: ds) -> (forall x, In x (d :: d1 :: ds) -> 0 < x) ->
  z = last (d :: d1 :: ds) 0 -> goal < BdSnr z -> exists r, bd_run mags atm goal badval (d :: d1 :: ds) vs = Ok r /\ z < r.
Proof.
  intros U Inc Pos Ez G. set (l := d :: d1 :: ds) in *. unfold bd_run. unfold l at 1. rewrite pmax_first by assumption. cbn [bind].
  assert (Iz : In z l) by (rewrite Ez; apply last_in; discriminate).
  assert (Gd : goal <= BdSnr d).
  { apply Rle_trans with (BdSnr z); [lra|]. destruct Iz as [->|Iz]; [lra|]. apply Rlt_le, bd_snr_dec; auto; [apply Pos; now left | exact (increasing_hd _ _ _ Inc Iz)]. }
  rewrite (proj2 (rleb_true _ _) Gd). rewrite extrapolate_rev by assumption. eexists. split; [reflexivity|].
  pose proof (snr_rev l U Inc Pos) as IncR.
  destruct (exists_last (l := l) ltac:(discriminate)) as (l1 & w & El).
  destruct l1 as [|u0 l0] using rev_ind; [unfold l in El; discriminate|]. clear IHl0.
  assert (w = z) by (rewrite Ez, El; symmetry; apply last_last). subst w.
  assert (u0z : u0 < z).
  { rewrite El in Inc. apply (Inc (length l0) (S (length l0))); [lia | |].
    - rewrite <- app_assoc, nth_error_app2, Nat.sub_diag by lia. reflexivity.
    - rewrite nth_error_app2 by (rewrite app_length; simpl; lia). rewrite app_length. cbn [length]. replace (S (length l0) - (length l0 + 1))%nat with O by lia. reflexivity. }
  assert (Su : BdSnr z < BdSnr u0).
  { apply bd_snr_dec; auto. apply Pos. rewrite El, <- app_assoc. apply in_or_app. right. now left. }
  rewrite El, !map_app, !rev_app_distr. simpl rev. simpl app.
  assert (LL : line (BdSnr z) z (BdSnr u0) u0 goal > z).
  { unfold line. assert (0 < (z - u0) / (BdSnr u0 - BdSnr z)) by (apply Rdiv_lt_0_compat; lra).
    replace ((u0 - z) / (BdSnr u0 - BdSnr z)) with (- ((z - u0) / (BdSnr u0 - BdSnr z))) by (field; lra). nra. }
  destruct (rev (map BdSnr l0)) as [|s2 st] eqn:Er; [rewrite broken_two; exact LL|].
  rewrite broken_step. assert (rleb goal (BdSnr u0) = true) as -> by (apply rleb_true; lra). exact LL.
Qed.
End Dwarf.
Print Assumptions C315_snr.
Print Assumptions C315_too_far.
Print Assumptions C315_between.
Print Assumptions C315_beyond.
(** the spectral types: all but one can be given to the metric *)
Theorem C315_types_partial t : In t (map fst bd_table) -> t <> "L3"%string ->
  exists c l, bd_colors t = Ok c /\ bd_new (Some c) = Ok l /\ (exists z, dget String.eqb l "z"%string = Some z) /\ (exists y, dget String.eqb l "y"%string = Some y).
Proof.
  intros H N. simpl in H. repeat destruct H as [<-|H]; try (now elim N); try (do 2 eexists; repeat split; try reflexivity; eexists; reflexivity).
Qed.
Print Assumptions C315_types_partial.
Theorem C315_types_refuted : exists c, bd_colors "L3" = Ok c /\ bd_new (Some c) = Err TypeError.
Proof. eexists. split; reflexivity. Qed.
Print Assumptions C315_types_refuted.
(** the volume: of the whole sky, a sphere; additive over the sky *)
Theorem C315_volume n d area a b : (0 < n)%nat -> INR n * area = 4 * PI ->
  volume_sum area (repeat d n) = 4 / 3 * PI * (d * d * d) /\ volume_sum area (a ++ b) = volume_sum area a + volume_sum area b.
Proof.
  intros N H. split.
  - unfold volume_sum. rewrite map_repeat, rsum_repeat. replace (INR n * (1/3 * (d * d * d) * area)) with (1/3 * (d * d * d) * (INR n * area)) by ring. rewrite H. field.
  - unfold volume_sum. now rewrite map_app, rsum_app.
Qed.
Print Assumptions C315_volume.
Example C315_case : Useful [("z"%string, 18)] [{| b_band := "z"; b_m5 := 23; b_seeing := 1; b_ra := 1; b_dec := 0 |}] /\ Increasing [10; 20; 30].
Proof.
  split; [|apply sorted_increasing; repeat constructor; lra]. split; [intros v [<-|[]]; simpl; lra|].
  do 2 eexists. split; [now left|]. split; [reflexivity|]. left. simpl. lra.
Qed.
