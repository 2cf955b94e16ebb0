(** C385-C389: the light curve of a periodic star, and the fraction of trials in which it is recovered. *)
From Coq Require Import Ascii String.
From Verif Require Import Base Period_Model Period_Spec Period_Proofs.
From Verif Require Plane_Spec Astrom_Model Astrom_Proofs2 Archive_Proofs.
From Coq Require Import Reals Lra Lia List.
Import ListNotations.
Open Scope R_scope.

(** *** C385: the light curve *)
Theorem C385_sine : forall P ph A mags t b m,
  star_mag P ph A mags t b = Ok m <-> exists i mean, Place b i /\ nth_error mags i = Some mean /\ Sine P ph A mean t m.
Proof. exact star_mag_spec. Qed.
Print Assumptions C385_sine.
Theorem C385_bounds : forall P ph A mags t b m, star_mag P ph A mags t b = Ok m ->
  exists i mean, Place b i /\ nth_error mags i = Some mean /\ Rabs (m - mean) <= Rabs A.
Proof.
  intros P ph A mags t b m H. apply star_mag_spec in H. destruct H as (i & mean & PL & N & ->). exists i, mean.
  split; [exact PL|split; [exact N|]].
  replace (mean + A * sin (2 * PI * (t + ph) / P) - mean) with (A * sin (2 * PI * (t + ph) / P)) by ring.
  rewrite Rabs_mult. rewrite <- (Rmult_1_r (Rabs A)) at 2. apply Rmult_le_compat_l; [apply Rabs_pos|].
  apply Rabs_le. pose proof (SIN_bound (2 * PI * (t + ph) / P)). lra.
Qed.
Print Assumptions C385_bounds.
Theorem C385_periodic : forall P ph A mags t b (k : nat), P <> 0 ->
  star_mag P ph A mags (t + INR k * P) b = star_mag P ph A mags t b.
Proof.
  intros P ph A mags t b k Z. unfold star_mag. destruct (band_index b) as [i|]; [|reflexivity].
  assert (W : wave P ph A (t + INR k * P) = wave P ph A t).
  { unfold wave. f_equal. replace ((t + INR k * P + ph) / P * 2 * PI) with ((t + ph) / P * 2 * PI + 2 * INR k * PI) by (field; exact Z).
    apply sin_period. }
  rewrite W. reflexivity.
Qed.
Print Assumptions C385_periodic.
Theorem C385_two_bands : forall P ph A mags t b b' i i' x x' m m', Place b i -> Place b' i' ->
  nth_error mags i = Some x -> nth_error mags i' = Some x' ->
  star_mag P ph A mags t b = Ok m -> star_mag P ph A mags t b' = Ok m' -> m - m' = x - x'.
Proof.
  intros P ph A mags t b b' i i' x x' m m' PB PB' X X' H H'. apply star_mag_spec in H, H'.
  destruct H as (k & y & K & Y & ->), H' as (k' & y' & K' & Y' & ->).
  pose proof (place_fun _ _ _ PB K). pose proof (place_fun _ _ _ PB' K'). subst k k'.
  rewrite X in Y. rewrite X' in Y'. injection Y as <-. injection Y' as <-. ring.
Qed.
Print Assumptions C385_two_bands.
Example C385_case : star_mag 4 0 (1/2) [20; 21; 22; 23; 24; 25] 1 "r" = Ok (22 + 1/2).
Proof.
  apply star_mag_spec. exists 2%nat, 22. split; [constructor|split; [reflexivity|]]. unfold Sine.
  replace (2 * PI * (1 + 0) / 4) with (PI / 2) by field. rewrite sin_PI2. lra.
Qed.

(** *** what is given to a fit *)
Definition Data (c : conf) (noise : nat -> R) (vs : list visit) (ts : list (R * string)) (ys es : list R) : Prop :=
  length ts = length vs /\ length ys = length vs /\ length es = length vs /\
  forall j v, nth_error vs j = Some v ->
    exists t0 b i mean m e, Earliest (map v_mjd vs) t0 /\ Begins (v_band v) b /\ Place b i /\ nth_error (c_means c) i = Some mean /\
      Sine (c_period c) (c_phase c) (c_amplitude c) mean (v_mjd v - t0) m /\ MagError m (v_m5 v) e /\
      nth_error ts j = Some (v_mjd v - t0, b) /\ nth_error ys j = Some (m + noise j * e) /\ nth_error es j = Some e.
(** a fit has as many parameters as it starts with *)
Definition Six (fit : fitter) : Prop := forall ts ys es P ph A mags f, length mags = 6%nat -> fit ts ys es P ph A mags = Ok f -> length (f_mags f) = 6%nat.

Lemma times_nth vs j v : nth_error vs j = Some v ->
  nth_error (times vs) j = Some (v_mjd v - Astrom_Model.rmin_list (map v_mjd vs), u1 (v_band v)).
Proof. intros N. unfold times. rewrite nth_error_map, N. reflexivity. Qed.
Lemma earliest_min vs : vs <> [] -> Earliest (map v_mjd vs) (Astrom_Model.rmin_list (map v_mjd vs)).
Proof. intros N. apply Astrom_Proofs2.rmin_spec. destruct vs; [congruence|discriminate]. Qed.

Lemma data_is c noise vs lc : star_lc (c_period c) (c_phase c) (c_amplitude c) (c_means c) (times vs) = Ok lc ->
  let errs := map (fun p => dmag (fst p) (snd p)) (combine lc (map v_m5 vs)) in
  Data c noise vs (times vs) (noisy noise lc errs) errs.
Proof.
  intros H errs. destruct (star_lc_spec _ _ _ _ _ _ H) as (L & F).
  assert (LT : length (times vs) = length vs) by (unfold times; apply map_length).
  assert (LE : length errs = length vs).
  { unfold errs. rewrite map_length, combine_length, map_length. lia. }
  split; [exact LT|]. split.
  { unfold noisy. rewrite map_length, !combine_length, seq_length. lia. }
  split; [exact LE|]. intros j v N.
  set (t0 := Astrom_Model.rmin_list (map v_mjd vs)).
  pose proof (times_nth vs j v N) as T. destruct (F j _ _ T) as (m & M & S).
  apply star_mag_spec in S. destruct S as (i & mean & PL & G & SI).
  assert (E : nth_error errs j = Some (dmag m (v_m5 v))).
  { unfold errs. rewrite nth_error_map, nth_combine, M, nth_error_map, N. reflexivity. }
  exists t0, (u1 (v_band v)), i, mean, m, (dmag m (v_m5 v)).
  split; [apply earliest_min; destruct vs; [destruct j; discriminate|discriminate]|].
  split; [eapply u1_begins; [reflexivity|exact PL]|]. split; [exact PL|]. split; [exact G|]. split; [exact SI|].
  split; [apply dmag_is|]. split; [exact T|]. split; [|exact E]. apply noisy_nth; assumption.
Qed.

Lemma dget_none (d : list (string * R)) k : ~ In k (map fst d) -> dget String.eqb d k = None.
Proof.
  induction d as [|[k' x] d IH]; intros H; [reflexivity|]. cbn. destruct (String.eqb_spec k k') as [->|N].
  - exfalso. apply H. left; reflexivity.
  - destruct (String.eqb_spec k' k) as [->|_]; [congruence|]. apply IH. intros I. apply H. right; exact I.
Qed.
Lemma distances_none c d : ~ In "distMod"%string (map fst d) -> distances c (Some d) = Ok (c_means c).
Proof. intros H. unfold distances. rewrite (dget_none d _ H). reflexivity. Qed.
Lemma light_six P ph A mags ts lc : light_curve P ph A mags ts = Ok lc -> length mags = 6%nat /\ star_lc P ph A mags ts = Ok lc.
Proof. unfold light_curve. destruct (Nat.eqb_spec (length mags) 6) as [E|E]; [|discriminate]. intros H. split; assumption. Qed.
Lemma trial_cases fit noise P ph A mags ts lc errs f : trial fit noise P ph A mags ts lc errs = Ok f ->
  fit ts (noisy noise lc errs) errs P ph A mags = Ok f \/
  (fit ts (noisy noise lc errs) errs P ph A mags = Err RuntimeError /\ f = failed mags).
Proof.
  unfold trial. destruct (fit ts (noisy noise lc errs) errs P ph A mags) as [g|e].
  - intros H. left. exact H.
  - destruct e; try discriminate. intros H. right. injection H as <-. split; reflexivity.
Qed.
Lemma count_map {A B} (P : B -> Prop) (g : A -> B) l n : Plane_Spec.CountP P (map g l) n -> Plane_Spec.CountP (fun x => P (g x)) l n.
Proof.
  revert n. induction l as [|x l IH]; intros n H; cbn in H; inversion H; subst; [constructor|apply Plane_Spec.CP_in|apply Plane_Spec.CP_out]; auto.
Qed.
Lemma filter_map_len {A B} (p : B -> bool) (g : A -> B) l : length (filter p (map g l)) = length (filter (fun x => p (g x)) l).
Proof. induction l as [|x l IH]; [reflexivity|]. cbn. destruct (p (g x)); cbn; rewrite IH; reflexivity. Qed.

(** the shape of a run that gives a value *)
Lemma run_inv fit noise c vs sp r : run fit noise c vs sp = Ok r -> (length (c_means c) + 3 <= length vs)%nat ->
  exists mags lc fits, distances c sp = Ok mags /\ length mags = 6%nat /\
    star_lc (c_period c) (c_phase c) (c_amplitude c) mags (times vs) = Ok lc /\
    trials (fun i => trial fit (noise i) (c_period c) (c_phase c) (c_amplitude c) mags (times vs) lc
                       (map (fun p => dmag (fst p) (snd p)) (combine lc (map v_m5 vs)))) 0 (c_monte c) = Ok fits /\
    (0 < c_monte c)%nat /\
    r = INR (length (filter (fun f => recovered c (c_period c) (c_amplitude c) mags (drop_bands (map v_band vs) f)) fits)) / INR (c_monte c).
Proof.
  intros H L. unfold run in H. destruct (Nat.ltb_spec (length vs) (length (c_means c) + 3)) as [X|_]; [lia|].
  destruct (distances c sp) as [mags|] eqn:D; [|discriminate]. cbn [bind] in H.
  destruct (light_curve (c_period c) (c_phase c) (c_amplitude c) mags (times vs)) as [lc|] eqn:LC; [|discriminate]. cbn [bind] in H.
  apply light_six in LC. destruct LC as (L6 & LC).
  match type of H with context [trials ?o ?k ?n] => destruct (trials o k n) as [fits|] eqn:T; [|discriminate] end. cbn [bind] in H.
  unfold frac_recovered in H. exists mags, lc, fits. split; [reflexivity|]. split; [exact L6|]. split; [exact LC|]. split; [exact T|].
  destruct (c_monte c) as [|n] eqn:M; [discriminate|]. split; [lia|]. injection H as <-. rewrite filter_map_len. reflexivity.
Qed.

(** *** C386: the value is the share of trials with a good fit *)
Theorem C386_share : forall fit noise c vs d r, Six fit -> ~ In "distMod"%string (map fst d) ->
  (length (nodup string_dec (map v_band vs)) < 9)%nat -> (length (c_means c) + 3 <= length vs)%nat ->
  run fit noise c vs (Some d) = Ok r ->
  exists outs n, length outs = c_monte c /\
    (forall k, (k < c_monte c)%nat -> exists f ts ys es, nth_error outs k = Some f /\ Data c (noise k) vs ts ys es /\
       (fit ts ys es (c_period c) (c_phase c) (c_amplitude c) (c_means c) = Ok f \/
        (fit ts ys es (c_period c) (c_phase c) (c_amplitude c) (c_means c) = Err RuntimeError /\ f_period f = None))) /\
    Plane_Spec.CountP (fun f => WellFit (c_period c) (c_amplitude c) (c_period_tol c) (c_amp_tol c) (c_mag_tol c) (c_bands c)
                                  (map v_band vs) (c_means c) (f_period f) (f_amplitude f) (f_mags f)) outs n /\
    (0 < c_monte c)%nat /\ r * INR (c_monte c) = INR n.
Proof.
  intros fit noise c vs d r S6 ND N9 L H.
  destruct (run_inv _ _ _ _ _ _ H L) as (mags & lc & fits & D & L6 & LC & T & PM & E).
  rewrite (distances_none c d ND) in D. injection D as <-.
  destruct (trials_spec _ _ _ _ T) as (LF & TF).
  eexists fits, _. split; [exact LF|]. split.
  { intros k K. destruct (TF k K) as (f & NF & OF). cbn [Nat.add] in OF. apply trial_cases in OF.
    exists f, (times vs), (noisy (noise k) lc (map (fun p => dmag (fst p) (snd p)) (combine lc (map v_m5 vs)))),
      (map (fun p => dmag (fst p) (snd p)) (combine lc (map v_m5 vs))).
    split; [exact NF|]. split; [apply data_is; exact LC|]. destruct OF as [OF|[OF ->]]; [left; exact OF|right; split; [exact OF|reflexivity]]. }
  split.
  { apply count_filter with (p := fun f => recovered c (c_period c) (c_amplitude c) (c_means c) (drop_bands (map v_band vs) f)).
    intros f I. apply recovered_spec; [|exact N9].
    apply In_nth_error in I. destruct I as (k & K). assert (KL : (k < c_monte c)%nat) by (rewrite <- LF; apply nth_error_Some; congruence).
    destruct (TF k KL) as (g & NG & OG). assert (g = f) by congruence. subst g. apply trial_cases in OG.
    destruct OG as [OG|[_ ->]]; [eapply S6; [exact L6|exact OG]|]. cbn. rewrite map_length. exact L6. }
  split; [exact PM|]. rewrite E. field. apply not_0_INR. lia.
Qed.
Print Assumptions C386_share.
Theorem C386_range : forall fit noise c vs sp r, (length (c_means c) + 3 <= length vs)%nat ->
  run fit noise c vs sp = Ok r -> 0 <= r <= 1.
Proof.
  intros fit noise c vs sp r L H. destruct (run_inv _ _ _ _ _ _ H L) as (mags & lc & fits & _ & _ & _ & T & PM & ->).
  destruct (trials_spec _ _ _ _ T) as (LF & _).
  set (p := fun f => recovered c (c_period c) (c_amplitude c) mags (drop_bands (map v_band vs) f)).
  assert (LE : (length (filter p fits) <= length fits)%nat).
  { clear. induction fits as [|f fits IH]; [apply le_n|]. cbn. destruct (p f); cbn; lia. }
  rewrite LF in LE. apply le_INR in LE. pose proof (pos_INR (length (filter p fits))) as PF.
  apply lt_INR in PM. cbn in PM. split.
  - apply Rmult_le_pos; [exact PF|]. left. apply Rinv_0_lt_compat. exact PM.
  - apply (Rmult_le_reg_r (INR (c_monte c))); [exact PM|]. unfold Rdiv. rewrite Rmult_assoc, Rinv_l by lra. lra.
Qed.
Print Assumptions C386_range.

(** *** C387: too few visits *)
Theorem C387_few : forall fit noise c vs sp, (length vs < length (c_means c) + 3)%nat -> run fit noise c vs sp = Ok (c_badval c).
Proof. intros fit noise c vs sp L. unfold run. apply Nat.ltb_lt in L. rewrite L. reflexivity. Qed.
Print Assumptions C387_few.
Theorem C387_only : forall fit noise c vs sp, c_badval c < 0 ->
  run fit noise c vs sp = Ok (c_badval c) -> (length vs < length (c_means c) + 3)%nat.
Proof.
  intros fit noise c vs sp B H. destruct (Nat.le_gt_cases (length (c_means c) + 3) (length vs)) as [L|L]; [|exact L].
  pose proof (C386_range _ _ _ _ _ _ L H). lra.
Qed.
Print Assumptions C387_only.

(** *** C388: bands without visits do not help *)
Lemma six_distinct (bs : list string) : (forall b, In b bs -> exists i, Place b i) -> (length (nodup string_dec bs) <= 6)%nat.
Proof.
  intros H. change 6%nat with (length band_keys). apply NoDup_incl_length; [apply NoDup_nodup|].
  intros b I. apply nodup_In in I. destruct (H b I) as (i & PL). destruct PL; cbn; tauto.
Qed.
Lemma good_bands seen fm mags tol good : NoDup good -> (forall i, In i good -> GoodBand seen fm mags tol i) ->
  exists bs, NoDup bs /\ length bs = length good /\ forall b, In b bs -> In b seen /\ exists i, Place b i /\ In i good.
Proof.
  induction good as [|i good IH]; intros ND G; [exists []; split; [constructor|split; [reflexivity|contradiction]]|].
  inversion ND as [|? ? NI ND']; subst.
  destruct IH as (bs & NB & LB & HB); [exact ND'|intros j J; apply G; right; exact J|].
  destruct (G i) as (b & q & m & PL & IB & _); [left; reflexivity|].
  exists (b :: bs). split; [constructor; [|exact NB]|split; [cbn; rewrite LB; reflexivity|]].
  - intros I. destruct (HB b I) as (_ & j & PJ & IJ). rewrite (place_fun _ _ _ PL PJ) in NI. contradiction.
  - intros b' [<-|I]; [split; [exact IB|exists i; split; [exact PL|left; reflexivity]]|].
    destruct (HB b' I) as (S & j & PJ & IJ). split; [exact S|]. exists j. split; [exact PJ|right; exact IJ].
Qed.
Lemma count_zero {A} (P : A -> Prop) l n : Plane_Spec.CountP P l n -> (forall x, ~ P x) -> n = 0%nat.
Proof. intros H N. induction H; [reflexivity|contradiction (N x)|exact IHCountP]. Qed.

Theorem C388_unseen : forall fit noise c vs d r, Six fit -> ~ In "distMod"%string (map fst d) ->
  (forall v, In v vs -> exists i, Place (v_band v) i) -> (length (c_means c) + 3 <= length vs)%nat ->
  (length (nodup string_dec (map v_band vs)) < c_bands c)%nat ->
  run fit noise c vs (Some d) = Ok r -> r = 0.
Proof.
  intros fit noise c vs d r S6 ND PL L NB H.
  assert (B : forall b, In b (map v_band vs) -> exists i, Place b i).
  { intros b I. apply in_map_iff in I. destruct I as (v & <- & I). apply PL, I. }
  pose proof (six_distinct _ B) as D6.
  destruct (C386_share fit noise c vs d r S6 ND) as (outs & n & _ & _ & C & PM & E); [lia|exact L|exact H|].
  apply count_zero in C.
  - subst n. cbn in E. apply lt_INR in PM. cbn in PM. apply Rmult_integral in E. destruct E; lra.
  - intros f (_ & _ & good & NG & LG & G). destruct (good_bands _ _ _ _ _ NG G) as (bs & NBS & LBS & HBS).
    assert (I : (length bs <= length (nodup string_dec (map v_band vs)))%nat).
    { apply NoDup_incl_length; [exact NBS|]. intros b IB. apply nodup_In. apply HBS, IB. }
    lia.
Qed.
Print Assumptions C388_unseen.

(** *** C389: wider tolerances do not lower the value *)
Definition with_tol (c : conf) (pt at_ mt : R) (nb : nat) : conf :=
  {| c_period := c_period c; c_amplitude := c_amplitude c; c_phase := c_phase c; c_monte := c_monte c; c_period_tol := pt; c_amp_tol := at_;
     c_means := c_means c; c_mag_tol := mt; c_bands := nb; c_badval := c_badval c |}.
Lemma le_tol_mono x t t' : t <= t' -> le_tol x t = true -> le_tol x t' = true.
Proof. rewrite !le_tol_true. intros L (e & E & H). exists e. split; [exact E|lra]. Qed.
Lemma filter_mono {A} (p q : A -> bool) l : (forall x, p x = true -> q x = true) -> (length (filter p l) <= length (filter q l))%nat.
Proof.
  intros H. induction l as [|x l IH]; [apply le_n|]. cbn. destruct (p x) eqn:E.
  - rewrite (H x E). cbn. lia.
  - destruct (q x); cbn; lia.
Qed.
Theorem C389_tolerances : forall fit noise c vs sp r pt at_ mt nb, c_period_tol c <= pt -> c_amp_tol c <= at_ -> c_mag_tol c <= mt ->
  (nb <= c_bands c)%nat -> (length (c_means c) + 3 <= length vs)%nat -> run fit noise c vs sp = Ok r ->
  exists r', run fit noise (with_tol c pt at_ mt nb) vs sp = Ok r' /\ r <= r'.
Proof.
  intros fit noise c vs sp r pt at_ mt nb P A M N L H.
  destruct (run_inv _ _ _ _ _ _ H L) as (mags & lc & fits & D & L6 & LC & T & PM & E).
  unfold run. cbn [with_tol c_means c_monte c_period c_phase c_amplitude].
  destruct (Nat.ltb_spec (length vs) (length (c_means c) + 3)) as [X|_]; [lia|].
  assert (D' : distances (with_tol c pt at_ mt nb) sp = Ok mags) by exact D. rewrite D'. cbn [bind].
  unfold light_curve. rewrite L6. cbn [Nat.eqb]. rewrite LC. cbn [bind]. rewrite T. cbn [bind]. unfold frac_recovered.
  cbn [with_tol c_monte]. destruct (c_monte c) as [|n] eqn:CM; [lia|]. eexists. split; [reflexivity|]. rewrite E.
  unfold Rdiv. apply Rmult_le_compat_r; [left; apply Rinv_0_lt_compat, lt_0_INR; lia|]. apply le_INR. rewrite filter_map_len.
  apply filter_mono. intros f R. unfold recovered in *. apply Bool.andb_true_iff in R. destruct R as (R & G).
  apply Bool.andb_true_iff in R. destruct R as (R1 & R2). cbn [with_tol c_period_tol c_amp_tol c_bands c_mag_tol].
  rewrite (le_tol_mono _ _ _ P R1), (le_tol_mono _ _ _ A R2). cbn [andb]. apply Nat.leb_le. apply Nat.leb_le in G.
  eapply Nat.le_trans; [exact N|]. eapply Nat.le_trans; [exact G|]. unfold n_good. apply filter_mono. intros p. apply le_tol_mono, M.
Qed.
Print Assumptions C389_tolerances.
