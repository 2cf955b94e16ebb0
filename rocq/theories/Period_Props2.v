(** C390-C394: exceptions, perfect fits, names of bands, distances and errors. *)
From Coq Require Import Ascii String.
From Verif Require Import Base Period_Model Period_Spec Period_Proofs Period_Props.
From Verif Require Plane_Spec Depth_Model Astrom_Model Astrom_Proofs2.
From Coq Require Import Reals Lra Lia List.
Import ListNotations.
Open Scope R_scope.

(** *** C390: when a value is given *)
Lemma times_in vs t b : In (t, b) (times vs) -> exists v, In v vs /\ b = u1 (v_band v).
Proof. unfold times. intros I. apply in_map_iff in I. destruct I as (v & E & I). injection E as _ <-. exists v. auto. Qed.
Lemma distances_len c d : exists mags, distances c (Some d) = Ok mags /\ length mags = length (c_means c).
Proof. unfold distances. destruct (dget _ d _); eexists; (split; [reflexivity|]); [apply map_length|reflexivity]. Qed.
Theorem C390_total : forall fit noise c vs d, length (c_means c) = 6%nat -> (0 < c_monte c)%nat ->
  (forall v, In v vs -> exists b i, Begins (v_band v) b /\ Place b i) ->
  (forall ts ys es P ph A mags e, fit ts ys es P ph A mags = Err e -> e = RuntimeError) ->
  exists r, run fit noise c vs (Some d) = Ok r.
Proof.
  intros fit noise c vs d L6 PM B F. unfold run. destruct (_ <? _)%nat; [eexists; reflexivity|].
  destruct (distances_len c d) as (mags & -> & LM). cbn [bind]. rewrite L6 in LM. unfold light_curve. rewrite LM. cbn [Nat.eqb].
  destruct (star_lc_ok (c_period c) (c_phase c) (c_amplitude c) mags (times vs) LM) as (lc & ->).
  { intros t b I. apply times_in in I. destruct I as (v & I & ->). destruct (B v I) as (b & i & BB & PL). exists i.
    rewrite (begins_u1 _ _ _ BB PL). exact PL. }
  cbn [bind]. set (errs := map _ _).
  destruct (trials_ok (fun i => trial fit (noise i) (c_period c) (c_phase c) (c_amplitude c) mags (times vs) lc errs) 0 (c_monte c)) as (fits & ->).
  { intros i. unfold trial. destruct (fit (times vs) (noisy (noise i) lc errs) errs (c_period c) (c_phase c) (c_amplitude c) mags) as [f|e] eqn:E.
    - exists f. reflexivity.
    - apply F in E. subst e. eexists; reflexivity. }
  cbn [bind]. unfold frac_recovered. destruct (c_monte c); [lia|]. eexists; reflexivity.
Qed.
Print Assumptions C390_total.
(** the default slice point, None, is not accepted *)
Theorem C390_default_refuted : forall fit noise c vs, (length (c_means c) + 3 <= length vs)%nat -> run fit noise c vs None = Err AttributeError.
Proof. intros fit noise c vs L. unfold run. destruct (Nat.ltb_spec (length vs) (length (c_means c) + 3)) as [X|_]; [lia|]. reflexivity. Qed.
Print Assumptions C390_default_refuted.
Theorem C390_band : forall fit noise c vs d v, length (c_means c) = 6%nat -> (9 <= length vs)%nat -> In v vs ->
  (forall b i, Begins (v_band v) b -> ~ Place b i) -> run fit noise c vs (Some d) = Err KeyError.
Proof.
  intros fit noise c vs d v L6 L I NB. unfold run. rewrite L6. destruct (Nat.ltb_spec (length vs) (6 + 3)) as [X|_]; [lia|].
  destruct (distances_len c d) as (mags & -> & LM). cbn [bind]. rewrite L6 in LM. unfold light_curve. rewrite LM. cbn [Nat.eqb].
  assert (K : forall ts, (exists t, In (t, u1 (v_band v)) ts) -> star_lc (c_period c) (c_phase c) (c_amplitude c) mags ts = Err KeyError).
  { induction ts as [|[t' b'] ts IH]; intros (t & J); [contradiction|]. cbn [star_lc].
    destruct (band_index b') as [i|] eqn:BI.
    - destruct J as [J|J].
      + injection J as _ ->. exfalso. apply index_place in BI. eapply NB; [eapply u1_begins; [reflexivity|exact BI]|exact BI].
      + assert (exists m, star_mag (c_period c) (c_phase c) (c_amplitude c) mags t' b' = Ok m) as (m & ->).
        { destruct (nth_error mags i) as [mean|] eqn:N; [|apply nth_error_None in N; apply index_place, place_lt in BI; lia].
          eexists. apply star_mag_spec. exists i, mean. split; [apply index_place, BI|split; [exact N|reflexivity]]. }
        cbn [bind]. rewrite IH; [reflexivity|]. exists t. exact J.
    - unfold star_mag. rewrite BI. reflexivity. }
  rewrite K; [reflexivity|]. eexists. unfold times. apply (in_map (fun w => (v_mjd w - Astrom_Model.rmin_list (map v_mjd vs), u1 (v_band w)))) in I. exact I.
Qed.
Print Assumptions C390_band.

(** *** C391: fits that find the star *)
Definition exact_fit : fitter := fun _ _ _ P _ A mags => Ok {| f_period := Some P; f_amplitude := Some A; f_mags := map Some mags |}.
Lemma exact_six : Six exact_fit.
Proof. intros ts ys es P ph A mags f L H. injection H as <-. cbn. rewrite map_length. exact L. Qed.
Lemma trials_all one (Q : fitted -> Prop) k n l : trials one k n = Ok l -> (forall i f, one i = Ok f -> Q f) -> Forall Q l.
Proof.
  intros T H. apply Forall_forall. intros f I. apply In_nth_error in I. destruct I as (i & N). destruct (trials_spec _ _ _ _ T) as (L & F).
  destruct (F i) as (g & NG & OG); [rewrite <- L; apply nth_error_Some; congruence|]. replace f with g by congruence. eapply H, OG.
Qed.
(** a fit that always finds the true parameters gives 1 exactly if enough of the bands have visits *)
Theorem C391_exact : forall noise c vs d, ~ In "distMod"%string (map fst d) -> length (c_means c) = 6%nat -> (0 < c_monte c)%nat ->
  (forall v, In v vs -> exists i, Place (v_band v) i) -> (9 <= length vs)%nat -> c_period c <> 0 -> c_amplitude c <> 0 ->
  0 <= c_period_tol c -> 0 <= c_amp_tol c -> 0 <= c_mag_tol c ->
  ((c_bands c <= length (nodup string_dec (map v_band vs)))%nat -> run exact_fit noise c vs (Some d) = Ok 1) /\
  ((length (nodup string_dec (map v_band vs)) < c_bands c)%nat -> run exact_fit noise c vs (Some d) = Ok 0).
Proof.
  intros noise c vs d ND L6 PM PL LV P0 A0 TP TA TM.
  assert (TOT : exists r, run exact_fit noise c vs (Some d) = Ok r).
  { apply C390_total; [exact L6|exact PM| |intros; discriminate]. intros v I. destruct (PL v I) as (i & P). exists (v_band v), i.
    split; [|exact P]. destruct P; eexists _, _; split; reflexivity. }
  destruct TOT as (r & R).
  assert (LL : (length (c_means c) + 3 <= length vs)%nat) by lia.
  split; intros NB; [|pose proof (C388_unseen exact_fit noise c vs d r exact_six ND PL LL NB R) as ->; exact R].
  rewrite R. f_equal.
  destruct (run_inv _ _ _ _ _ _ R LL) as (mags & lc & fits & D & _ & LC & T & _ & E).
  rewrite (distances_none c d ND) in D. injection D as <-. destruct (trials_spec _ _ _ _ T) as (LF & _).
  assert (ALL : Forall (fun f => recovered c (c_period c) (c_amplitude c) (c_means c) (drop_bands (map v_band vs) f) = true) fits).
  { eapply trials_all; [exact T|]. intros i0 f H. unfold trial, exact_fit in H. injection H as <-.
    apply recovered_spec; [cbn; rewrite map_length; exact L6| |].
    { eapply Nat.le_lt_trans; [apply six_distinct|lia]. intros b I. apply in_map_iff in I. destruct I as (v & <- & I). apply PL, I. }
    cbn [f_period f_amplitude f_mags]. split; [|split].
    - exists (c_period c). split; [reflexivity|split; [exact P0|]]. rewrite Rminus_diag_eq by reflexivity. rewrite Rabs_R0.
      apply Rmult_le_pos; [exact TP|apply Rabs_pos].
    - exists (c_amplitude c). split; [reflexivity|split; [exact A0|]]. rewrite Rminus_diag_eq by reflexivity. rewrite Rabs_R0.
      apply Rmult_le_pos; [exact TA|apply Rabs_pos].
    - set (bs := nodup string_dec (map v_band vs)) in *.
      assert (BP : forall b, In b bs -> exists i, Place b i).
      { intros b I. apply nodup_In in I. apply in_map_iff in I. destruct I as (v & <- & I). apply PL, I. }
      assert (NDB : NoDup bs) by apply NoDup_nodup.
      assert (G : forall l, NoDup l -> incl l bs -> exists good, NoDup good /\ length good = length l /\
                    forall i, In i good -> exists b, In b l /\ Place b i).
      { induction l as [|b l IH]; intros N S; [exists []; split; [constructor|split; [reflexivity|contradiction]]|].
        inversion N as [|? ? NI N']; subst. destruct IH as (good & NG & LG & G); [exact N'|intros x X; apply S; right; exact X|].
        destruct (BP b) as (i & P); [apply S; left; reflexivity|]. exists (i :: good). split; [constructor; [|exact NG]|split; [cbn; rewrite LG; reflexivity|]].
        - intros I. destruct (G i I) as (b' & IB & P'). rewrite (place_inj _ _ _ P P') in NI. contradiction.
        - intros j [<-|J]; [exists b; split; [left; reflexivity|exact P]|]. destruct (G j J) as (b' & IB & P'). exists b'. split; [right; exact IB|exact P']. }
      destruct (G bs NDB (incl_refl _)) as (good & NG & LG & GG). exists good. split; [exact NG|]. split; [rewrite LG; exact NB|].
      intros i I. destruct (GG i I) as (b & IB & P).
      destruct (nth_error (c_means c) i) as [m|] eqn:N; [|apply nth_error_None in N; apply place_lt in P; lia].
      exists b, m, m. split; [exact P|]. split; [unfold bs in IB; apply nodup_In in IB; exact IB|]. rewrite nth_error_map, N.
      split; [reflexivity|]. split; [reflexivity|]. rewrite Rminus_diag_eq by reflexivity. rewrite Rabs_R0. exact TM. }
  assert (FA : forall l (p : fitted -> bool), Forall (fun f => p f = true) l -> filter p l = l).
  { induction l as [|x l IH]; intros p F; [reflexivity|]. inversion F; subst. cbn. rewrite H1, IH by assumption. reflexivity. }
  rewrite (FA fits (fun f => recovered c (c_period c) (c_amplitude c) (c_means c) (drop_bands (map v_band vs) f)) ALL) in E.
  rewrite LF in E. rewrite E. unfold Rdiv. apply Rinv_r, not_0_INR. lia.
Qed.
Print Assumptions C391_exact.
(** fits that do not converge give 0 *)
Theorem C391_failed : forall fit noise c vs d, (forall ts ys es P ph A mags, fit ts ys es P ph A mags = Err RuntimeError) ->
  length (c_means c) = 6%nat -> (0 < c_monte c)%nat -> (forall v, In v vs -> exists b i, Begins (v_band v) b /\ Place b i) ->
  (9 <= length vs)%nat -> run fit noise c vs (Some d) = Ok 0.
Proof.
  intros fit noise c vs d F L6 PM B L.
  destruct (C390_total fit noise c vs d L6 PM B) as (r & R). { intros. rewrite F in H. congruence. }
  assert (LL : (length (c_means c) + 3 <= length vs)%nat) by lia. rewrite R.
  destruct (run_inv _ _ _ _ _ _ R LL) as (mags & lc & fits & _ & _ & _ & T & _ & ->).
  assert (ALL : Forall (fun f => recovered c (c_period c) (c_amplitude c) mags (drop_bands (map v_band vs) f) = false) fits).
  { eapply trials_all; [exact T|]. intros i f H. unfold trial in H. rewrite F in H. injection H as <-. unfold recovered, drop_bands.
    destruct (_ <? _)%nat; reflexivity. }
  assert (Z : forall l (p : fitted -> bool), Forall (fun f => p f = false) l -> filter p l = []).
  { induction l as [|x l IH]; intros p G; [reflexivity|]. inversion G; subst. cbn. rewrite H1, IH by assumption. reflexivity. }
  rewrite (Z fits (fun f => recovered c (c_period c) (c_amplitude c) mags (drop_bands (map v_band vs) f)) ALL). cbn. unfold Rdiv. rewrite Rmult_0_l. reflexivity.
Qed.
Print Assumptions C391_failed.

(** a star and visits in three bands *)
Definition star : conf := {| c_period := 10; c_amplitude := 1/2; c_phase := 2; c_monte := 5; c_period_tol := 1/20; c_amp_tol := 1/10;
  c_means := [20; 20; 20; 20; 20; 20]; c_mag_tol := 1/10; c_bands := 3; c_badval := -666 |}.
Definition at_ (t : R) (b : string) : visit := {| v_mjd := t; v_m5 := 24; v_band := b |}.
Definition nights (bs : list string) : list visit :=
  map (fun p => at_ (60000 + 3 * INR (fst p)) (snd p)) (combine (seq 0 (length bs)) bs).
Definition gri : list string := ["g"; "r"; "i"; "g"; "r"; "i"; "g"; "r"; "i"]%string.
Example C391_case : forall noise, run exact_fit noise star (nights gri) (Some []) = Ok 1.
Proof.
  intros noise. apply C391_exact; cbn [star c_means c_monte c_period c_amplitude c_period_tol c_amp_tol c_mag_tol c_bands]; try lra; try lia; try reflexivity.
  - intros [].
  - intros v I. cbn [nights gri combine seq length map fst snd] in I. cbn [In] in I.
    repeat (destruct I as [<-|I]; [eexists; cbn [at_ v_band]; constructor|]). contradiction.
Qed.

(** *** C392: the name of a band *)
Theorem C392_long : forall fit noise c vs d r, Six fit -> ~ In "distMod"%string (map fst d) ->
  (length (nodup string_dec (map v_band vs)) < 9)%nat -> (length (c_means c) + 3 <= length vs)%nat -> (0 < c_bands c)%nat ->
  (forall v i, In v vs -> ~ Place (v_band v) i) -> run fit noise c vs (Some d) = Ok r -> r = 0.
Proof.
  intros fit noise c vs d r S6 ND N9 L NB NP H.
  destruct (C386_share fit noise c vs d r S6 ND N9 L H) as (outs & n & _ & _ & C & PM & E). apply count_zero in C.
  - subst n. cbn in E. apply lt_INR in PM. cbn in PM. apply Rmult_integral in E. destruct E; lra.
  - intros f (_ & _ & good & _ & LG & G). destruct good as [|i good]; [cbn in LG; lia|].
    destruct (G i) as (b & q & m & PL & I & _); [left; reflexivity|]. apply in_map_iff in I. destruct I as (v & <- & I). exact (NP v i I PL).
Qed.
Print Assumptions C392_long.
Definition gri_long : list string := ["g_6"; "r_57"; "i_39"; "g_6"; "r_57"; "i_39"; "g_6"; "r_57"; "i_39"]%string.
(** visits whose bands are named with more than the letter are fitted as those of the band, but not counted *)
Theorem C392_names_refuted : forall noise, run exact_fit noise star (nights gri) (Some []) = Ok 1 /\
  map u1 (map v_band (nights gri_long)) = map v_band (nights gri) /\ map v_mjd (nights gri_long) = map v_mjd (nights gri) /\
  run exact_fit noise star (nights gri_long) (Some []) = Ok 0.
Proof.
  intros noise. split; [apply C391_case|]. split; [reflexivity|]. split; [reflexivity|].
  assert (B : forall v, In v (nights gri_long) -> exists b i, Begins (v_band v) b /\ Place b i).
  { intros v I. cbn [nights gri_long combine seq length map fst snd] in I. cbn [In] in I.
    repeat (destruct I as [<-|I]; [eexists _, _; split; [eexists _, _; split; reflexivity|constructor]|]). contradiction. }
  destruct (C390_total exact_fit noise star (nights gri_long) []) as (r & R); [reflexivity|cbn; lia|exact B|discriminate|].
  rewrite R. f_equal. refine (C392_long exact_fit noise star (nights gri_long) [] r exact_six _ _ _ _ _ R).
  - intros [].
  - vm_compute. lia.
  - cbn. lia.
  - cbn. lia.
  - intros v i I. cbn [nights gri_long combine seq length map fst snd] in I. cbn [In] in I.
    repeat (destruct I as [<-|I]; [cbn [at_ v_band]; intros P; inversion P|]). contradiction.
Qed.
Print Assumptions C392_names_refuted.

(** *** C393: the distance and the start of the survey *)
Definition with_means (c : conf) (l : list R) : conf :=
  {| c_period := c_period c; c_amplitude := c_amplitude c; c_phase := c_phase c; c_monte := c_monte c; c_period_tol := c_period_tol c;
     c_amp_tol := c_amp_tol c; c_means := l; c_mag_tol := c_mag_tol c; c_bands := c_bands c; c_badval := c_badval c |}.
Theorem C393_distance : forall fit noise c vs x d, 
  run fit noise c vs (Some (("distMod"%string, x) :: d)) = run fit noise (with_means c (map (fun m => m + x) (c_means c))) vs (Some []).
Proof.
  intros fit noise c vs x d. unfold run. cbn [with_means c_means]. rewrite map_length. destruct (_ <? _)%nat; [reflexivity|].
  unfold distances. cbn [dget String.eqb Ascii.eqb Bool.eqb with_means c_means]. reflexivity.
Qed.
Print Assumptions C393_distance.
Definition later (x : R) (v : visit) : visit := {| v_mjd := v_mjd v + x; v_m5 := v_m5 v; v_band := v_band v |}.
Lemma fold_min_shift x l a : fold_left Rmin (map (fun t => t + x) l) (a + x) = fold_left Rmin l a + x.
Proof.
  revert a. induction l as [|t l IH]; intros a; [reflexivity|]. cbn. rewrite <- IH. f_equal. unfold Rmin.
  destruct (Rle_dec (a + x) (t + x)), (Rle_dec a t); lra.
Qed.
Lemma times_later x vs : times (map (later x) vs) = times vs.
Proof.
  unfold times. rewrite !map_map. destruct vs as [|v vs]; [reflexivity|].
  assert (E : Astrom_Model.rmin_list (map (fun w => v_mjd (later x w)) (v :: vs)) = Astrom_Model.rmin_list (map v_mjd (v :: vs)) + x).
  { cbn [map Astrom_Model.rmin_list later v_mjd]. rewrite <- fold_min_shift, map_map. reflexivity. }
  rewrite E. apply map_ext. intros w. cbn [later v_mjd v_band]. f_equal. ring.
Qed.
Theorem C393_start : forall fit noise c vs sp x, run fit noise c (map (later x) vs) sp = run fit noise c vs sp.
Proof.
  intros fit noise c vs sp x. unfold run. rewrite map_length, times_later, !map_map. reflexivity.
Qed.
Print Assumptions C393_start.
Example C393_case : run exact_fit (fun _ _ => 0) star (map (later 100) (nights gri)) (Some []) = Ok 1.
Proof. rewrite C393_start. apply C391_case. Qed.

(** *** C394: the error of a magnitude *)
Lemma ln10_pos : 0 < ln 10.
Proof. rewrite <- ln_1. apply ln_increasing; lra. Qed.
Lemma rp10_lt x y : x < y -> Rpower 10 x < Rpower 10 y.
Proof. intros H. apply Rpower_lt; lra. Qed.
Theorem C394_positive : forall m m5, 0 < dmag m m5.
Proof.
  intros m m5. rewrite (dmag_is m m5). pose proof (exp_pos (2/5 * (m - m5) * ln 10)) as E. fold (Rpower 10 (2/5 * (m - m5))) in E.
  apply Rmult_lt_0_compat; [lra|]. apply Rmult_lt_0_compat; [|apply Rinv_0_lt_compat, ln10_pos]. rewrite <- ln_1. apply ln_increasing; [lra|].
  assert (0 < Rpower 10 (2/5 * (m - m5))) by exact E. lra.
Qed.
Print Assumptions C394_positive.
Theorem C394_fainter : forall m m' m5 m5', m - m5 < m' - m5' -> dmag m m5 < dmag m' m5'.
Proof.
  intros m m' m5 m5' H. rewrite (dmag_is m m5), (dmag_is m' m5'). apply Rmult_lt_compat_l; [lra|].
  apply Rmult_lt_compat_r; [apply Rinv_0_lt_compat, ln10_pos|].
  assert (0 < Rpower 10 (2/5 * (m - m5))) by apply exp_pos.
  assert (Rpower 10 (2/5 * (m - m5)) < Rpower 10 (2/5 * (m' - m5'))) by (apply rp10_lt; lra).
  apply ln_increasing; lra.
Qed.
Print Assumptions C394_fainter.
Theorem C394_depth : forall m, dmag m m = 5/2 * (ln (6/5) / ln 10).
Proof.
  intros m. rewrite (dmag_is m m). replace (2/5 * (m - m)) with 0 by ring. rewrite Rpower_O by lra. do 3 f_equal. lra.
Qed.
Print Assumptions C394_depth.
Example C394_case : dmag 20 24 < dmag 20 23.
Proof. apply C394_fainter. lra. Qed.
