(** Properties of the template metric: C278-C279. *)
From Coq Require Import String Ascii Reals ZArith Lra Lia Psatz List Permutation Sorted.
From Verif Require Import Base Depth_Model Depth_Spec Depth_Proofs Template_Model Template_Spec Template_Proofs Template_Proofs2 Template_Props Small_Spec.
From Verif Require Small_Model Small_Proofs.
Import ListNotations.
Open Scope R_scope.

(** ** C278: images before and with the template *)
(** The images with a template are the visits of later nights than the night reported; the light curve lists them in time
    order with their times, nights, bands, depths and seeings. *)
Theorem C278_with : forall cf dec data r,
  run cf dec data = Ok (Some r) ->
  CountIs (fun v => (te_night r < tv_night v)%Z) data (te_with r)
  /\ exists sorted later, Permutation data sorted /\ StronglySorted (fun v w => tv_mjd v <= tv_mjd w) sorted
       /\ Sel (fun v => (te_night r < tv_night v)%Z) sorted later
       /\ map (fun l => (lc_mjd l, lc_night l, lc_band l, lc_m5 l, lc_seeing l)) (te_lc r)
          = map (fun v => (tv_mjd v, tv_night v, tv_band v, tv_m5 v, tv_seeing v)) later.
Proof.
  intros cf dec data r H. destruct (run_some _ _ _ _ H) as (bs & bm & pre & c & post & _ & _ & V & _ & _ & T).
  destruct T as (_ & _ & T3 & _ & _ & T4 & _ & _ & _ & _ & _ & _ & T5). rewrite <- V in *. rewrite T3.
  split.
  - rewrite T4, (Small_Proofs.filter_length_perm _ _ _ (vsort_perm data)).
    apply Small_Proofs.count_filter. intros x _. apply Z.ltb_lt.
  - exists (vsort data), (filter (fun v => (tv_night c <? tv_night v)%Z) (vsort data)).
    split; [apply Permutation_sym, vsort_perm|]. split; [apply vsort_sorted|].
    split; [apply sel_filter; intro x; apply Z.ltb_lt|]. rewrite T5, map_map. reflexivity.
Qed.
Print Assumptions C278_with.

(** When night numbers do not decrease with time, the images until the template and the images with it do not overlap. *)
Theorem C278_disjoint : forall cf dec data r,
  run cf dec data = Ok (Some r) ->
  (forall v w, In v data -> In w data -> tv_mjd v <= tv_mjd w -> (tv_night v <= tv_night w)%Z) ->
  (te_until r + te_with r <= length data)%nat.
Proof.
  intros cf dec data r H M. destruct (run_some _ _ _ _ H) as (bs & bm & pre & c & post & _ & _ & V & _ & _ & T).
  destruct T as (_ & _ & T3 & _ & T4 & T5 & _).
  pose proof (vsort_sorted data) as S. pose proof (vsort_length data) as L. rewrite V in S, L.
  assert (IN : forall v, In v (pre ++ c :: post) -> In v data) by (intros v I; rewrite <- V in I; eapply Permutation_in; [apply vsort_perm|exact I]).
  assert (F : filter (fun v => (tv_night c <? tv_night v)%Z) (pre ++ [c]) = []).
  { assert (A : forall v, In v (pre ++ [c]) -> (tv_night v <= tv_night c)%Z).
    { intros v I. apply in_app_or in I. destruct I as [I|[<-|[]]]; [|lia].
      apply M; [apply IN, in_or_app; now left|apply IN, in_or_app; right; now left|].
      clear - S I. induction pre as [|w pre IH]; [destruct I|]. inversion S as [|? ? S' F]; subst. destruct I as [<-|I].
      - rewrite Forall_forall in F. apply F. apply in_or_app. right. now left.
      - now apply IH. }
    clear - A. induction (pre ++ [c]) as [|v l IH]; [reflexivity|]. cbn [filter].
    pose proof (A v (or_introl eq_refl)). destruct (Z.ltb_spec (tv_night c) (tv_night v)); [lia|]. apply IH. intros; apply A. now right. }
  replace (pre ++ c :: post) with ((pre ++ [c]) ++ post) in * by (now rewrite <- app_assoc).
  rewrite filter_app, F in T5. cbn [app] in T5. rewrite T4, T5.
  pose proof (Small_Proofs.filter_length_le (fun v => (tv_night c <? tv_night v)%Z) post).
  rewrite !app_length in L. cbn [length] in L. lia.
Qed.
Print Assumptions C278_disjoint.
Example C278_disjoint_case : exists r, run (site 2) (-0.5) [vis 3 3; vis 1 1; vis 0 1; vis 2 2] = Ok (Some r) /\ te_until r = 3%nat.
Proof. destruct C277_inputs_case as (r & E & _ & U & _). eauto. Qed.

(** Not every visit is counted: visits after the template is complete, in the same night, are neither until nor with it. *)
Theorem C278_all_refuted : ~ (forall cf dec data r, run cf dec data = Ok (Some r) ->
  (te_until r + te_with r)%nat = length data).
Proof.
  intro H. destruct (flat_run 0 [vis 0 1; vis 1 1] 0.9 24) as (r & pre & c & post & E & V & L & T).
  { cbn. lia. } { intros v I. cbn in I. intuition (subst; auto). }
  specialize (H _ _ _ _ E). destruct pre; [|discriminate]. destruct T as (_ & _ & _ & _ & T4 & T5 & _).
  assert (N : tv_night c = 1%Z /\ (forall v, In v ([] ++ c :: post) -> tv_night v = 1%Z)).
  { assert (A : forall v, In v ([] ++ c :: post) -> tv_night v = 1%Z).
    { intros v I. rewrite <- V in I. apply (Permutation_in _ (vsort_perm _)) in I. cbn in I. intuition (subst; auto). }
    split; [apply A; now left|exact A]. }
  destruct N as [NC N].
  assert (F : filter (fun v => (tv_night c <? tv_night v)%Z) ([] ++ c :: post) = []).
  { clear - N NC. induction ([] ++ c :: post) as [|v l IH]; [reflexivity|]. cbn [filter]. rewrite NC, (N v) by (now left).
    cbn. rewrite NC in IH. apply IH. intros; apply N; now right. }
  rewrite T4, T5, F in H. cbn in H. discriminate.
Qed.
Print Assumptions C278_all_refuted.

(** Visits of several bands: every visit is compared with the thresholds of the alphabetically first band.  Adding a later
    visit in g takes away the template of a visit in r that met the threshold of r. *)
Definition solo (mjd : R) (night : Z) (b : string) (m : R) : visit := {| tv_mjd := mjd; tv_night := night; tv_band := b; tv_m5 := m; tv_seeing := 0.5 |}.
Definition max_site : config :=
  {| cf_k := 0; cf_seeing := 0.8; cf_seeing_pct := 50; cf_m5 := inl default_m5; cf_m5_pct := 0; cf_lat := -0.5;
     cf_wavelens := (fun _ => Some 500); cf_season := (fun m => m / 365.25) |}.
Lemma max_two a b : a <= b -> percentile [a; b] (100 - 0) = b.
Proof.
  intro L. apply percentile_unique with (p := 100 - 0) (l := [a; b]).
  - apply percentile_is; [discriminate|lra].
  - exists [a; b], 1%nat, 0, b, b. split; [reflexivity|]. split; [constructor; [constructor; constructor|constructor; [exact L|constructor]]|]. split; [cbn; lra|]. split; [lra|]. split; [reflexivity|]. split; [right; split; reflexivity|ring].
Qed.
Theorem C278_band_refuted : ~ (forall cf dec data v r r',
  run cf dec data = Ok (Some r) -> run cf dec (data ++ [v]) = Ok (Some r') ->
  (forall w, In w data -> tv_mjd w < tv_mjd v /\ tv_band w <> tv_band v) -> (te_night r' <= te_night r)%Z).
Proof.
  intro H. set (w := solo 0 1 "r" 24.6). set (v := solo 1 2 "g" 25.5).
  assert (V1 : vsort [w] = [w]) by reflexivity.
  assert (V2 : vsort ([w] ++ [v]) = [w; v]).
  { cbn. destruct (Rle_dec 0 1) as [|C]; [reflexivity|exfalso; lra]. }
  assert (B1 : benches max_site (-0.5) [w] = Ok (0.8, 24.5)).
  { rewrite (benches_band max_site _ [w] "r" 500 24.5 (-0.12)); try reflexivity; [|discriminate|intros u [<-|[]]; reflexivity].
    cbn [max_site cf_seeing cf_lat cf_seeing_pct cf_m5_pct]. rewrite airmass1, best1, best1_m5.
    rewrite (percentile_flat 0.5), (percentile_flat 24.6); try lra; try discriminate; try (intros y [<-|[]]; reflexivity).
    rewrite Rmax_left, Rmin_left by lra. reflexivity. }
  assert (B2 : benches max_site (-0.5) [w; v] = Ok (0.8, 24.9)).
  { rewrite (benches_first max_site _ w [v] "g" 500 24.9 (-0.21)); try reflexivity.
    cbn [max_site cf_seeing cf_lat cf_seeing_pct cf_m5_pct]. rewrite airmass1, best1, best1_m5.
    rewrite (percentile_flat 0.5); try lra; try discriminate; [|intros y [<-|[<-|[]]]; reflexivity].
    change (map tv_m5 [w; v]) with [24.6; 25.5]. rewrite max_two by lra. rewrite Rmax_left, Rmin_left by lra. reflexivity. }
  assert (G1 : ok_visit 0.8 24.5 w = true) by (apply ok_visit_spec; cbn; lra).
  assert (G2 : ok_visit 0.8 24.9 v = true) by (apply ok_visit_spec; cbn; lra).
  assert (G3 : ok_visit 0.8 24.9 w = false).
  { destruct (ok_visit 0.8 24.9 w) eqn:E; [|reflexivity]. apply ok_visit_spec in E. cbn in E. lra. }
  destruct (run max_site (-0.5) [w]) as [[r|]|e] eqn:E1.
  2: { apply run_none in E1. destruct E1 as [C|(bs & bm & B & C)]; [cbn in C; lia|]. rewrite V1, B1 in B. injection B as <- <-.
       cbn [filter] in C. rewrite G1 in C. cbn in C. lia. }
  2: { apply run_err in E1. rewrite V1 in E1. congruence. }
  destruct (run max_site (-0.5) ([w] ++ [v])) as [[r'|]|e] eqn:E2.
  2: { apply run_none in E2. destruct E2 as [C|(bs & bm & B & C)]; [cbn in C; lia|]. rewrite V2, B2 in B. injection B as <- <-.
       cbn [app filter] in C. rewrite G2, G3 in C. cbn in C. lia. }
  2: { apply run_err in E2. rewrite V2 in E2. congruence. }
  specialize (H _ _ _ _ _ _ E1 E2).
  assert (N1 : te_night r = 1%Z).
  { destruct (run_some _ _ _ _ E1) as (bs & bm & pre & c & post & _ & _ & V & _ & _ & T). destruct T as (_ & _ & -> & _).
    rewrite V1 in V. destruct pre as [|x [|y pre]]; injection V; intros; subst; try reflexivity; discriminate. }
  assert (N2 : te_night r' = 2%Z).
  { destruct (run_some _ _ _ _ E2) as (bs & bm & pre & c & post & B & _ & V & G & _ & T). destruct T as (_ & _ & -> & _).
    rewrite V2 in V, B. rewrite B2 in B. injection B as <- <-.
    destruct pre as [|x [|y pre]].
    - cbn in V. injection V as <- _. congruence.
    - cbn in V. injection V as _ <- _. reflexivity.
    - cbn in V. injection V as _ _ C. destruct pre; discriminate. }
  rewrite N1, N2 in H. specialize (H ltac:(intros u [<-|[]]; split; [cbn; lra|discriminate])). lia.
Qed.
Print Assumptions C278_band_refuted.

(** ** C279: depth and seeing of the template and of the difference images *)
(** The template has the depth of its inputs co-added, at least the depth of each; its seeing is the mean of the squares
    of the inputs' seeings weighted by inverse variance, between the best and the worst input. *)
Theorem C279_template : forall cf dec data r,
  run cf dec data = Ok (Some r) ->
  same_flux (te_m5 r) (te_input_m5s r)
  /\ (forall m, In m (te_input_m5s r) -> m <= te_m5 r)
  /\ (exists inputs : list (R * R), map fst inputs = te_input_m5s r /\ map snd inputs = te_input_seeing r
        /\ te_seeing r ^ 2 * fold_right Rplus 0 (map (fun i => / noise (fst i) ^ 2) inputs)
           = fold_right Rplus 0 (map (fun i => snd i ^ 2 / noise (fst i) ^ 2) inputs))
  /\ forall lo hi, 0 <= lo -> (forall s, In s (te_input_seeing r) -> lo <= s <= hi) -> lo <= te_seeing r <= hi.
Proof.
  intros cf dec data r H. destruct (run_some _ _ _ _ H) as (bs & bm & pre & c & post & _ & _ & V & G & L & T).
  destruct T as (_ & _ & _ & _ & _ & _ & T1 & T2 & _ & T3 & T4 & _).
  set (inputs := filter (ok_visit bs bm) (pre ++ [c])) in *.
  assert (NE : inputs <> []).
  { unfold inputs. rewrite filter_app. cbn. rewrite G. intro C. apply app_eq_nil in C. destruct C. discriminate. }
  pose proof (template_m5_coadd inputs NE) as CO. rewrite T1, T2, T3, T4.
  split; [now apply coadd_Val_inv in CO|]. split; [intros m I; eapply coadd_deepest; eassumption|]. split.
  - exists (map (fun v => (tv_m5 v, tv_seeing v)) inputs). rewrite !map_map. split; [reflexivity|]. split; [reflexivity|].
    destruct (seeing_sq inputs NE) as [E _]. unfold wsum, rsum in E.
    rewrite (map_ext _ (fun v => flux (tv_m5 v))) by (intro v; cbn [fst]; apply inv_noise).
    rewrite (map_ext (fun x => snd (tv_m5 x, tv_seeing x) ^ 2 / noise (fst (tv_m5 x, tv_seeing x)) ^ 2) (fun v => tv_seeing v ^ 2 * flux (tv_m5 v)))
      by (intro v; cbn [fst snd]; unfold Rdiv; now rewrite inv_noise).
    exact E.
  - intros lo hi L0 B. apply seeing_between; [assumption|assumption|]. intros v I. apply B. now apply in_map.
Qed.
Print Assumptions C279_template.

(** The noise of a difference image is that of its science image and of the template added in squares, so it is shallower
    than both; and the alerts of all difference images add up to the total. *)
Theorem C279_difference : forall cf dec data r,
  run cf dec data = Ok (Some r) ->
  (forall l, In l (te_lc r) ->
     noise (lc_diff l) ^ 2 = noise (lc_m5 l) ^ 2 + noise (te_m5 r) ^ 2
     /\ lc_diff l < lc_m5 l /\ lc_diff l < te_m5 r
     /\ lc_alerts l = 10000 * Rpower 10 (0.6 * (lc_diff l - 24.7)))
  /\ te_alerts r = fold_right Rplus 0 (map lc_alerts (te_lc r))
  /\ length (te_lc r) = te_with r.
Proof.
  intros cf dec data r H. destruct (run_some _ _ _ _ H) as (bs & bm & pre & c & post & _ & _ & V & G & L & T).
  destruct T as (_ & _ & _ & _ & _ & T0 & T1 & _ & T2 & _ & _ & _ & T5). rewrite T5, T0, T2.
  split; [|split].
  - intros l I. apply in_map_iff in I. destruct I as (v & <- & _). cbn [lc_diff lc_m5 lc_alerts].
    pose proof (diff_noise (te_m5 r) v) as D. split; [exact D|].
    pose proof (noise_pos (tv_m5 v)). pose proof (noise_pos (te_m5 r)). pose proof (noise_pos (diff_m5 (te_m5 r) v)).
    split; [apply noise_lt; nra|]. split; [apply noise_lt; nra|reflexivity].
  - rewrite map_map. reflexivity.
  - apply map_length.
Qed.
Print Assumptions C279_difference.

(** The fraction of later images with seeing worse than the template lies between 0 and 1 when there are later images. *)
Theorem C279_fraction : forall cf dec data r,
  run cf dec data = Ok (Some r) -> (0 < te_with r)%nat ->
  exists f n, te_better r = Some f /\ CountIs (fun l => te_seeing r < lc_seeing l) (te_lc r) n /\ f = INR n / INR (te_with r) /\ 0 <= f <= 1.
Proof.
  intros cf dec data r H P. destruct (run_some _ _ _ _ H) as (bs & bm & pre & c & post & _ & _ & V & G & L & T).
  destruct T as (_ & _ & _ & _ & _ & T0 & _ & _ & _ & _ & _ & T1 & T5).
  set (later := filter (fun v => (tv_night c <? tv_night v)%Z) (pre ++ c :: post)) in *.
  assert (CI : CountIs (fun l => te_seeing r < lc_seeing l) (te_lc r) (length (filter (fun v => rltb (te_seeing r) (tv_seeing v)) later))).
  { rewrite T5.
    replace (length (filter (fun v => rltb (te_seeing r) (tv_seeing v)) later)) with
      (length (filter (fun l => rltb (te_seeing r) (lc_seeing l)) (map (fun v => {| lc_mjd := tv_mjd v; lc_night := tv_night v; lc_band := tv_band v; lc_diff := diff_m5 (te_m5 r) v; lc_m5 := tv_m5 v; lc_seeing := tv_seeing v; lc_alerts := n_alerts (diff_m5 (te_m5 r) v) |}) later)))
      by (now rewrite count_map).
    apply Small_Proofs.count_filter. intros x _. apply Small_Proofs.Rlt_b. }
  exists (INR (length (filter (fun v => rltb (te_seeing r) (tv_seeing v)) later)) / INR (length later)), (length (filter (fun v => rltb (te_seeing r) (tv_seeing v)) later)).
  split. { rewrite T1. destruct later; [cbn in T0; lia|reflexivity]. }
  split; [exact CI|]. split; [now rewrite T0|].
  pose proof (Small_Proofs.filter_length_le (fun v => rltb (te_seeing r) (tv_seeing v)) later) as LE. apply le_INR in LE.
  assert (0 < INR (length later)) by (apply lt_0_INR; lia).
  split; [apply Rmult_le_pos; [apply pos_INR|left; now apply Rinv_0_lt_compat]|].
  apply Rmult_le_reg_r with (INR (length later)); [assumption|]. unfold Rdiv. rewrite Rmult_assoc, Rinv_l by lra. lra.
Qed.
Print Assumptions C279_fraction.
(** four visits, one after the template *)
Example C279_case : exists r, run (site 2) (-0.5) [vis 3 3; vis 1 1; vis 0 1; vis 2 2] = Ok (Some r) /\ te_with r = 1%nat /\ te_seeing r = 0.9.
Proof.
  destruct C277_inputs_case as (r & E & N & U & _). exists r. split; [exact E|]. split.
  - pose proof (proj1 (C278_with _ _ _ _ E)) as C. rewrite N in C.
    assert (C' : CountIs (fun v => (2 < tv_night v)%Z) [vis 3 3; vis 1 1; vis 0 1; vis 2 2] 1).
    { apply count_yes; [cbn; lia|]. do 3 (apply count_no; [cbn; lia|]). constructor. }
    eapply Small_Proofs.count_unique; eassumption.
  - destruct (C279_template _ _ _ _ E) as (_ & _ & _ & B). destruct (C277_inputs _ _ _ _ E) as (pre & c & post & inputs & (P & _ & _ & S & _) & _ & I & _).
    assert (Q : forall s, In s (te_input_seeing r) -> s = 0.9).
    { intros s Is. rewrite I in Is. apply in_map_iff in Is. destruct Is as (v & <- & Iv).
      assert (In v (pre ++ [c])). { clear - S Iv. induction S; [destruct Iv| |right; auto]. destruct Iv as [<-|Iv]; [now left|right; auto]. }
      assert (Id : In v [vis 3 3; vis 1 1; vis 0 1; vis 2 2]).
      { eapply Permutation_in; [apply Permutation_sym; exact P|]. apply in_app_or in H. apply in_or_app. destruct H as [H|[<-|[]]]; [now left|right; now left]. }
      cbn in Id. intuition (subst; reflexivity). }
    destruct (B 0.9 0.9) as [A1 A2]; [lra|intros s Is; rewrite (Q s Is); lra|]. lra.
Qed.

(** Without later images the fraction is not a number. *)
Theorem C279_fraction_refuted : ~ (forall cf dec data r, run cf dec data = Ok (Some r) -> exists f, te_better r = Some f).
Proof.
  intro H. destruct (flat_run 0 [vis 0 1] 0.9 24) as (r & pre & c & post & E & V & L & T).
  { cbn. lia. } { intros v I. cbn in I. intuition (subst; auto). }
  destruct (H _ _ _ _ E) as (f & F). destruct pre; [|discriminate]. cbn in V. injection V as <- <-.
  destruct T as (_ & _ & _ & _ & _ & _ & _ & _ & _ & _ & _ & T & _). cbn in T. congruence.
Qed.
Print Assumptions C279_fraction_refuted.
