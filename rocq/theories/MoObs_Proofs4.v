(** Lemmas about instantaneous colours, light curve inversion and known objects. *)
From Verif Require Import Base Technical_Model Technical_Spec Technical_Proofs Technical_Proofs3 MoObs_Model MoObs_Spec MoObs_Proofs MoObs_Proofs2 MoObs_Proofs3.
From Coq Require Import Lia Permutation Sorted QArith Qabs.
Open Scope Z_scope.

(** * InstantaneousColorMetric *)
Lemma last_before t1 t : StronglySorted Z.lt t1 -> (exists a, In a t1 /\ a <= t) ->
  let b := nth (ss_right t1 t - 1)%nat t1 0 in In b t1 /\ b <= t /\ forall a, In a t1 -> a <= t -> a <= b.
Proof.
  intros Hs (a0 & I0 & L0) b. assert (0 < ss_right t1 t)%nat as Hp.
  { unfold ss_right. assert (In a0 (filter (fun y => y <=? t) t1)) as Hi by (apply filter_In; split; [exact I0|apply Z.leb_le, L0]). destruct (filter (fun y => y <=? t) t1); [destruct Hi|cbn; lia]. }
  destruct (proj1 (count_le_sorted t1 t (ss_right t1 t - 1) Hs)) as [H1 H2]. { unfold ss_right in *. lia. }
  split; [apply nth_In, H1|]. split; [exact H2|]. intros a Ia La. apply (In_nth _ _ 0) in Ia. destruct Ia as (i & Hi & <-). apply nth_le_sorted; [exact Hs|]. split; [|exact H1].
  assert (i < ss_right t1 t)%nat; [|lia]. apply (count_le_sorted t1 t i Hs). auto.
Qed.
Lemma count_map_len {A} (f : A -> Z) (p : Z -> bool) l : length (filter p (map f l)) = count (fun x => p (f x)) l.
Proof. rewrite filter_map_z, map_length. reflexivity. Qed.
Lemma instant_spec np lim d b1 b2 l : StronglySorted (fun a b => m_mjd a < m_mjd b) l -> 1 <= np ->
  (forall o2, In o2 l -> lim <= m_snr o2 -> m_band o2 = b2 -> exists o1, In o1 l /\ lim <= m_snr o1 /\ m_band o1 = b1 /\ m_mjd o1 <= m_mjd o2) ->
  instant_color np lim d b1 b2 l = 1 <->
    2 * np <= Z.of_nat (count (fun o => lim <=? m_snr o) l) /\
    np <= Z.of_nat (count (fun o2 => (lim <=? m_snr o2) && String.eqb (m_band o2) b2 &&
      existsb (fun o1 => (lim <=? m_snr o1) && String.eqb (m_band o1) b1 && (m_mjd o1 <=? m_mjd o2) && (m_mjd o2 - m_mjd o1 <? d)) l) l).
Proof.
  intros Hs Hn Hb. unfold instant_color. cbv zeta. set (v := filter (fun o => lim <=? m_snr o) l). change (count (fun o => lim <=? m_snr o) l) with (length v).
  set (t1 := map m_mjd (filter (fun o => String.eqb (m_band o) b1) v)). assert (StronglySorted Z.lt t1) as Hs1 by (apply (sorted_map m_mjd Z.lt), sorted_filter, sorted_filter, Hs).
  set (v2 := filter (fun o => String.eqb (m_band o) b2) v). rewrite map_map, count_map_len. rewrite map_length.
  assert (forall x, In x t1 <-> exists o1, In o1 l /\ lim <= m_snr o1 /\ m_band o1 = b1 /\ m_mjd o1 = x) as H1.
  { intros x. unfold t1. rewrite in_map_iff. split.
    - intros (o & E & Ho). apply filter_In in Ho. destruct Ho as [Ho E1]. apply filter_In in Ho. rewrite Z.leb_le in Ho. apply String.eqb_eq in E1. exists o. tauto.
    - intros (o & I & L & B & E). exists o. split; [exact E|]. apply filter_In. split; [apply filter_In; split; [exact I|apply Z.leb_le, L]|apply String.eqb_eq, B]. }
  assert (count (fun x => m_mjd x - nth (ss_right t1 (m_mjd x) - 1) t1 0 <? d) v2 =
    count (fun o2 => (lim <=? m_snr o2) && String.eqb (m_band o2) b2 && existsb (fun o1 => (lim <=? m_snr o1) && String.eqb (m_band o1) b1 && (m_mjd o1 <=? m_mjd o2) && (m_mjd o2 - m_mjd o1 <? d)) l) l) as Hc.
  { unfold v2, v. rewrite !count_filter. apply count_ext. intros o2 I2. destruct (Z.leb_spec lim (m_snr o2)) as [L2|]; [|reflexivity]. destruct (String.eqb_spec (m_band o2) b2) as [B2|]; [|reflexivity]. cbn [andb].
    destruct (Hb o2 I2 L2 B2) as (o1 & I1 & L1 & B1 & M1). destruct (last_before t1 (m_mjd o2) Hs1) as (J1 & J2 & J3). { exists (m_mjd o1). split; [apply H1; exists o1; auto|exact M1]. }
    set (b := nth (ss_right t1 (m_mjd o2) - 1) t1 0) in *. destruct (Z.ltb_spec (m_mjd o2 - b) d) as [Hd|Hd].
    - symmetry. apply existsb_exists. apply H1 in J1. destruct J1 as (o & I & L & B & E). exists o. split; [exact I|]. rewrite !andb_true_iff, Z.leb_le, String.eqb_eq, Z.leb_le, Z.ltb_lt. repeat split; auto; lia.
    - symmetry. destruct (existsb _ l) eqn:E; [|reflexivity]. apply existsb_exists in E. destruct E as (o & I & E). rewrite !andb_true_iff, Z.leb_le, String.eqb_eq, Z.leb_le, Z.ltb_lt in E. exfalso. assert (m_mjd o <= b); [|lia]. apply J3; [apply H1; exists o; tauto|tauto]. }
  rewrite Hc. set (K := count _ l) in *. destruct (Z.ltb_spec (Z.of_nat (length v)) (np * 2)) as [Hlt|Hge]; [split; [discriminate|lia]|].
  destruct (Nat.eqb_spec (length t1) 0) as [E1|E1].
  - cbn [orb]. split; [discriminate|]. intros [_ Hk]. exfalso. assert (v2 = []) as E2.
    { destruct v2 as [|o t] eqn:E2; [reflexivity|]. assert (In o v2) as Hi by (rewrite E2; left; reflexivity). apply filter_In in Hi. destruct Hi as [Hi Eb]. apply filter_In in Hi. rewrite Z.leb_le in Hi. apply String.eqb_eq in Eb. destruct (Hb o (proj1 Hi) (proj2 Hi) Eb) as (o1 & I1 & L1 & B1 & M1). assert (In (m_mjd o1) t1) as Hj by (apply H1; exists o1; auto). destruct t1; [destruct Hj|discriminate]. }
    rewrite E2 in Hc. cbn in Hc. lia.
  - destruct (Nat.eqb_spec (length v2) 0) as [E2|E2].
    + cbn [orb]. split; [discriminate|]. intros [_ Hk]. exfalso. destruct v2; [cbn in Hc; lia|discriminate].
    + cbn [orb]. destruct (Z.leb_spec np (Z.of_nat K)); split; try discriminate; try lia; intros; split; lia.
Qed.

(** * LightcurveInversionAsteroidMetric *)
Lemma median2_spec l : median_twice l (median2 l).
Proof.
  exists (sort_z l). split; [apply sort_z_perm|]. split; [apply sort_z_sorted|]. unfold median2. cbv zeta. destruct (Nat.even (length l)) eqn:E.
  - apply Nat.even_spec in E. destruct E as [k E]. rewrite E. f_equal. f_equal. replace (2 * k / 2)%nat with k by (rewrite Nat.mul_comm, Nat.div_mul; lia). destruct k as [|k]; [reflexivity|]. replace (2 * S k - 1)%nat with (1 + k * 2)%nat by lia. rewrite Nat.div_add by lia. cbn. lia.
  - assert (Nat.odd (length l) = true) as O by (unfold Nat.odd; rewrite E; reflexivity). apply Nat.odd_spec in O. destruct O as [k O]. rewrite O. replace ((2 * k + 1 - 1) / 2)%nat with ((2 * k + 1) / 2)%nat; [lia|]. replace (2 * k + 1 - 1)%nat with (k * 2)%nat by lia. replace (2 * k + 1)%nat with (1 + k * 2)%nat by lia. rewrite Nat.div_add, Nat.div_mul by lia. reflexivity.
Qed.
Lemma median_twice_fun l m m' : median_twice l m -> median_twice l m' -> m = m'.
Proof. intros (s & P & S & ->) (s' & P' & S' & ->). assert (s = s') as -> by (apply sorted_perm_eq; [exact S|exact S'|rewrite P, P'; reflexivity]). reflexivity. Qed.
Lemma range_spread l : l <> [] -> spread l (range_z l).
Proof.
  intros H. unfold range_z. destruct (zmax_list l) as [b|] eqn:Eb; [|destruct l; [congruence|discriminate]]. destruct (zmin_list l) as [a|] eqn:Ea; [|destruct l; [congruence|discriminate]]. apply zmax_spec in Eb. apply zmin_spec in Ea. exists a, b. split; [tauto|]. split; [tauto|]. split; [reflexivity|]. intros x Hx. split; [apply Ea|apply Eb]; exact Hx.
Qed.
Lemma spread_fun l d d' : spread l d -> spread l d' -> d = d'.
Proof. intros (a & b & Ia & Ib & -> & H) (a' & b' & Ia' & Ib' & -> & H'). pose proof (H a' Ia'). pose proof (H b' Ib'). pose proof (H' a Ia). pose proof (H' b Ib). lia. Qed.
Lemma qtotal_map_ext {A} (f g : A -> Q) l : (forall x, In x l -> (f x == g x)%Q) -> (qtotal (map f l) == qtotal (map g l))%Q.
Proof. induction l as [|x l IH]; intros H; [reflexivity|]. cbn [map qtotal fold_right]. fold (qtotal (map f l)) (qtotal (map g l)). rewrite (H x (or_introl eq_refl)), IH; [reflexivity|]. intros y Hy. apply H. right. exact Hy. Qed.
Lemma qtotal_scale (f : Z -> Z) k l : (qtotal (map (fun x => inject_Z (f x) / k) l) == inject_Z (zsum (map f l)) / k)%Q.
Proof. unfold zsum. induction l as [|x l IH]; cbn [map qtotal fold_right]; [unfold Qdiv; rewrite Qmult_0_l; reflexivity|]. fold (qtotal (map (fun x => inject_Z (f x) / k)%Q l)). rewrite IH, inject_Z_plus. unfold Qdiv. ring. Qed.
Lemma mean_dev c : c <> [] ->
  let n := Z.of_nat (length c) in
  (mean_abs_dev (map (fun x => inject_Z x / 2) c) == inject_Z (zsum (map (fun x => Z.abs (n * x - zsum c)) c)) / inject_Z (2 * n * n))%Q.
Proof.
  intros Hc n. assert (0 < n) as Hn by (unfold n; destruct c; [congruence|cbn; lia]). assert (~ inject_Z n == 0)%Q as Hq by (unfold Qeq; cbn; lia).
  unfold mean_abs_dev, qavg at 1. rewrite !map_length, map_map. fold n.
  rewrite (qtotal_map_ext _ (fun x => inject_Z (Z.abs (n * x - zsum c)) / inject_Z (2 * n))%Q c).
  - rewrite (qtotal_scale (fun x => Z.abs (n * x - zsum c)) (inject_Z (2 * n)) c). rewrite !inject_Z_mult. field; exact Hq.
  - intros x _. unfold qavg. rewrite map_length. fold n. rewrite (qtotal_scale (fun x => x) 2 c), map_id.
    assert (inject_Z x / 2 - inject_Z (zsum c) / 2 / inject_Z n == inject_Z (n * x - zsum c) * / inject_Z (2 * n))%Q as E.
    { unfold Z.sub. rewrite inject_Z_plus, inject_Z_opp, !inject_Z_mult. field. exact Hq. }
    rewrite E, Qabs_Qmult. unfold Qdiv. apply Qmult_comp; [reflexivity|]. apply Qabs_pos. apply Qinv_le_0_compat. change 0%Q with (inject_Z 0). rewrite <- Zle_Qle. lia.
Qed.
Lemma inversion_ok_spec lons phases : lons <> [] -> phases <> [] -> inversion_ok lons phases = true <-> invertible lons phases.
Proof.
  intros Hl Hp. pose proof (median2_spec lons) as Hm. pose proof (range_spread lons Hl) as Hr. pose proof (range_spread phases Hp) as Hrp.
  assert (forall m, median_twice lons m -> (map (fun x => inject_Z ((2 * x - m) mod 720) / 2) lons)%Q = map (fun x => inject_Z x / 2)%Q (centred2 lons)) as Hc.
  { intros m Hm'. rewrite (median_twice_fun _ _ _ Hm' Hm). unfold centred2. rewrite map_map. reflexivity. }
  assert (centred2 lons <> []) as Hcn by (unfold centred2; destruct lons; [congruence|discriminate]).
  pose proof (mean_dev (centred2 lons) Hcn) as Hd. cbv zeta in Hd. unfold dev_num in *. assert (length (centred2 lons) = length lons) as Elen by apply map_length. rewrite Elen in Hd.
  set (n := Z.of_nat (length lons)) in *. assert (0 < n) as Hn by (unfold n; destruct lons; [congruence|cbn; lia]). set (D := zsum _) in Hd.
  assert (forall d : Z, (inject_Z d / 8 <= inject_Z D / inject_Z (2 * n * n))%Q <-> d * (n * n) <= 4 * D) as Hq.
  { intros d. assert (inject_Z D / inject_Z (2 * n * n) == inject_Z (4 * D) / inject_Z (n * n) / 8)%Q as ->. { rewrite !inject_Z_mult. field. unfold Qeq; cbn; lia. }
    split.
    - intros H. assert (inject_Z d <= inject_Z (4 * D) / inject_Z (n * n))%Q as H'. { setoid_replace (inject_Z d) with (inject_Z d / 8 * 8)%Q by field. setoid_replace (inject_Z (4 * D) / inject_Z (n * n))%Q with (inject_Z (4 * D) / inject_Z (n * n) / 8 * 8)%Q by (field; unfold Qeq; cbn; lia). apply Qmult_le_compat_r; [exact H|discriminate]. }
      assert (Qle_bool (inject_Z d) (inject_Z (4 * D) / inject_Z (n * n)) = true) as H2 by (apply Qle_bool_iff; exact H'). rewrite weight_test' in H2 by nia. apply Z.leb_le in H2. exact H2.
    - intros H. assert (inject_Z d <= inject_Z (4 * D) / inject_Z (n * n))%Q as H' by (apply Qle_bool_iff; rewrite weight_test' by nia; apply Z.leb_le; exact H). exact (Qmult_le_compat_r _ _ (/ 8) H' ltac:(discriminate)). }
  unfold inversion_ok. cbv zeta. fold n. unfold dev_num. cbv zeta. fold n D. rewrite !andb_true_iff, !Z.leb_le. split.
  - intros [[H1 H2] H3]. split.
    + exists (median2 lons), (range_z lons). split; [exact Hm|]. split; [exact Hr|]. split; [exact H1|]. rewrite (Hc _ Hm), Hd. apply Hq. exact H2.
    + destruct Hrp as (a & b & Ia & Ib & E & _). exists a, b. repeat split; auto. lia.
  - intros [(m & d & Hm' & Hs' & H1 & H2) (a & b & Ia & Ib & H3)]. rewrite (Hc _ Hm'), Hd in H2. apply Hq in H2. rewrite (spread_fun _ _ _ Hr Hs'). repeat split; auto. destruct Hrp as (a' & b' & _ & _ & -> & Hall). pose proof (Hall a Ia). pose proof (Hall b Ib). lia.
Qed.
Lemma clip_pos lim cap o : 0 < cap -> (0 <? clip_snr lim cap o) = weighed lim o && (0 <? m_snr o).
Proof.
  intros Hc. unfold clip_snr, weighed. destruct lim as [s|]; [destruct (Z.leb_spec (m_snr o) s)|destruct (m_vis o =? 0)]; lia.
Qed.
Lemma counted_eq lim cap f l : 0 < cap -> filter (fun o => 0 <? clip_snr lim cap (l_obs o)) (filter (fun o => String.eqb (m_band (l_obs o)) f) l) = counted lim f l.
Proof.
  intros Hc. unfold counted. induction l as [|o l IH]; [reflexivity|]. cbn [filter]. destruct (String.eqb (m_band (l_obs o)) f); cbn [andb filter]; [|exact IH]. rewrite clip_pos by exact Hc. destruct (weighed lim (l_obs o) && (0 <? m_snr (l_obs o))); rewrite IH; reflexivity.
Qed.
Lemma lobs_weight lim cap f l : zsum (map (fun o => clip_snr lim cap (l_obs o)) (filter (fun o => String.eqb (m_band (l_obs o)) f) l)) = band_weight lim cap f (map l_obs l).
Proof.
  rewrite <- snr_sum_spec. unfold snr_sum. f_equal. induction l as [|o l IH]; [reflexivity|]. cbn [map filter]. destruct (String.eqb (m_band (l_obs o)) f); cbn [map]; rewrite IH; reflexivity.
Qed.
Lemma weight_nonempty lim cap f l : 0 < cap -> 0 < band_weight lim cap f (map l_obs l) -> counted lim f l <> [].
Proof.
  intros Hc H E. assert (band_weight lim cap f (map l_obs l) <= 0); [|lia]. rewrite <- lobs_weight. unfold zsum. rewrite <- (counted_eq lim cap f l Hc) in E. clear H. induction (filter (fun o => String.eqb (m_band (l_obs o)) f) l) as [|o t IH]; [cbn; lia|]. cbn [filter] in E. destruct (Z.ltb_spec 0 (clip_snr lim cap (l_obs o))); [discriminate|]. cbn [map fold_right]. specialize (IH E). lia.
Qed.
Lemma inversion_spec weight cap lim fl l : 0 < weight -> 0 < cap ->
  (inversion weight cap lim fl l = 0 \/ inversion weight cap lim fl l = 1) /\
  (inversion weight cap lim fl l = 1 <-> exists f, In f fl /\ weight * cap <= band_weight lim cap f (map l_obs l) /\ invertible (map l_lon (counted lim f l)) (map l_phase (counted lim f l))).
Proof.
  intros Hw Hc. unfold inversion. cbv zeta. set (q := existsb _ fl).
  assert (q = true <-> exists f, In f fl /\ weight * cap <= band_weight lim cap f (map l_obs l) /\ invertible (map l_lon (counted lim f l)) (map l_phase (counted lim f l))) as Hq.
  { unfold q. rewrite existsb_exists. split.
    - intros (f & Hf & H). apply andb_true_iff in H. destruct H as [H1 H2]. rewrite weight_test' in H1 by exact Hc. apply Z.leb_le in H1. rewrite lobs_weight in H1. rewrite (counted_eq lim cap f l Hc) in H2. assert (counted lim f l <> []) as Hne by (apply (weight_nonempty lim cap); [exact Hc|nia]). exists f. split; [exact Hf|]. split; [exact H1|]. apply inversion_ok_spec; [destruct (counted lim f l); [congruence|discriminate]|destruct (counted lim f l); [congruence|discriminate]|exact H2].
    - intros (f & Hf & H1 & H2). exists f. split; [exact Hf|]. assert (counted lim f l <> []) as Hne by (apply (weight_nonempty lim cap); [exact Hc|nia]). apply andb_true_iff. rewrite weight_test', lobs_weight by exact Hc. split; [apply Z.leb_le, H1|]. rewrite (counted_eq lim cap f l Hc). apply inversion_ok_spec; [destruct (counted lim f l); [congruence|discriminate]|destruct (counted lim f l); [congruence|discriminate]|exact H2]. }
  destruct (existsb (fun o => 0 <? clip_snr lim cap (l_obs o)) l) eqn:E; cbn [negb].
  - destruct q; split; auto; rewrite <- Hq; split; intros; congruence || discriminate.
  - split; [auto|]. split; [discriminate|]. intros (f & Hf & H1 & _). exfalso. assert (counted lim f l <> []) as Hne by (apply (weight_nonempty lim cap); [exact Hc|nia]). destruct (counted lim f l) as [|o t] eqn:Ec; [congruence|]. assert (In o (counted lim f l)) as Hi by (rewrite Ec; left; reflexivity). apply filter_In in Hi. destruct Hi as [Hi Hb]. rewrite <- not_true_iff_false in E. apply E. apply existsb_exists. exists o. split; [exact Hi|]. rewrite clip_pos by exact Hc. rewrite <- andb_assoc in Hb. apply andb_true_iff in Hb. tauto.
Qed.

(** * KnownObjectsMetric *)
Lemma pick_obs_in draw ts eff t : pick_obs draw ts eff = Some t -> In t ts.
Proof. intros E. apply zmin_spec in E. destruct E as [E _]. apply in_map_iff in E. destruct E as ((x & d) & <- & Hi). apply filter_In in Hi. destruct Hi as [Hi _]. apply in_combine_l in Hi. exact Hi. Qed.
Lemma pick_obs_sure draw ts eff : length draw = length ts -> (forall d, In d draw -> d <= eff) -> pick_obs draw ts eff = zmin_list ts.
Proof.
  intros Hl Hd. unfold pick_obs. rewrite filter_all; [|intros (x & d) Hx; cbn; apply Z.leb_le, Hd; apply in_combine_r in Hx; exact Hx]. f_equal. clear Hd. revert ts Hl. induction draw as [|d draw IH]; intros [|t ts] Hl; try discriminate; [reflexivity|]. cbn. f_equal. apply IH. cbn in Hl. lia.
Qed.
Lemma known_in elong ps draw l t : known_periods elong ps draw l = Some t -> exists lo hi k, In (lo, hi, k) ps /\ In t (over_peak elong lo hi (k_thresh k) l).
Proof.
  revert draw. induction ps as [|((lo & hi) & k) ps IH]; intros draw E; [discriminate|]. cbn [known_periods] in E. destruct (pick_obs _ _ (k_eff k)) as [t'|] eqn:Ep.
  - injection E as <-. exists lo, hi, k. split; [left; reflexivity|]. apply pick_obs_in in Ep. exact Ep.
  - destruct (IH _ E) as (lo' & hi' & k' & Hi & Ht). exists lo', hi', k'. split; [right; exact Hi|exact Ht].
Qed.
Lemma over_peak_in elong lo hi th l t : In t (over_peak elong lo hi th l) <->
  exists o, In o l /\ k_mjd o = t /\ elong <= k_elong o /\ k_mag o <= th /\ (forall a, lo = Some a -> a <= t) /\ (forall b, hi = Some b -> t < b).
Proof.
  unfold over_peak. rewrite in_map_iff. split.
  - intros (o & <- & Ho). apply filter_In in Ho. destruct Ho as [Ho Hm]. apply filter_In in Ho. destruct Ho as [Ho He]. rewrite !andb_true_iff, Z.leb_le in He. apply Z.leb_le in Hm. destruct He as [[H1 H2] H3]. exists o. repeat split; auto.
    + intros a ->. apply Z.leb_le, H1.
    + intros b ->. apply Z.ltb_lt, H2.
  - intros (o & Ho & <- & He & Hm & H1 & H2). exists o. split; [reflexivity|]. apply filter_In. split; [apply filter_In; split; [exact Ho|]|apply Z.leb_le, Hm]. rewrite !andb_true_iff, Z.leb_le. repeat split; [| |exact He].
    + destruct lo as [a|]; [apply Z.leb_le, H1; reflexivity|reflexivity].
    + destruct hi as [b|]; [apply Z.ltb_lt, H2; reflexivity|reflexivity].
Qed.
Lemma over_peak_len elong lo hi th l : (length (over_peak elong lo hi th l) <= length l)%nat.
Proof. unfold over_peak. rewrite map_length. etransitivity; apply filter_len. Qed.
Section Known.
  Variables (elong s1 s2 s3 : Z) (k1 k2 k3 k4 : kperiod).
  Hypothesis Hs : s1 <= s2 <= s3.
  Let ps := [(None, Some s1, k1); (Some s1, Some s2, k2); (Some s2, Some s3, k3); (Some s3, None, k4)].
  Lemma period_in lo hi k l t : In (lo, hi, k) ps -> In t (over_peak elong lo hi (k_thresh k) l) -> exists o, In o l /\ k_mjd o = t /\ findable elong s1 s2 s3 k1 k2 k3 k4 o.
  Proof.
    intros Hp Ht. apply over_peak_in in Ht. destruct Ht as (o & Ho & <- & He & Hm & H1 & H2). exists o. split; [exact Ho|]. split; [reflexivity|]. split; [exact He|]. unfold period_limit.
    destruct Hp as [E|[E|[E|[E|[]]]]]; injection E as <- <- <-.
    - specialize (H2 _ eq_refl). destruct (Z.ltb_spec (k_mjd o) s1); [exact Hm|lia].
    - specialize (H2 _ eq_refl). specialize (H1 _ eq_refl). destruct (Z.ltb_spec (k_mjd o) s1); [lia|]. destruct (Z.ltb_spec (k_mjd o) s2); [exact Hm|lia].
    - specialize (H2 _ eq_refl). specialize (H1 _ eq_refl). destruct (Z.ltb_spec (k_mjd o) s1); [lia|]. destruct (Z.ltb_spec (k_mjd o) s2); [lia|]. destruct (Z.ltb_spec (k_mjd o) s3); [exact Hm|lia].
    - specialize (H1 _ eq_refl). destruct (Z.ltb_spec (k_mjd o) s1); [lia|]. destruct (Z.ltb_spec (k_mjd o) s2); [lia|]. destruct (Z.ltb_spec (k_mjd o) s3); [lia|exact Hm].
  Qed.
  Lemma period_of l o : In o l -> findable elong s1 s2 s3 k1 k2 k3 k4 o -> exists lo hi k, In (lo, hi, k) ps /\ In (k_mjd o) (over_peak elong lo hi (k_thresh k) l).
  Proof.
    intros Ho [He Hm]. unfold period_limit in Hm. destruct (Z.ltb_spec (k_mjd o) s1) as [H1|H1]; [|destruct (Z.ltb_spec (k_mjd o) s2) as [H2|H2]; [|destruct (Z.ltb_spec (k_mjd o) s3) as [H3|H3]]].
    - exists None, (Some s1), k1. split; [cbn; tauto|]. apply over_peak_in. exists o. repeat split; auto; intros ? E; congruence.
    - exists (Some s1), (Some s2), k2. split; [cbn; tauto|]. apply over_peak_in. exists o. repeat split; auto; intros ? E; injection E as <-; lia.
    - exists (Some s2), (Some s3), k3. split; [cbn; tauto|]. apply over_peak_in. exists o. repeat split; auto; intros ? E; injection E as <-; lia.
    - exists (Some s3), None, k4. split; [cbn; tauto|]. apply over_peak_in. exists o. repeat split; auto; intros ? E; [injection E as <-; lia|discriminate].
  Qed.
  (** periods in order: nothing found before is later than what a later period gives *)
  Lemma known_sure l : forall qs draw, (length qs * length l <= length draw)%nat ->
    (forall d lo hi k, In d draw -> In (lo, hi, k) qs -> d <= k_eff k) ->
    (forall pre lo hi k post lo' hi' k' t t', qs = pre ++ (lo, hi, k) :: post -> In (lo', hi', k') post -> In t (over_peak elong lo hi (k_thresh k) l) -> In t' (over_peak elong lo' hi' (k_thresh k') l) -> t <= t') ->
    match known_periods elong qs draw l with
    | Some t => (exists lo hi k, In (lo, hi, k) qs /\ In t (over_peak elong lo hi (k_thresh k) l)) /\ forall lo hi k t', In (lo, hi, k) qs -> In t' (over_peak elong lo hi (k_thresh k) l) -> t <= t'
    | None => forall lo hi k t', In (lo, hi, k) qs -> ~ In t' (over_peak elong lo hi (k_thresh k) l)
    end.
  Proof.
    induction qs as [|((lo & hi) & k) qs IH]; intros draw Hlen Hd Hord; [intros ? ? ? ? []|]. cbn [known_periods]. set (ts := over_peak elong lo hi (k_thresh k) l). pose proof (over_peak_len elong lo hi (k_thresh k) l) as Ht. fold ts in Ht.
    rewrite pick_obs_sure; [| rewrite firstn_length; cbn in Hlen; lia | intros d Hi; eapply Hd; [rewrite <- (firstn_skipn (length ts) draw); apply in_app_iff; left; exact Hi|left; reflexivity]].
    destruct (zmin_list ts) as [t|] eqn:Em.
    - apply zmin_spec in Em. split; [exists lo, hi, k; split; [left; reflexivity|tauto]|]. intros lo' hi' k' t' [E|Hi] Ht'; [injection E as <- <- <-; apply Em; exact Ht'|]. exact (Hord [] lo hi k qs lo' hi' k' t t' eq_refl Hi (proj1 Em) Ht').
    - assert (ts = []) as E0 by (destruct ts; [reflexivity|discriminate]). specialize (IH (skipn (length ts) draw)). rewrite E0 in *. cbn [length skipn] in *.
      assert (length qs * length l <= length draw)%nat as Hl2 by lia.
      specialize (IH Hl2 (fun d lo' hi' k' Hi Hj => Hd d lo' hi' k' Hi (or_intror Hj))).
      assert (forall pre lo hi k post lo' hi' k' t t', qs = pre ++ (lo, hi, k) :: post -> In (lo', hi', k') post -> In t (over_peak elong lo hi (k_thresh k) l) -> In t' (over_peak elong lo' hi' (k_thresh k') l) -> t <= t') as Hord'.
      { intros pre a b c post a' b' c' t t' E. apply (Hord ((lo, hi, k) :: pre) a b c post a' b' c' t t'). rewrite E. reflexivity. }
      specialize (IH Hord'). destruct (known_periods elong qs draw l) as [t|].
      + destruct IH as [(a & b & c & Hi & Hx) Hmin]. split; [exists a, b, c; split; [right; exact Hi|exact Hx]|]. intros a' b' c' t' [E|Hi'] Ht'; [injection E as <- <- <-; fold ts in Ht'; rewrite E0 in Ht'; destruct Ht'|]. exact (Hmin a' b' c' t' Hi' Ht').
      + intros a' b' c' t' [E|Hi']; [injection E as <- <- <-; fold ts; rewrite E0; tauto|]. exact (IH a' b' c' t' Hi').
  Qed.
  Lemma known_spec badval draw l :
    let r := known_objects elong s1 s2 s3 k1 k2 k3 k4 badval draw l in
    (r = badval \/ exists o, In o l /\ k_mjd o = r /\ findable elong s1 s2 s3 k1 k2 k3 k4 o) /\
    ((4 * length l <= length draw)%nat -> (forall d, In d draw -> d <= k_eff k1 /\ d <= k_eff k2 /\ d <= k_eff k3 /\ d <= k_eff k4) ->
      (forall o, In o l -> findable elong s1 s2 s3 k1 k2 k3 k4 o -> (exists o', In o' l /\ k_mjd o' = r /\ findable elong s1 s2 s3 k1 k2 k3 k4 o') /\ r <= k_mjd o) /\
      ((forall o, In o l -> ~ findable elong s1 s2 s3 k1 k2 k3 k4 o) -> r = badval)).
  Proof.
    intros r. unfold known_objects in r. fold ps in r. assert (r = badval \/ exists o, In o l /\ k_mjd o = r /\ findable elong s1 s2 s3 k1 k2 k3 k4 o) as Hr.
    { unfold r. destruct (known_periods elong ps draw l) as [t|] eqn:E; [right|left; reflexivity]. apply known_in in E. destruct E as (lo & hi & k & Hp & Ht). eapply period_in; eassumption. }
    split; [exact Hr|]. intros Hlen Hd. pose proof (known_sure l ps draw Hlen) as Hk.
    assert (forall d lo hi k, In d draw -> In (lo, hi, k) ps -> d <= k_eff k) as Hd'. { intros d lo hi k Hi Hp. specialize (Hd d Hi). destruct Hp as [E|[E|[E|[E|[]]]]]; injection E as <- <- <-; tauto. }
    specialize (Hk Hd').
    assert (forall pre lo hi k post lo' hi' k' t t', ps = pre ++ (lo, hi, k) :: post -> In (lo', hi', k') post -> In t (over_peak elong lo hi (k_thresh k) l) -> In t' (over_peak elong lo' hi' (k_thresh k') l) -> t <= t') as Hord.
    { intros pre lo hi k post lo' hi' k' t t' E Hp Ht Ht'. apply over_peak_in in Ht. apply over_peak_in in Ht'. destruct Ht as (_ & _ & _ & _ & _ & _ & H2). destruct Ht' as (_ & _ & _ & _ & _ & H1 & _).
      assert (exists a b, hi = Some b /\ lo' = Some a /\ b <= a) as (a & b & -> & -> & Hab); [|specialize (H2 _ eq_refl); specialize (H1 _ eq_refl); lia].
      unfold ps in E. destruct pre as [|x1 [|x2 [|x3 [|x4 pre]]]]; cbn in E; [injection E as <- <- <- <-|injection E as _ <- <- <- <-|injection E as _ _ <- <- <- <-|injection E as _ _ _ <- <- <- <-|injection E as _ _ _ _ E; destruct pre; discriminate].
      all: cbn in Hp; repeat (destruct Hp as [E'|Hp]; [injection E' as <- <- <-; eexists; eexists; split; [reflexivity|split; [reflexivity|lia]]|]); try destruct Hp. }
    specialize (Hk Hord). split.
    - intros o Ho Hf. destruct (period_of l o Ho Hf) as (lo & hi & k & Hp & Ht). unfold r. destruct (known_periods elong ps draw l) as [t|] eqn:E.
      + destruct Hk as [(lo' & hi' & k' & Hp' & Ht') Hmin]. split; [exact (period_in lo' hi' k' l t Hp' Ht')|exact (Hmin lo hi k _ Hp Ht)].
      + exfalso. exact (Hk lo hi k _ Hp Ht).
    - intros Hno. destruct Hr as [Hr|(o & Ho & _ & Hf)]; [exact Hr|]. destruct (Hno o Ho Hf).
  Qed.
End Known.
