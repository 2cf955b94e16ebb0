(** Lemmas about the other moving object metrics: wide window discovery, velocities, activity, colours, known objects. *)
From Verif Require Import Base Technical_Model Technical_Spec Technical_Proofs Technical_Proofs3 MoObs_Model MoObs_Spec MoObs_Proofs MoObs_Proofs2.
From Coq Require Import Lia Permutation Sorted QArith Qabs.
Open Scope Z_scope.

(** * MagicDiscoveryMetric *)
Lemma magic_nights lim l : StronglySorted (fun a b => m_night a <= m_night b) l ->
  take_z (sort_z (map m_night l)) (filter (fun i => visible lim (nth i l no_obs)) (seq 0 (length l))) = map m_night (vis_obs lim l).
Proof.
  intros Hs. rewrite (sorted_perm_eq (sort_z (map m_night l)) (map m_night l)); [|apply sort_z_sorted|apply (sorted_map m_night Z.le), Hs|apply sort_z_perm].
  unfold take_z, vis_obs. rewrite <- (filter_seq no_obs (visible lim) l), map_map. apply map_ext_in. intros i Hi. apply filter_In in Hi. destruct Hi as [Hi _]. apply in_seq in Hi.
  rewrite (nth_indep _ 0 (m_night no_obs)) by (rewrite map_length; lia). apply map_nth.
Qed.
Lemma magic_spec k w lim l ns : StronglySorted (fun a b => m_night a <= m_night b) l -> 1 <= k -> 0 <= w -> NoDup ns ->
  (forall g, In g ns <-> exists o, In o l /\ detected lim o /\ m_night o = g) ->
  magic k w lim l = Z.of_nat (count (fun u => k <=? Z.of_nat (count (fun o => visible lim o && (u <=? m_night o) && (m_night o <? u + w)) l)) ns).
Proof.
  intros Hs Hk Hw Hn Hin. unfold magic. rewrite (magic_nights lim l Hs). set (v := vis_obs lim l).
  assert (length (filter (fun i => visible lim (nth i l no_obs)) (seq 0 (length l))) = length v) as Hl. { rewrite <- (map_length (fun i => nth i l no_obs)), filter_seq. reflexivity. }
  rewrite Hl. assert (forall u, count (fun o => visible lim o && (u <=? m_night o) && (m_night o <? u + w)) l = count (fun o => (u <=? m_night o) && (m_night o <? u + w)) v) as Hc.
  { intros u. unfold v, vis_obs. rewrite count_filter. apply count_ext. intros o _. rewrite andb_assoc. reflexivity. }
  destruct (Z.ltb_spec (Z.of_nat (length v)) k) as [H|H].
  - symmetry. change 0 with (Z.of_nat 0). f_equal. unfold count. rewrite filter_none; [reflexivity|]. intros u _. apply Z.leb_gt. change (length (filter ?p l)) with (count p l). rewrite Hc. unfold count.
    pose proof (filter_len (fun o => (u <=? m_night o) && (m_night o <? u + w)) v). lia.
  - f_equal. rewrite (count_perm _ ns (unique_z (map m_night v))).
    + unfold count at 1. f_equal. apply filter_ext_in'. intros u _. rewrite Hc. f_equal. rewrite map_map. unfold ss_left, count. rewrite !filter_map_z, !map_length.
      clear -Hw. induction v as [|o v IH]; [reflexivity|]. cbn [filter]. destruct (Z.ltb_spec (m_night o - w) u), (Z.ltb_spec (m_night o) u), (Z.leb_spec u (m_night o)), (Z.ltb_spec (m_night o) (u + w)); cbn [andb length]; lia.
    + apply NoDup_Permutation; [exact Hn|apply sorted_lt_nodup, unique_z_sorted|]. intros g. rewrite Hin, unique_z_in, in_map_iff. split.
      * intros (o & I & D & G). exists o. split; [exact G|]. apply vis_in. auto.
      * intros (o & G & I). apply vis_in in I. exists o. tauto.
Qed.

(** * HighVelocityNightsMetric *)
Lemma hvn_spec psf k badval lim l : in_time_order l -> 1 <= k ->
  let enough g := k <= Z.of_nat (count (fun o => visible lim o && fast psf o && (m_night o =? g)) l) in
  let r := high_velocity_nights psf k badval lim l in
  (forall g, enough g -> (forall g', g' < g -> ~ enough g') -> (exists o, In o l /\ m_night o = g /\ m_mjd o = r) /\ forall o, In o l -> m_night o = g -> r <= m_mjd o) /\
  ((forall g, ~ enough g) -> r = badval \/ r = 0 /\ (exists o, In o l /\ detected lim o) /\ forall o, In o l -> detected lim o -> fast psf o = false).
Proof.
  intros [Ht Hn] Hk enough r. unfold high_velocity_nights in r. set (v := vis_obs lim l) in *. set (h := filter (fast psf) v) in *.
  assert (forall g, on_night (map m_night h) g = Z.of_nat (count (fun o => visible lim o && fast psf o && (m_night o =? g)) l)) as Hc.
  { intros g. unfold on_night. f_equal. rewrite filter_map_z, map_length. change (length (filter ?p h)) with (count p h). unfold h, v, vis_obs. rewrite !count_filter. apply count_ext. intros o _. rewrite andb_assoc. reflexivity. }
  assert (forall g, In g (nights_with k (map m_night h)) <-> enough g) as Hw. { intros g. rewrite (nights_with_in k _ g Hk), Hc. reflexivity. }
  assert (forall g, enough g -> exists o, In o h /\ m_night o = g) as Hex.
  { intros g Hg. unfold enough in Hg. rewrite <- Hc in Hg. unfold on_night in Hg. rewrite filter_map_z, map_length in Hg. destruct (filter (fun x => m_night x =? g) h) as [|o t] eqn:E; [cbn in Hg; lia|]. assert (In o (filter (fun x => m_night x =? g) h)) as Hi by (rewrite E; left; reflexivity). apply filter_In in Hi. rewrite Z.eqb_eq in Hi. exists o. exact Hi. }
  split.
  - intros g Hg Hmin. destruct (Hex g Hg) as (o0 & I0 & G0). assert (In o0 v) as V0 by (apply filter_In in I0; tauto). assert (In o0 l) as L0 by (apply vis_in in V0; tauto).
    destruct (Nat.eqb_spec (length v) 0) as [E|_]; [destruct v; [destruct V0|discriminate]|]. destruct (Nat.eqb_spec (length h) 0) as [E|_]; [destruct h; [destruct I0|discriminate]|].
    destruct (nights_with k (map m_night h)) as [|g1 rest] eqn:En. { apply Hw in Hg. destruct Hg. }
    assert (g1 = g) as ->. { assert (enough g1) as H1 by (apply Hw; left; reflexivity). assert (In g (g1 :: rest)) as H2 by (apply Hw, Hg). pose proof (nights_with_sorted k (map m_night h)) as Hss. rewrite En in Hss. apply StronglySorted_inv in Hss; destruct Hss as [_ Hf]. destruct H2 as [H2|H2]; [exact H2|]. rewrite Forall_forall in Hf. specialize (Hf g H2). exfalso. apply (Hmin g1); [lia|exact H1]. }
    assert (StronglySorted (fun a b => m_mjd a < m_mjd b) (filter (fun o => m_night o =? g) l)) as Hs by (apply sorted_filter, Ht).
    subst r. destruct (filter (fun o => m_night o =? g) l) as [|o1 t1] eqn:E1. { assert (In o0 (filter (fun o => m_night o =? g) l)) as Hi by (apply filter_In; split; [exact L0|apply Z.eqb_eq, G0]). rewrite E1 in Hi. destruct Hi. }
    assert (In o1 (filter (fun o => m_night o =? g) l)) as Hi by (rewrite E1; left; reflexivity). apply filter_In in Hi. rewrite Z.eqb_eq in Hi. split; [exists o1; tauto|]. intros o Io Go.
    assert (In o (o1 :: t1)) as H1 by (rewrite <- E1; apply filter_In; split; [exact Io|apply Z.eqb_eq, Go]). destruct H1 as [->|H1]; [lia|]. apply StronglySorted_inv in Hs; destruct Hs as [_ Hf]. rewrite Forall_forall in Hf. specialize (Hf o H1). cbn in Hf. lia.
  - intros Hno. subst r. destruct (Nat.eqb_spec (length v) 0) as [E|E]; [left; reflexivity|]. destruct (Nat.eqb_spec (length h) 0) as [Eh|Eh].
    + right. split; [reflexivity|]. split.
      * destruct v as [|o t] eqn:Ev; [destruct (E eq_refl)|]. exists o. apply vis_in. fold v. rewrite Ev. left. reflexivity.
      * intros o Io Do. destruct (fast psf o) eqn:Ef; [|reflexivity]. assert (In o h) as Hi by (apply filter_In; split; [apply vis_in; auto|exact Ef]). destruct h; [destruct Hi|discriminate].
    + left. destruct (nights_with k (map m_night h)) as [|g1 rest] eqn:En; [reflexivity|]. exfalso. apply (Hno g1), Hw. left. reflexivity.
Qed.

(** * ActivityOverTimeMetric *)
Lemma n_edges_pos d w : 0 < w -> 0 < d -> (1 <= n_edges d w)%nat.
Proof. intros Hw Hd. unfold n_edges, arange_n. assert (1 <= (2 * d + w + 2 * w - 1) / (2 * w)) by (apply Z.div_le_lower_bound; lia). lia. Qed.
Lemma n_edges_last d w : 0 < w -> 0 < d -> 2 * (Z.of_nat (n_edges d w - 1) * w) < 2 * d + w <= 2 * (Z.of_nat (n_edges d w) * w).
Proof.
  intros Hw Hd. pose proof (n_edges_pos d w Hw Hd). unfold n_edges, arange_n in *. set (q := (2 * d + w + 2 * w - 1) / (2 * w)) in *. pose proof (Z.mul_div_le (2 * d + w + 2 * w - 1) (2 * w) ltac:(lia)). pose proof (Z.mul_succ_div_gt (2 * d + w + 2 * w - 1) (2 * w) ltac:(lia)). fold q in H0, H1.
  rewrite Nat2Z.inj_sub by lia. rewrite Z2Nat.id by lia. nia.
Qed.
Lemma activity_spec d w lim l n m : 0 < w -> 0 < d -> activity_over_time d w lim l = Some (n, m) ->
  0 <= n < m /\ 2 * ((m - 1) * w) < 2 * d + w <= 2 * (m * w) /\
  ((forall g, 0 <= g < d -> exists o, In o l /\ detected lim o /\ m_night o = g) -> n = m - 1).
Proof.
  intros Hw Hd E. pose proof (n_edges_pos d w Hw Hd) as Hp. pose proof (n_edges_last d w Hw Hd) as Hl. unfold activity_over_time in E. destruct (Nat.eqb (length (vis_obs lim l)) 0); [discriminate|]. injection E as <- <-. unfold n_active. set (xs := map m_night (vis_obs lim l)). set (nb := (n_edges d w - 1)%nat) in *. assert (Z.of_nat nb = Z.of_nat (n_edges d w) - 1) as Enb by (unfold nb; lia).
  pose proof (filter_len (fun b => existsb (in_bin w nb b) xs) (seq 0 nb)) as Hf. rewrite seq_length in Hf. repeat split; try lia.
  - intros Hall. rewrite filter_all; [rewrite seq_length; lia|]. intros b Hb. apply in_seq in Hb. apply existsb_exists. exists (Z.of_nat b * w). split.
    + destruct (Hall (Z.of_nat b * w)) as (o & I & D & G). { split; [nia|]. assert ((Z.of_nat b + 1) * w <= Z.of_nat nb * w) by (apply Z.mul_le_mono_nonneg_r; lia). lia. } rewrite <- G. apply in_map, vis_in. auto.
    + unfold in_bin. rewrite Z.leb_refl. cbn [andb]. apply orb_true_iff. left. apply Z.ltb_lt. nia.
Qed.
Lemma activity_more d w lim a l n m n' m' : (forall o, In o a -> In o l) -> activity_over_time d w lim a = Some (n, m) -> activity_over_time d w lim l = Some (n', m') -> n <= n' /\ m = m'.
Proof.
  intros Hi E E'. unfold activity_over_time in *. destruct (Nat.eqb (length (vis_obs lim a)) 0); [discriminate|]. destruct (Nat.eqb (length (vis_obs lim l)) 0); [discriminate|]. injection E as <- <-. injection E' as <- <-. split; [|reflexivity].
  apply inj_le. unfold n_active. change (length (filter ?p ?x)) with (count p x). apply count_mono_in. intros b _ Hb. apply existsb_exists in Hb. destruct Hb as (x & Hx & Hb). apply existsb_exists. exists x. split; [|exact Hb].
  apply in_map_iff in Hx. destruct Hx as (o & <- & Io). apply in_map. apply vis_in in Io. apply vis_in. split; [apply Hi|]; apply Io.
Qed.

(** * Colours *)
Lemma snr_sum_spec lim cap f l : snr_sum lim cap f l = band_weight lim cap f l.
Proof.
  unfold snr_sum. induction l as [|o l IH]; [reflexivity|]. cbn [filter band_weight fold_right]. fold (band_weight lim cap f l). destruct (String.eqb (m_band o) f); cbn [andb map]; [|exact IH].
  unfold zsum in *. cbn [fold_right]. rewrite IH. f_equal. unfold clip_snr, weighed. destruct lim as [s|]; [|destruct (m_vis o =? 0); reflexivity]. destruct (Z.leb_spec (m_snr o) s), (Z.ltb_spec s (m_snr o)); try lia; reflexivity.
Qed.
Lemma band_weight_neg lim cap f l : (forall o, In o l -> clip_snr lim cap o <= 0) -> band_weight lim cap f l <= 0.
Proof.
  rewrite <- snr_sum_spec. unfold snr_sum, zsum. intros H. induction l as [|o l IH]; [cbn; lia|]. cbn [filter]. assert (forall o, In o l -> clip_snr lim cap o <= 0) as H' by (intros; apply H; right; assumption). specialize (IH H').
  destruct (String.eqb (m_band o) f); [|exact IH]. cbn [map fold_right]. specialize (H o (or_introl eq_refl)). lia.
Qed.
Lemma weight_test w s cap : 0 < cap -> negb (Qle_bool (inject_Z s / inject_Z cap) (inject_Z w)) = (w * cap <? s).
Proof.
  intros Hc. destruct (Z.ltb_spec (w * cap) s) as [H|H].
  - apply negb_true_iff. destruct (Qle_bool _ _) eqn:E; [|reflexivity]. apply Qle_bool_iff in E. exfalso. assert (inject_Z s <= inject_Z (w * cap))%Q as H'; [|rewrite <- Zle_Qle in H'; lia].
    rewrite inject_Z_mult. setoid_replace (inject_Z s) with (inject_Z s / inject_Z cap * inject_Z cap)%Q by (field; unfold Qeq; cbn; lia). apply Qmult_le_compat_r; [exact E|]. change 0%Q with (inject_Z 0). rewrite <- Zle_Qle. lia.
  - apply negb_false_iff, Qle_bool_iff. apply Qle_shift_div_r; [change 0%Q with (inject_Z 0); rewrite <- Zlt_Qlt; lia|]. rewrite <- inject_Z_mult, <- Zle_Qle. exact H.
Qed.
Lemma weight_test' w s cap : 0 < cap -> Qle_bool (inject_Z w) (inject_Z s / inject_Z cap) = (w * cap <=? s).
Proof.
  intros Hc. destruct (Z.leb_spec (w * cap) s) as [H|H].
  - apply Qle_bool_iff. apply Qle_shift_div_l; [change 0%Q with (inject_Z 0); rewrite <- Zlt_Qlt; lia|]. rewrite <- inject_Z_mult, <- Zle_Qle. exact H.
  - destruct (Qle_bool _ _) eqn:E; [|reflexivity]. apply Qle_bool_iff in E. exfalso. assert (inject_Z (w * cap) <= inject_Z s)%Q as H'; [|rewrite <- Zle_Qle in H'; lia].
    rewrite inject_Z_mult. setoid_replace (inject_Z s) with (inject_Z s / inject_Z cap * inject_Z cap)%Q by (field; unfold Qeq; cbn; lia). apply Qmult_le_compat_r; [exact E|]. change 0%Q with (inject_Z 0). rewrite <- Zle_Qle. lia.
Qed.
(** the flag as a function of which of the six bands have enough *)
Definition flag6 (e : string -> bool) : Z := color_flag (filter e six).
Lemma color_flag6 weight cap lim l : 0 <= weight -> 0 < cap -> color_asteroid weight cap lim l = flag6 (fun f => weight * cap <? band_weight lim cap f l).
Proof.
  intros Hw Hc. unfold color_asteroid, flag6. assert (filter (fun f => negb (Qle_bool (inject_Z (snr_sum lim cap f l) / inject_Z cap) (inject_Z weight))) six = filter (fun f => weight * cap <? band_weight lim cap f l) six) as ->.
  { apply filter_ext_in'. intros f _. rewrite weight_test by exact Hc. rewrite snr_sum_spec. reflexivity. }
  destruct (existsb (fun o => 0 <? clip_snr lim cap o) l) eqn:E; [reflexivity|]. cbn [negb]. rewrite filter_none; [reflexivity|]. intros f _. apply Z.ltb_ge. enough (band_weight lim cap f l <= 0) by nia.
  apply band_weight_neg. intros o Ho. destruct (Z.leb_spec (clip_snr lim cap o) 0) as [|H]; [assumption|]. exfalso. rewrite <- not_true_iff_false in E. apply E. apply existsb_exists. exists o. split; [exact Ho|apply Z.ltb_lt, H].
Qed.
Definition flag_bits (u g r i z y : bool) : Z :=
  if u && g && r && i && z && y then 4 else if g && r && i && z && y then 3
  else if (r && i && z && y) || (g && i && z && y) || (g && r && z && y) || (g && r && i && y) || (g && r && i && z) then 2
  else if g && (r || i) && (z || y) then 1 else 0.
Lemma flag6_bits e : flag6 e = flag_bits (e "u"%string) (e "g"%string) (e "r"%string) (e "i"%string) (e "z"%string) (e "y"%string).
Proof. unfold flag6, six. cbn [filter]. destruct (e "u"%string), (e "g"%string), (e "r"%string), (e "i"%string), (e "z"%string), (e "y"%string); vm_compute; reflexivity. Qed.
Lemma flag_bits_mono u g r i z y u' g' r' i' z' y' : (u = true -> u' = true) -> (g = true -> g' = true) -> (r = true -> r' = true) -> (i = true -> i' = true) -> (z = true -> z' = true) -> (y = true -> y' = true) ->
  flag_bits u g r i z y <= flag_bits u' g' r' i' z' y'.
Proof.
  intros. destruct u, u'; try (discriminate (H eq_refl)); destruct g, g'; try (discriminate (H0 eq_refl)); destruct r, r'; try (discriminate (H1 eq_refl)); destruct i, i'; try (discriminate (H2 eq_refl)); destruct z, z'; try (discriminate (H3 eq_refl)); destruct y, y'; try (discriminate (H4 eq_refl)); vm_compute; discriminate.
Qed.
Lemma bool_eq_iff (a b : bool) : a = b -> (a = true <-> b = true).
Proof. intros ->. reflexivity. Qed.
Lemma color_bands weight cap lim l : 0 <= weight -> 0 < cap ->
  let enough f := weight * cap < band_weight lim cap f l in
  let c := color_asteroid weight cap lim l in
  0 <= c <= 4 /\
  (c = 4 <-> forall f, In f six -> enough f) /\
  (3 <= c <-> forall f, In f five -> enough f) /\
  (2 <= c <-> exists f, In f five /\ forall f', In f' five -> f' <> f -> enough f') /\
  (1 <= c <-> (2 <= c \/ enough "g"%string /\ (enough "r"%string \/ enough "i"%string) /\ (enough "z"%string \/ enough "y"%string))).
Proof.
  intros Hw Hc enough c. unfold c. rewrite (color_flag6 weight cap lim l Hw Hc). set (e := fun f => weight * cap <? band_weight lim cap f l). rewrite flag6_bits.
  assert (forall f, enough f <-> e f = true) as He by (intros f; symmetry; apply Z.ltb_lt).
  assert ((forall f, In f six -> enough f) <-> e "u"%string && e "g"%string && e "r"%string && e "i"%string && e "z"%string && e "y"%string = true) as H6.
  { rewrite !andb_true_iff, <- !He. unfold six. split; [intros H; repeat split; apply H; cbn; tauto|]. intros H f Hf. cbn in Hf. decompose [or] Hf; subst; try tauto. }
  assert ((forall f, In f five -> enough f) <-> e "g"%string && e "r"%string && e "i"%string && e "z"%string && e "y"%string = true) as H5.
  { rewrite !andb_true_iff, <- !He. unfold five. split; [intros H; repeat split; apply H; cbn; tauto|]. intros H f Hf. cbn in Hf. decompose [or] Hf; subst; try tauto. }
  assert ((exists f, In f five /\ forall f', In f' five -> f' <> f -> enough f') <->
    (e "r" && e "i" && e "z" && e "y" || e "g" && e "i" && e "z" && e "y" || e "g" && e "r" && e "z" && e "y" || e "g" && e "r" && e "i" && e "y" || e "g" && e "r" && e "i" && e "z")%string = true) as H4.
  { rewrite !orb_true_iff, !andb_true_iff, <- !He. split.
    - intros (f & Hf & H). assert (forall f', In f' five -> String.eqb f' f = false -> enough f') as H' by (intros f' H1 H2; apply H; [exact H1|apply String.eqb_neq, H2]). cbn in Hf. decompose [or] Hf; subst; try tauto; [left; left; left; left|left; left; left; right|left; left; right|left; right|right]; repeat split; apply H'; cbn; tauto.
    - intros [[[[H|H]|H]|H]|H]; [exists "g"%string|exists "r"%string|exists "i"%string|exists "z"%string|exists "y"%string]; (split; [cbn; tauto|]); intros f' Hf' Hn; cbn in Hf'; decompose [or] Hf'; subst; tauto. }
  rewrite H6, H5, H4, !He. generalize (e "u"%string) (e "g"%string) (e "r"%string) (e "i"%string) (e "z"%string) (e "y"%string). clear. intros u g r i z y.
  split; [destruct u, g, r, i, z, y; unfold flag_bits; cbn [andb orb]; lia|]. split; [rewrite <- Z.eqb_eq; apply bool_eq_iff; destruct u, g, r, i, z, y; reflexivity|].
  split; [rewrite <- Z.leb_le; apply bool_eq_iff; destruct u, g, r, i, z, y; reflexivity|]. split; [rewrite <- Z.leb_le; apply bool_eq_iff; destruct u, g, r, i, z, y; reflexivity|].
  rewrite <- !Z.leb_le, <- !orb_true_iff, <- !andb_true_iff, <- orb_true_iff. apply bool_eq_iff. destruct u, g, r, i, z, y; reflexivity.
Qed.
Lemma band_weight_more lim cap f a b l : Permutation l (a ++ b) -> 0 <= cap -> (forall o, In o b -> 0 <= m_snr o) -> band_weight lim cap f a <= band_weight lim cap f l.
Proof.
  intros Hp Hc Hb. assert (forall x x', Permutation x x' -> band_weight lim cap f x = band_weight lim cap f x') as Hperm.
  { unfold band_weight. induction 1; cbn [fold_right]; try lia. } rewrite (Hperm _ _ Hp). clear Hp. induction a as [|o a IH]; cbn [app].
  - clear -Hb Hc. unfold band_weight at 1. cbn [fold_right]. induction b as [|o b IH]; [cbn; lia|]. unfold band_weight. cbn [fold_right]. fold (band_weight lim cap f b). specialize (IH (fun o Ho => Hb o (or_intror Ho))). pose proof (Hb o (or_introl eq_refl)). destruct (String.eqb (m_band o) f && weighed lim o); lia.
  - unfold band_weight in *. cbn [fold_right]. lia.
Qed.
Lemma band_weight_limit cap f l s s' : s <= s' -> 0 <= cap -> (forall o, In o l -> 0 <= m_snr o) -> band_weight (Some s') cap f l <= band_weight (Some s) cap f l.
Proof.
  intros Hs Hc Hb. unfold band_weight. induction l as [|o l IH]; [cbn; lia|]. cbn [fold_right]. specialize (IH (fun o Ho => Hb o (or_intror Ho))). pose proof (Hb o (or_introl eq_refl)). cbn [weighed] in *.
  destruct (Z.ltb_spec s' (m_snr o)), (Z.ltb_spec s (m_snr o)); try lia; destruct (String.eqb (m_band o) f); cbn [andb]; lia.
Qed.
Lemma color_more weight cap lim lim' a l : 0 <= weight -> 0 < cap -> (forall f, band_weight lim cap f a <= band_weight lim' cap f l) -> color_asteroid weight cap lim a <= color_asteroid weight cap lim' l.
Proof.
  intros Hw Hc H. rewrite !color_flag6 by assumption. rewrite !flag6_bits. apply flag_bits_mono; intros E; apply Z.ltb_lt in E; apply Z.ltb_lt; match goal with |- _ < band_weight _ _ ?f _ => pose proof (H f) end; lia.
Qed.

(** * LightcurveColorOuterMetric *)
Lemma n_band_spec lim f l : n_band lim f l = band_detections lim f l.
Proof. unfold n_band, band_detections. f_equal. change (length (filter ?p ?x)) with (count p x). unfold vis_obs. rewrite count_filter. reflexivity. Qed.
Lemma mem_in f s : mem f s = true <-> In f s.
Proof. unfold mem. rewrite existsb_exists. split; [intros (x & Hx & E); apply String.eqb_eq in E; subst; exact Hx|]. intros H. exists f. split; [exact H|apply String.eqb_refl]. Qed.
Section Outer.
  Variables (nr nsec : Z) (fs : list string) (n : string -> Z).
  Definition lcs := filter (fun f => nr <=? n f) (nodup string_dec fs).
  Definition cols := filter (fun f => (nsec <=? n f) && negb (nr <=? n f)) (nodup string_dec fs).
  Definition outer : Z := if Nat.eqb (length cols) 0 then Z.of_nat (length lcs) else if Nat.eqb (length lcs) 0 then 0 else Z.of_nat (length lcs) + 1.
  Lemma lcs_in f : In f lcs <-> In f fs /\ nr <= n f.
  Proof. unfold lcs. rewrite filter_In, nodup_In, Z.leb_le. reflexivity. Qed.
  Lemma cols_in f : In f cols <-> In f fs /\ nsec <= n f /\ n f < nr.
  Proof. unfold cols. rewrite filter_In, nodup_In, andb_true_iff, negb_true_iff, Z.leb_le, Z.leb_gt. reflexivity. Qed.
  Lemma lcs_nodup : NoDup lcs.
  Proof. apply NoDup_filter, NoDup_nodup. Qed.
  Lemma cols_nodup : NoDup cols.
  Proof. apply NoDup_filter, NoDup_nodup. Qed.
  Lemma two_of (l : list string) f g : In f l -> In g l -> f <> g -> (2 <= length l)%nat.
  Proof. intros Hf Hg Hn. destruct l as [|a [|b l]]; [destruct Hf| |cbn; lia]. destruct Hf as [<-|[]], Hg as [<-|[]]. congruence. Qed.
  Lemma outer_spec : 0 <= outer <= Z.of_nat (length (nodup string_dec fs)) /\
    (1 <= outer <-> exists f, In f fs /\ nr <= n f) /\
    (2 <= outer <-> exists f g, In f fs /\ In g fs /\ f <> g /\ nr <= n f /\ (nr <= n g \/ nsec <= n g)).
  Proof.
    assert (length lcs + length cols <= length (nodup string_dec fs))%nat as Hle.
    { rewrite <- app_length. apply NoDup_incl_length.
      - assert (forall a b : list string, NoDup a -> NoDup b -> (forall x, In x a -> In x b -> False) -> NoDup (a ++ b)) as Happ.
        { intros a b Ha Hb Hd. induction Ha as [|x a Hx Ha IH]; [exact Hb|]. cbn. constructor; [|apply IH; intros y Hy; apply Hd; right; exact Hy]. intros Hi. apply in_app_iff in Hi. destruct Hi as [Hi|Hi]; [tauto|]. apply (Hd x); [left; reflexivity|exact Hi]. }
        apply Happ; [apply lcs_nodup|apply cols_nodup|]. intros x H1 H2. apply lcs_in in H1. apply cols_in in H2. lia.
      - intros x Hx. apply in_app_iff in Hx. apply nodup_In. destruct Hx as [Hx|Hx]; [apply lcs_in in Hx|apply cols_in in Hx]; tauto. }
    unfold outer. destruct (Nat.eqb_spec (length cols) 0) as [Ec|Ec], (Nat.eqb_spec (length lcs) 0) as [El|El].
    all: split; [lia|]; split; split.
    all: try (intros H; exfalso; lia).
    all: try (intros (f & Hf & Hr); assert (In f lcs) as Hi by (apply lcs_in; auto); destruct lcs; [destruct Hi|cbn in *; lia]).
    all: try (intros _; destruct lcs as [|f t] eqn:E; [destruct (El eq_refl)|]; exists f; apply lcs_in; rewrite E; left; reflexivity).
    all: try (intros (f & g & Hf & Hg & Hn & Hr & Hor); assert (In f lcs) as Hi by (apply lcs_in; auto); destruct lcs; [destruct Hi|cbn in *; lia]).
    - intros H. pose proof lcs_nodup as Hnd. destruct lcs as [|f [|g t]] eqn:E; cbn in H; try lia. exists f, g. assert (In f lcs /\ In g lcs) as [Hf Hg] by (rewrite E; cbn; tauto). apply lcs_in in Hf. apply lcs_in in Hg. repeat split; try tauto. intros ->. inversion Hnd as [|? ? Hx _]; subst. apply Hx. left. reflexivity.
    - intros (f & g & Hf & Hg & Hn & Hr & Hor). assert (In f lcs) as Hi by (apply lcs_in; auto). assert (In g lcs) as Hj.
      { apply lcs_in. split; [exact Hg|]. destruct Hor as [H|H]; [exact H|]. destruct (Z_lt_le_dec (n g) nr) as [Hlt|]; [|assumption]. exfalso. assert (In g cols) as Hc by (apply cols_in; auto). destruct cols; [destruct Hc|discriminate]. }
      pose proof (two_of _ _ _ Hi Hj Hn). lia.
    - intros _. destruct lcs as [|f t] eqn:E; [destruct (El eq_refl)|]. destruct cols as [|g t'] eqn:E'; [destruct (Ec eq_refl)|]. exists f, g. assert (In f lcs) as Hf by (rewrite E; left; reflexivity). assert (In g cols) as Hg by (rewrite E'; left; reflexivity). apply lcs_in in Hf. apply cols_in in Hg. repeat split; try tauto. intros ->. lia.
  Qed.
End Outer.
Lemma outer_mono nr nsec fs n n' : (forall f, n f <= n' f) -> outer nr nsec fs n <= outer nr nsec fs n'.
Proof.
  intros Hn. assert (forall f, In f (lcs nr fs n) -> In f (lcs nr fs n')) as Hsub. { intros f Hf. apply lcs_in in Hf. apply lcs_in. specialize (Hn f). split; [tauto|lia]. }
  pose proof (NoDup_incl_length (lcs_nodup nr fs n) Hsub) as Hlen.
  assert (length (lcs nr fs n) = length (lcs nr fs n') -> (0 < length (cols nr nsec fs n))%nat -> (0 < length (cols nr nsec fs n'))%nat) as Hc.
  { intros E H. destruct (cols nr nsec fs n) as [|g t] eqn:Eg; [cbn in H; lia|]. assert (In g (cols nr nsec fs n)) as Hg by (rewrite Eg; left; reflexivity). apply cols_in in Hg. assert (In g (cols nr nsec fs n')) as Hg'.
    { apply cols_in. pose proof (Hn g). split; [tauto|]. split; [lia|]. destruct (Z_lt_le_dec (n' g) nr) as [|Hge]; [assumption|]. exfalso. assert (In g (lcs nr fs n')) as Hi by (apply lcs_in; tauto). assert (incl (lcs nr fs n') (lcs nr fs n)) as Hinc by (apply NoDup_length_incl; [apply lcs_nodup|rewrite E; apply le_n|exact Hsub]). apply Hinc in Hi. apply lcs_in in Hi. lia. }
    destruct (cols nr nsec fs n'); [destruct Hg'|cbn; lia]. }
  unfold outer. destruct (Nat.eqb_spec (length (cols nr nsec fs n)) 0), (Nat.eqb_spec (length (cols nr nsec fs n')) 0), (Nat.eqb_spec (length (lcs nr fs n)) 0), (Nat.eqb_spec (length (lcs nr fs n')) 0); try lia.
  all: destruct (Nat.eq_dec (length (lcs nr fs n)) (length (lcs nr fs n'))) as [E|E]; try lia; specialize (Hc E); lia.
Qed.
Lemma color_outer_eq nr nsec fs lim l : 1 <= nr -> color_outer nr nsec fs lim l = outer nr nsec fs (fun f => band_detections lim f l).
Proof.
  intros Hr. unfold color_outer. cbv zeta. assert (filter (fun f => nr <=? n_band lim f l) (nodup string_dec fs) = lcs nr fs (fun f => band_detections lim f l)) as El. { apply filter_ext_in'. intros f _. rewrite n_band_spec. reflexivity. }
  rewrite El. assert (filter (fun f => negb (mem f (lcs nr fs (fun f => band_detections lim f l)))) (filter (fun f => nsec <=? n_band lim f l) (nodup string_dec fs)) = cols nr nsec fs (fun f => band_detections lim f l)) as ->.
  { unfold cols. assert (forall (p q : string -> bool) x, filter q (filter p x) = filter (fun f => p f && q f) x) as Hff. { clear. intros p q x. induction x as [|f x IH]; [reflexivity|]. cbn [filter]. destruct (p f); cbn [andb filter]; [destruct (q f); rewrite IH; reflexivity|exact IH]. }
    rewrite Hff. apply filter_ext_in'. intros f Hf. apply nodup_In in Hf. rewrite n_band_spec. f_equal. f_equal. destruct (Z.leb_spec nr (band_detections lim f l)) as [H|H].
    - apply mem_in, lcs_in. auto.
    - destruct (mem _ _) eqn:E; [|reflexivity]. apply mem_in, lcs_in in E. lia. }
  destruct (Nat.eqb_spec (length (vis_obs lim l)) 0) as [E|E]; [|reflexivity].
  assert (lcs nr fs (fun f => band_detections lim f l) = []) as H0.
  { apply filter_none. intros f _. apply Z.leb_gt. rewrite <- n_band_spec. unfold n_band. destruct (vis_obs lim l); [cbn; lia|discriminate]. }
  unfold outer. rewrite H0. destruct (Nat.eqb _ 0); reflexivity.
Qed.
