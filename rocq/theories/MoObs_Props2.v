(** Properties C134 to C141: wide windows, trailed detections, activity, colours, light curves and known objects. *)
From Verif Require Import Base Technical_Model Technical_Spec MoObs_Model MoObs_Spec MoObs_Proofs3 MoObs_Proofs4.
From Coq Require Import Lia Permutation Sorted QArith Qabs.
Open Scope Z_scope.

Definition ey (night mjd snr vis : Z) (band : string) (vel : Z) : obs := {| m_snr := snr; m_vis := vis; m_night := night; m_mjd := mjd; m_band := band; m_vel := vel; m_seeing := 1; m_exp := 30 |}.

(** C134: nights that start a long enough run of detections *)
Theorem C134_magic_partial : forall k w lim l ns, StronglySorted (fun a b => m_night a <= m_night b) l -> 1 <= k -> 0 <= w -> NoDup ns ->
  (forall g, In g ns <-> exists o, In o l /\ detected lim o /\ m_night o = g) ->
  magic k w lim l = Z.of_nat (count (fun u => k <=? Z.of_nat (count (fun o => visible lim o && (u <=? m_night o) && (m_night o <? u + w)) l)) ns).
Proof. exact magic_spec. Qed.
Print Assumptions C134_magic_partial.
(** whatever the order of the observations *)
Theorem C134_any_order_refuted : ~ (forall k w lim l l', Permutation l l' -> magic k w lim l = magic k w lim l').
Proof.
  intros H. specialize (H 2 1 None ([ey 5 50 5 1 "r" 0; ey 5 51 5 1 "r" 0] ++ [ey 1 10 5 0 "r" 0]) ([ey 1 10 5 0 "r" 0] ++ [ey 5 50 5 1 "r" 0; ey 5 51 5 1 "r" 0]) (Permutation_app_comm _ _)). vm_compute in H. discriminate.
Qed.
Print Assumptions C134_any_order_refuted.
Example C134_case : let l := [ey 1 10 5 1 "r" 0; ey 1 11 5 1 "g" 0; ey 4 40 5 1 "r" 0; ey 5 50 5 0 "r" 0; ey 9 90 5 1 "r" 0] in
  magic 3 4 None l = 1 /\ magic 3 3 None l = 0 /\ magic 1 3 None l = 3 /\ StronglySorted (fun a b => m_night a <= m_night b) l /\
  (forall g, In g [1; 4; 9] <-> exists o, In o l /\ detected None o /\ m_night o = g).
Proof.
  cbv zeta. repeat split; try (vm_compute; reflexivity); try (repeat constructor; cbn; lia).
  - intros [<-|[<-|[<-|[]]]]; [eexists; split; [left; reflexivity|split; [cbn; lia|reflexivity]]|eexists; split; [right; right; left; reflexivity|split; [cbn; lia|reflexivity]]|eexists; split; [right; right; right; right; left; reflexivity|split; [cbn; lia|reflexivity]]].
  - intros (o & [<-|[<-|[<-|[<-|[<-|[]]]]]] & D & <-); cbn in *; try lia; tauto.
Qed.

(** C135: the first night with enough trailed detections *)
Theorem C135_trailed_partial : forall psf k badval lim l, in_time_order l -> 1 <= k ->
  let enough g := k <= Z.of_nat (count (fun o => visible lim o && fast psf o && (m_night o =? g)) l) in
  let r := high_velocity_nights psf k badval lim l in
  (forall g, enough g -> (forall g', g' < g -> ~ enough g') -> (exists o, In o l /\ m_night o = g /\ m_mjd o = r) /\ forall o, In o l -> m_night o = g -> r <= m_mjd o) /\
  ((forall g, ~ enough g) -> r = badval \/ r = 0 /\ (exists o, In o l /\ detected lim o) /\ forall o, In o l -> detected lim o -> fast psf o = false).
Proof. exact hvn_spec. Qed.
Print Assumptions C135_trailed_partial.
(** the velocity that counts as trailed *)
Theorem C135_fast : forall psf o, 0 < m_exp o -> fast psf o = true <-> (24 * psf * inject_Z (m_seeing o) <= inject_Z (m_vel o * m_exp o))%Q.
Proof.
  intros psf o He. unfold fast. rewrite Qle_bool_iff, inject_Z_mult. assert (0 < inject_Z (m_exp o))%Q as Hq by (change 0%Q with (inject_Z 0); rewrite <- Zlt_Qlt; exact He). split.
  - intros H. apply (Qmult_le_compat_r _ _ (inject_Z (m_exp o))) in H; [|apply Qlt_le_weak, Hq]. unfold Qdiv in H. rewrite <- Qmult_assoc, (Qmult_comm (/ _)), Qmult_inv_r, Qmult_1_r in H; [exact H|]. intros E. rewrite E in Hq. discriminate.
  - intros H. apply Qle_shift_div_r; assumption.
Qed.
Print Assumptions C135_fast.
(** the time is that of a trailed detection *)
Theorem C135_time_refuted : ~ (forall psf k badval lim l, in_time_order l -> 1 <= k -> high_velocity_nights psf k badval lim l = badval \/ high_velocity_nights psf k badval lim l = 0 \/
  exists o, In o l /\ detected lim o /\ fast psf o = true /\ m_mjd o = high_velocity_nights psf k badval lim l).
Proof.
  intros H. set (l := [ey 1 10 0 0 "r" 0; ey 1 11 5 1 "r" 5; ey 1 12 5 1 "r" 5]). assert (in_time_order l) as Ho by (split; repeat constructor; cbn; lia).
  destruct (H 2%Q 2 (-666) None l Ho ltac:(lia)) as [E|[E|(o & Io & D & _ & E)]]; [vm_compute in E; discriminate|vm_compute in E; discriminate|].
  destruct Io as [<-|[<-|[<-|[]]]]; [vm_compute in D; discriminate|vm_compute in E; discriminate|vm_compute in E; discriminate].
Qed.
Print Assumptions C135_time_refuted.
(** an object that is never found gets the bad value *)
Theorem C135_never_refuted : ~ (forall psf k badval lim l, in_time_order l -> 1 <= k -> (forall o, In o l -> detected lim o -> fast psf o = false) -> high_velocity_nights psf k badval lim l = badval).
Proof.
  intros H. set (l := [ey 1 10 5 1 "r" 0]). assert (in_time_order l) as Ho by (split; repeat constructor). specialize (H 2%Q 2 (-666) None l Ho ltac:(lia)).
  assert (high_velocity_nights 2 2 (-666) None l = -666) as E; [|vm_compute in E; discriminate]. apply H. intros o [<-|[]] _. reflexivity.
Qed.
Print Assumptions C135_never_refuted.
Example C135_case : let l := [ey 1 10 5 1 "r" 5; ey 1 11 5 1 "r" 0; ey 2 20 5 1 "r" 5; ey 2 21 5 0 "r" 5; ey 3 30 5 1 "r" 1; ey 3 31 5 1 "r" 9] in
  high_velocity_nights 2 2 (-666) None l = -666 /\ high_velocity_nights 1 2 (-666) None l = 30 /\ high_velocity_nights 2 1 (-666) None l = 10 /\ in_time_order l.
Proof. cbv zeta. split; [vm_compute; reflexivity|]. split; [vm_compute; reflexivity|]. split; [vm_compute; reflexivity|]. split; repeat constructor; cbn; lia. Qed.

(** C136: the fraction of the survey with detections *)
Theorem C136_full_refuted : ~ (forall days window lim l n m, 0 < window -> 0 < days -> activity_over_time days window lim l = Some (n, m) ->
  (forall g, 0 <= g < days -> exists o, In o l /\ detected lim o /\ m_night o = g) -> n = m).
Proof.
  intros H. set (l := map (fun g => ey g (10 * g) 5 1 "r" 0) [0; 1; 2; 3]).
  assert (2 = 3) as E; [|discriminate]. apply (H 4 2 None l 2 3); try lia; [vm_compute; reflexivity|]. intros g Hg. exists (ey g (10 * g) 5 1 "r" 0). split; [|split; [cbn; lia|reflexivity]].
  apply in_map_iff. exists g. split; [reflexivity|]. assert (g = 0 \/ g = 1 \/ g = 2 \/ g = 3) as [->|[->|[->| ->]]] by lia; cbn; tauto.
Qed.
Print Assumptions C136_full_refuted.
(** it is always less than one; detections on every night leave out one window *)
Theorem C136_fraction_partial : forall days window lim l n m, 0 < window -> 0 < days -> activity_over_time days window lim l = Some (n, m) ->
  0 <= n < m /\ 2 * ((m - 1) * window) < 2 * days + window <= 2 * (m * window) /\
  ((forall g, 0 <= g < days -> exists o, In o l /\ detected lim o /\ m_night o = g) -> n = m - 1).
Proof. exact activity_spec. Qed.
Print Assumptions C136_fraction_partial.
Theorem C136_more : forall days window lim a l n m n' m', (forall o, In o a -> In o l) ->
  activity_over_time days window lim a = Some (n, m) -> activity_over_time days window lim l = Some (n', m') -> n <= n' /\ m = m'.
Proof. exact activity_more. Qed.
Print Assumptions C136_more.
Example C136_case : let l := [ey 0 5 5 1 "r" 0; ey 3 30 5 1 "r" 0; ey 9 90 5 1 "r" 0; ey 12 120 5 1 "r" 0; ey 5 50 5 0 "r" 0] in
  activity_over_time 10 2 None l = Some (3, 6) /\ activity_over_time 10 2 None (tl l) = Some (2, 6) /\ activity_over_time 10 2 None [ey 5 50 5 0 "r" 0] = None.
Proof. repeat split; vm_compute; reflexivity. Qed.

(** C137: which colours of an asteroid are measured *)
Theorem C137_bands : forall weight cap lim l, 0 <= weight -> 0 < cap ->
  let enough f := weight * cap < band_weight lim cap f l in
  let c := color_asteroid weight cap lim l in
  0 <= c <= 4 /\
  (c = 4 <-> forall f, In f ["u"; "g"; "r"; "i"; "z"; "y"]%string -> enough f) /\
  (3 <= c <-> forall f, In f ["g"; "r"; "i"; "z"; "y"]%string -> enough f) /\
  (2 <= c <-> exists f, In f ["g"; "r"; "i"; "z"; "y"]%string /\ forall f', In f' ["g"; "r"; "i"; "z"; "y"]%string -> f' <> f -> enough f') /\
  (1 <= c <-> (2 <= c \/ enough "g"%string /\ (enough "r"%string \/ enough "i"%string) /\ (enough "z"%string \/ enough "y"%string))).
Proof. exact color_bands. Qed.
Print Assumptions C137_bands.
Theorem C137_more : forall weight cap lim a b l, 0 <= weight -> 0 < cap -> Permutation l (a ++ b) -> (forall o, In o b -> 0 <= m_snr o) ->
  color_asteroid weight cap lim a <= color_asteroid weight cap lim l.
Proof. intros. apply color_more; try assumption. intros f. apply (band_weight_more lim cap f a b l); [assumption|lia|assumption]. Qed.
Print Assumptions C137_more.
Theorem C137_limit : forall weight cap s s' l, 0 <= weight -> 0 < cap -> s <= s' -> (forall o, In o l -> 0 <= m_snr o) ->
  color_asteroid weight cap (Some s') l <= color_asteroid weight cap (Some s) l.
Proof. intros. apply color_more; try assumption. intros f. apply band_weight_limit; [assumption|lia|assumption]. Qed.
Print Assumptions C137_limit.
(** the other metrics' detections are what it weighs: an observation at the limit itself counts for them, not for it *)
Theorem C137_detections_refuted : ~ (forall weight cap s l, 0 <= weight -> 0 < cap ->
  (forall f, In f six -> weight * cap < zsum (map (fun o => Z.min (m_snr o) cap) (filter (fun o => visible (Some s) o && String.eqb (m_band o) f) l))) -> color_asteroid weight cap (Some s) l = 4).
Proof.
  intros H. set (l := map (fun f => ey 1 10 5 1 f 0) six). assert (color_asteroid 0 20 (Some 5) l = 4) as E; [|vm_compute in E; discriminate]. apply H; [lia|lia|].
  intros f Hf. cbn in Hf. decompose [or] Hf; subst; try tauto; vm_compute; reflexivity.
Qed.
Print Assumptions C137_detections_refuted.
Example C137_case : let o f := ey 1 10 15 1 f 0 in
  color_asteroid 1 20 None (map o ["g"; "g"; "r"; "r"; "z"; "z"; "u"]%string) = 1 /\ color_asteroid 1 20 None (map o ["i"; "i"; "r"; "r"; "z"; "z"; "y"; "y"; "u"]%string) = 2 /\
  color_asteroid 1 20 None (map o (six ++ six)) = 4 /\ color_asteroid 1 20 None (map o (five ++ five)) = 3 /\ color_asteroid 1 20 None (map o six) = 0.
Proof. cbv zeta. repeat split; vm_compute; reflexivity. Qed.

(** C138: light curves of an outer solar system object *)
Theorem C138_flag : forall req sec fs lim l, 1 <= req ->
  let c := color_outer req sec fs lim l in
  0 <= c <= Z.of_nat (length (nodup string_dec fs)) /\
  (1 <= c <-> exists f, In f fs /\ req <= band_detections lim f l) /\
  (2 <= c <-> exists f g, In f fs /\ In g fs /\ f <> g /\ req <= band_detections lim f l /\ (req <= band_detections lim g l \/ sec <= band_detections lim g l)).
Proof. intros req sec fs lim l Hr c. unfold c. rewrite color_outer_eq by exact Hr. apply outer_spec. Qed.
Print Assumptions C138_flag.
Theorem C138_more : forall req sec fs lim lim' a l, 1 <= req -> (forall f, band_detections lim f a <= band_detections lim' f l) ->
  color_outer req sec fs lim a <= color_outer req sec fs lim' l.
Proof. intros. rewrite !color_outer_eq by assumption. apply outer_mono. assumption. Qed.
Print Assumptions C138_more.
Example C138_case : let o f := ey 1 10 15 1 f 0 in
  color_outer 3 2 six None (map o ["g"; "g"; "g"; "r"; "r"]%string) = 2 /\ color_outer 3 2 six None (map o ["g"; "g"; "r"; "r"]%string) = 0 /\
  color_outer 3 2 six None (map o ["g"; "g"; "g"; "r"]%string) = 1 /\ color_outer 3 2 six None (map o ["g"; "g"; "g"; "r"; "r"; "r"; "i"; "i"; "z"; "z"]%string) = 3.
Proof. cbv zeta. repeat split; vm_compute; reflexivity. Qed.

(** C139: pairs of observations in two bands close in time *)
Definition apart_pair (d : Z) (b1 b2 : string) (o1 o2 : obs) : Prop := m_band o1 = b1 /\ m_band o2 = b2 /\ Z.abs (m_mjd o2 - m_mjd o1) < d.
Theorem C139_found_refuted : ~ (forall snr d b1 b2 l, StronglySorted (fun a b => m_mjd a < m_mjd b) l -> instant_color 1 snr d b1 b2 l = 1 ->
  exists o1 o2, In o1 l /\ In o2 l /\ snr <= m_snr o1 /\ snr <= m_snr o2 /\ apart_pair d b1 b2 o1 o2).
Proof.
  intros H. destruct (H 10 5 "g"%string "r"%string [ey 1 10 20 1 "r" 0; ey 99 9000 20 1 "g" 0]) as (o1 & o2 & I1 & I2 & _ & _ & B1 & B2 & T); [repeat constructor; cbn; lia|vm_compute; reflexivity|].
  destruct I1 as [<-|[<-|[]]], I2 as [<-|[<-|[]]]; cbn in *; try discriminate; lia.
Qed.
Print Assumptions C139_found_refuted.
Theorem C139_missed_refuted : ~ (forall snr d b1 b2 l o1 o2, StronglySorted (fun a b => m_mjd a < m_mjd b) l ->
  In o1 l -> In o2 l -> snr <= m_snr o1 -> snr <= m_snr o2 -> apart_pair d b1 b2 o1 o2 -> instant_color 1 snr d b1 b2 l = 1).
Proof.
  intros H. specialize (H 10 5 "g"%string "r"%string [ey 1 10 20 1 "g" 0; ey 9 90 20 1 "r" 0; ey 9 91 20 1 "g" 0] (ey 9 91 20 1 "g" 0) (ey 9 90 20 1 "r" 0)).
  assert (0 = 1) as E; [|discriminate]. apply H; [repeat constructor; cbn; lia|right; right; left; reflexivity|right; left; reflexivity|cbn; lia|cbn; lia|]. split; [reflexivity|]. split; [reflexivity|]. vm_compute. reflexivity.
Qed.
Print Assumptions C139_missed_refuted.
(** when every observation in the second band follows one in the first *)
Theorem C139_following_partial : forall np snr d b1 b2 l, StronglySorted (fun a b => m_mjd a < m_mjd b) l -> 1 <= np ->
  (forall o2, In o2 l -> snr <= m_snr o2 -> m_band o2 = b2 -> exists o1, In o1 l /\ snr <= m_snr o1 /\ m_band o1 = b1 /\ m_mjd o1 <= m_mjd o2) ->
  instant_color np snr d b1 b2 l = 1 <->
    2 * np <= Z.of_nat (count (fun o => snr <=? m_snr o) l) /\
    np <= Z.of_nat (count (fun o2 => (snr <=? m_snr o2) && String.eqb (m_band o2) b2 &&
      existsb (fun o1 => (snr <=? m_snr o1) && String.eqb (m_band o1) b1 && (m_mjd o1 <=? m_mjd o2) && (m_mjd o2 - m_mjd o1 <? d)) l) l).
Proof. exact instant_spec. Qed.
Print Assumptions C139_following_partial.
Example C139_case : let l := [ey 1 10 20 1 "g" 0; ey 1 12 20 1 "r" 0; ey 9 90 20 1 "g" 0; ey 9 98 20 1 "r" 0; ey 9 99 5 1 "r" 0] in
  instant_color 1 10 5 "g" "r" l = 1 /\ instant_color 2 10 5 "g" "r" l = 0 /\ instant_color 2 10 9 "g" "r" l = 1 /\ StronglySorted (fun a b => m_mjd a < m_mjd b) l.
Proof. cbv zeta. repeat split; try (vm_compute; reflexivity); repeat constructor; cbn; lia. Qed.

(** C140: when a light curve can be inverted *)
Theorem C140_conditions_partial : forall weight cap lim fl l, 0 < weight -> 0 < cap ->
  (inversion weight cap lim fl l = 0 \/ inversion weight cap lim fl l = 1) /\
  (inversion weight cap lim fl l = 1 <-> exists f, In f fl /\ weight * cap <= band_weight lim cap f (map l_obs l) /\ invertible (map l_lon (counted lim f l)) (map l_phase (counted lim f l))).
Proof. exact inversion_spec. Qed.
Print Assumptions C140_conditions_partial.
(** the longitudes cover ninety degrees of the circle: two of them are that far apart or the circle is covered without
    a gap of more than 270 degrees, which both fail for longitudes within ten degrees of each other *)
Theorem C140_coverage_refuted : ~ (forall weight cap lim fl l, 0 < weight -> 0 < cap -> inversion weight cap lim fl l = 1 ->
  exists a b, In a l /\ In b l /\ 10 < lon_apart (l_lon a) (l_lon b)).
Proof.
  intros H. set (e := fun lon ph => {| l_obs := ey 1 10 100 1 "r" 0; l_lon := lon; l_phase := ph |}).
  destruct (H 1 100 None six [e 355 0; e 5 3; e 5 6]) as (a & b & Ia & Ib & Hab); [lia|lia|vm_compute; reflexivity|].
  destruct Ia as [<-|[<-|[<-|[]]]], Ib as [<-|[<-|[<-|[]]]]; vm_compute in Hab; discriminate.
Qed.
Print Assumptions C140_coverage_refuted.
Example C140_case : let e lon ph := {| l_obs := ey 1 10 100 1 "r" 0; l_lon := lon; l_phase := ph |} in
  inversion 2 100 None six [e 100 0; e 150 3; e 200 6] = 1 /\ inversion 4 100 None six [e 100 0; e 150 3; e 200 6] = 0 /\
  inversion 2 100 None six [e 100 0; e 150 3; e 200 4] = 0 /\ inversion 2 100 None six [e 100 0; e 150 3; e 189 6] = 0 /\
  inversion 2 100 None six [e 150 0; e 150 0; e 150 0; e 150 0; e 150 0; e 150 0; e 150 0; e 150 0; e 150 0; e 150 0; e 150 0; e 150 0; e 150 0; e 150 0; e 150 0; e 150 0; e 150 0; e 150 0; e 150 0; e 240 6] = 0.
Proof. cbv zeta. repeat split; vm_compute; reflexivity. Qed.

(** C141: when an object was already known *)
Theorem C141_known : forall elong s1 s2 s3 k1 k2 k3 k4, s1 <= s2 <= s3 -> forall badval draw l,
  let r := known_objects elong s1 s2 s3 k1 k2 k3 k4 badval draw l in
  (r = badval \/ exists o, In o l /\ k_mjd o = r /\ findable elong s1 s2 s3 k1 k2 k3 k4 o) /\
  ((4 * length l <= length draw)%nat -> (forall d, In d draw -> d <= k_eff k1 /\ d <= k_eff k2 /\ d <= k_eff k3 /\ d <= k_eff k4) ->
    (forall o, In o l -> findable elong s1 s2 s3 k1 k2 k3 k4 o -> (exists o', In o' l /\ k_mjd o' = r /\ findable elong s1 s2 s3 k1 k2 k3 k4 o') /\ r <= k_mjd o) /\
    ((forall o, In o l -> ~ findable elong s1 s2 s3 k1 k2 k3 k4 o) -> r = badval)).
Proof. exact known_spec. Qed.
Print Assumptions C141_known.
Example C141_case : let k t := {| k_thresh := t; k_eff := 100 |} in let o t m := {| k_mjd := t; k_elong := 120; k_mag := m |} in
  let l := [o 90 21; o 5 21; o 25 21; o 15 22; o 40 22] in let draw := repeat 50 20 in
  known_objects 100 10 20 30 (k 20) (k 21) (k 22) (k 22) 999 draw l = 25 /\ known_objects 100 10 20 30 (k 20) (k 22) (k 22) (k 22) 999 draw l = 15 /\
  known_objects 130 10 20 30 (k 20) (k 22) (k 22) (k 22) 999 draw l = 999 /\ known_objects 100 10 20 30 (k 20) (k 22) (k 22) {| k_thresh := 22; k_eff := 10 |} 999 draw [o 40 22] = 999 /\
  findable 100 10 20 30 (k 20) (k 21) (k 22) (k 22) (o 25 21).
Proof. cbv zeta. repeat split; try (vm_compute; reflexivity); vm_compute; discriminate. Qed.
