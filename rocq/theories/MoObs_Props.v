(** Properties C127 to C133: detections of a moving object and opportunities to discover it. *)
From Verif Require Import Base Technical_Model Technical_Spec Technical_Proofs Technical_Proofs3 MoObs_Model MoObs_Spec MoObs_Proofs MoObs_Proofs2.
From Coq Require Import Lia Permutation Sorted.
Open Scope Z_scope.

(** an observation for examples: night and time, detected or not *)
Definition ex_o (night mjd vis : Z) : obs := {| m_snr := 5 * vis; m_vis := vis; m_night := night; m_mjd := mjd; m_band := "r"; m_vel := 0; m_seeing := 1; m_exp := 30 |}.
Definition ex_l : list obs :=
  [ex_o 1 1000 1; ex_o 1 1030 1; ex_o 2 2000 1; ex_o 4 4000 1; ex_o 4 4003 1; ex_o 4 4020 0; ex_o 4 4200 1; ex_o 4 4230 1; ex_o 9 9000 1; ex_o 9 9040 1; ex_o 30 30000 1; ex_o 30 30080 1].
Definition ex_p (nn : Z) : dparams := {| n_obs_night := 2; t_min := 5; t_max := 90; n_nights_window := nn; t_window := 5; d_lim := None |}.
Lemma ex_l_order : in_time_order ex_l.
Proof. split; repeat constructor; cbn; lia. Qed.

(** C127: counts of detections *)
Theorem C127_no_singles : forall lim l, (forall o, In o l -> 0 <= m_night o) ->
  n_obs_no_singles lim l =
    Ok (Z.of_nat (count (fun o => visible lim o && Nat.leb 2 (count (fun o' => visible lim o' && (m_night o' =? m_night o)) l)) l)).
Proof. exact no_singles_spec. Qed.
Print Assumptions C127_no_singles.
Theorem C127_singles_left_out : forall lim l k, (forall o, In o l -> 0 <= m_night o) -> n_obs_no_singles lim l = Ok k ->
  0 <= k <= n_obs lim l /\
  forall nights, NoDup nights -> (forall g, In g nights <-> exists o, In o l /\ detected lim o /\ m_night o = g) ->
  n_obs lim l = k + Z.of_nat (count (fun g => Nat.eqb 1 (count (fun o => visible lim o && (m_night o =? g)) l)) nights) /\
  n_nights lim l = Z.of_nat (length nights) /\ n_nights lim l <= n_obs lim l.
Proof. exact singles_left_out. Qed.
Print Assumptions C127_singles_left_out.
Theorem C127_arc : forall lim l,
  (forall a b, In a l -> In b l -> detected lim a -> detected lim b -> m_mjd b - m_mjd a <= obs_arc lim l) /\
  ((exists a b, In a l /\ In b l /\ detected lim a /\ detected lim b /\ m_mjd b - m_mjd a = obs_arc lim l) \/
   ((forall o, In o l -> ~ detected lim o) /\ obs_arc lim l = 0 /\ n_obs lim l = 0 /\ n_nights lim l = 0)).
Proof. exact arc_spec. Qed.
Print Assumptions C127_arc.
Example C127_case : n_obs None ex_l = 11 /\ n_obs_no_singles None ex_l = Ok 10 /\ n_nights None ex_l = 5 /\ obs_arc None ex_l = 29080 /\
  n_obs (Some 6) ex_l = 0 /\ n_obs_no_singles (Some 0) ex_l = Ok 11 /\ (forall o, In o ex_l -> 0 <= m_night o).
Proof. repeat split; try (vm_compute; reflexivity). intros o Ho. repeat (destruct Ho as [<-|Ho]; [cbn; lia|]). destruct Ho. Qed.

(** C128: a higher limit on the signal to noise, or fewer observations, never gives more detections *)
Theorem C128_limit_monotone : forall s s' l, s <= s' ->
  n_obs (Some s') l <= n_obs (Some s) l /\ n_nights (Some s') l <= n_nights (Some s) l /\ obs_arc (Some s') l <= obs_arc (Some s) l /\
  forall k k', (forall o, In o l -> 0 <= m_night o) -> n_obs_no_singles (Some s') l = Ok k' -> n_obs_no_singles (Some s) l = Ok k -> k' <= k.
Proof. exact limit_monotone. Qed.
Print Assumptions C128_limit_monotone.
Theorem C128_more_observations : forall lim a b l,
  Permutation l (a ++ b) ->
  n_obs lim l = n_obs lim a + n_obs lim b /\ n_nights lim a <= n_nights lim l <= n_nights lim a + n_nights lim b /\ obs_arc lim a <= obs_arc lim l /\
  forall k k', (forall o, In o l -> 0 <= m_night o) -> n_obs_no_singles lim a = Ok k -> n_obs_no_singles lim l = Ok k' -> k <= k'.
Proof. exact more_observations. Qed.
Print Assumptions C128_more_observations.
Example C128_case : n_obs (Some 5) ex_l = 11 /\ n_obs (Some 0) ex_l = 12 /\ n_obs_no_singles (Some 5) ex_l = Ok 10 /\ n_obs_no_singles (Some 0) ex_l = Ok 11 /\
  Permutation ex_l (skipn 4 ex_l ++ firstn 4 ex_l) /\ n_nights None (skipn 4 ex_l) = 3 /\ n_nights None (firstn 4 ex_l) = 3.
Proof. repeat split; try (vm_compute; reflexivity). rewrite Permutation_app_comm, firstn_skipn. apply Permutation_refl. Qed.

(** C129: discovery opportunities *)
Theorem C129_opportunities : forall p l gs, in_time_order l -> 1 <= n_obs_night p -> 1 <= n_nights_window p -> 0 <= t_min p -> tracklet_nights p l gs ->
  (discovery p l = None /\ Z.of_nat (length gs) < n_nights_window p) \/
  (exists r, discovery p l = Some r /\ n_nights_window p <= Z.of_nat (length gs) /\ d_chances r = Z.of_nat (length (opportunities p gs))).
Proof.
  intros p l gs Ho Hk Hw Hm Hg. rewrite (discovery_sorted p l Ho Hk Hw). rewrite <- (dgood_eq p l gs Ho Hk Hm Hg). destruct (Z.ltb_spec (Z.of_nat (length gs)) (n_nights_window p)) as [H|H]; [left; auto|right].
  eexists. split; [reflexivity|]. split; [exact H|]. cbn [d_chances]. rewrite <- (dstarts_opportunities p gs (proj1 Hg)) by lia. rewrite map_length. reflexivity.
Qed.
Print Assumptions C129_opportunities.
(** the nights with tracklets are determined by the observations *)
Theorem C129_tracklet_nights : forall p l, in_time_order l -> 1 <= n_obs_night p -> 0 <= t_min p -> exists gs, tracklet_nights p l gs.
Proof. intros p l Ho Hk Hm. exists (dgood p l). split; [apply dgood_sorted|]. intros g. apply dgood_in; assumption. Qed.
Print Assumptions C129_tracklet_nights.
(** a window of w nights holds w nights *)
Theorem C129_window_refuted :
  ~ (forall p l gs r g, in_time_order l -> 1 <= n_obs_night p -> 1 <= n_nights_window p -> 0 <= t_min p -> tracklet_nights p l gs ->
     discovery p l = Some r -> (forall g, In g gs -> Z.of_nat (length (between g (g + t_window p - 1) gs)) < n_nights_window p) -> In g gs -> d_chances r = 0).
Proof.
  intros H. set (l := [ex_o 1 1000 1; ex_o 1 1030 1; ex_o 6 6000 1; ex_o 6 6030 1]).
  assert (in_time_order l) as Ho by (split; repeat constructor; cbn; lia).
  destruct (C129_tracklet_nights (ex_p 2) l Ho ltac:(cbn; lia) ltac:(cbn; lia)) as [gs Hg]. assert (gs = [1; 6]) as ->.
  { rewrite (dgood_eq (ex_p 2) l gs Ho ltac:(cbn; lia) ltac:(cbn; lia) Hg). vm_compute. reflexivity. }
  specialize (H (ex_p 2) l [1; 6] {| d_start := Some 0%nat; d_end := Some 3%nat; d_chances := 1 |} 1 Ho ltac:(cbn; lia) ltac:(cbn; lia) ltac:(cbn; lia) Hg eq_refl).
  assert (1 = 0) as E; [|lia]. apply H; [|left; reflexivity]. intros g [<-|[<-|[]]]; vm_compute; reflexivity.
Qed.
Print Assumptions C129_window_refuted.
Example C129_case : tracklet_nights (ex_p 2) ex_l [1; 4; 9; 30] /\ opportunities (ex_p 2) [1; 4; 9; 30] = [1; 4] /\
  discovery (ex_p 2) ex_l = Some {| d_start := Some 0%nat; d_end := Some 6%nat; d_chances := 2 |} /\ discovery (ex_p 5) ex_l = None /\ in_time_order ex_l.
Proof.
  split; [|split; [vm_compute; reflexivity|split; [vm_compute; reflexivity|split; [vm_compute; reflexivity|apply ex_l_order]]]].
  assert (dgood (ex_p 2) ex_l = [1; 4; 9; 30]) as <- by (vm_compute; reflexivity).
  split; [apply dgood_sorted|]. intros g. apply dgood_in; [apply ex_l_order|cbn; lia|cbn; lia].
Qed.

(** C130: the time of discovery *)
Theorem C130_first_opportunity_partial : forall p l gs r, in_time_order l -> 1 <= n_obs_night p -> 1 <= n_nights_window p -> 0 <= t_min p -> tracklet_nights p l gs ->
  discovery p l = Some r ->
  (opportunities p gs = [] -> disc_time p l r = None) /\
  (forall g rest, opportunities p gs = g :: rest ->
     exists t, disc_time p l r = Some t /\ (exists o, In o l /\ detected (d_lim p) o /\ m_night o = g /\ m_mjd o = t) /\
     (forall o, In o l -> detected (d_lim p) o -> m_night o = g -> t <= m_mjd o) /\ (forall g', In g' (opportunities p gs) -> g <= g')).
Proof. exact discovery_time_spec. Qed.
Print Assumptions C130_first_opportunity_partial.
(** whatever the order of the observations *)
Theorem C130_any_order_refuted :
  ~ (forall p l l' r r', Permutation l l' -> in_time_order l -> discovery p l = Some r -> discovery p l' = Some r' -> disc_time p l r = disc_time p l' r').
Proof.
  intros H. set (a := [ex_o 1 1000 1; ex_o 1 1030 1]). set (b := [ex_o 4 4000 1; ex_o 4 4030 1]).
  assert (in_time_order (a ++ b)) as Ho by (split; repeat constructor; cbn; lia).
  specialize (H (ex_p 1) (a ++ b) (b ++ a) {| d_start := Some 0%nat; d_end := Some 3%nat; d_chances := 2 |} {| d_start := Some 2%nat; d_end := Some 1%nat; d_chances := 2 |}
    (Permutation_app_comm a b) Ho eq_refl eq_refl). vm_compute in H. discriminate.
Qed.
Print Assumptions C130_any_order_refuted.
Example C130_case : exists r, discovery (ex_p 2) ex_l = Some r /\ disc_time (ex_p 2) ex_l r = Some 1000 /\ opportunities (ex_p 2) [1; 4; 9; 30] = [1; 4] /\
  (exists r', discovery (ex_p 2) (tl ex_l) = Some r' /\ disc_time (ex_p 2) (tl ex_l) r' = Some 4000).
Proof. eexists. split; [vm_compute; reflexivity|]. repeat split; try (vm_compute; reflexivity). eexists. split; vm_compute; reflexivity. Qed.

(** C131: a further observation never costs an opportunity *)
Definition chances (p : dparams) (l : list obs) : Z := match discovery p l with Some r => d_chances r | None => 0 end.
Theorem C131_further_observation_refuted :
  ~ (forall p l o, in_time_order (l ++ [o]) -> 1 <= n_obs_night p -> 1 <= n_nights_window p -> 0 <= t_min p -> chances p l <= chances p (l ++ [o])).
Proof.
  intros H. set (l := [ex_o 1 1000 1; ex_o 1 1003 1; ex_o 1 1006 1]). specialize (H (ex_p 1) l (ex_o 1 1200 1)).
  assert (in_time_order (l ++ [ex_o 1 1200 1])) as Ho by (split; repeat constructor; cbn; lia). specialize (H Ho ltac:(cbn; lia) ltac:(cbn; lia) ltac:(cbn; lia)). vm_compute in H. apply H. reflexivity.
Qed.
Print Assumptions C131_further_observation_refuted.
(** when the nights that have observations get no others *)
Theorem C131_other_nights_partial : forall p l l', in_time_order l -> in_time_order l' -> 1 <= n_obs_night p -> 1 <= n_nights_window p -> 0 <= t_min p ->
  (forall o, In o l -> In o l') -> (forall o o', In o l -> In o' l' -> detected (d_lim p) o -> detected (d_lim p) o' -> m_night o = m_night o' -> In o' l) ->
  chances p l <= chances p l'.
Proof. intros. unfold chances. apply other_nights; assumption. Qed.
Print Assumptions C131_other_nights_partial.
(** nor does it when pairs make tracklets and no two observations of a night are closer than the minimum *)
Theorem C131_pairs_partial : forall p l l', in_time_order l -> in_time_order l' -> n_obs_night p = 2 -> 1 <= n_nights_window p -> 0 <= t_min p ->
  (forall o, In o l -> In o l') -> (forall o o', In o l' -> In o' l' -> detected (d_lim p) o -> detected (d_lim p) o' -> m_night o = m_night o' -> m_mjd o < m_mjd o' -> t_min p <= m_mjd o' - m_mjd o) ->
  chances p l <= chances p l'.
Proof. intros. unfold chances. apply spaced_pairs; assumption. Qed.
Print Assumptions C131_pairs_partial.
Example C131_case : chances (ex_p 2) (firstn 6 ex_l) = 0 /\ chances (ex_p 2) ex_l = 2 /\ chances (ex_p 1) (firstn 4 ex_l) = 1 /\ chances (ex_p 1) ex_l = 4 /\
  (let l := [ex_o 1 1000 1; ex_o 1 1050 1] in let l' := [ex_o 1 1000 1; ex_o 1 1020 1; ex_o 1 1050 1; ex_o 1 1130 1] in
   chances (ex_p 1) l = 1 /\ chances (ex_p 1) l' = 1 /\ in_time_order l /\ in_time_order l').
Proof. repeat split; try (vm_compute; reflexivity); repeat constructor; cbn; lia. Qed.

(** C132: the number of observations of the first opportunity *)
Theorem C132_observations_refuted :
  ~ (forall p l r s e, in_time_order l -> 1 <= n_obs_night p -> 1 <= n_nights_window p -> 0 <= t_min p -> discovery p l = Some r -> d_start r = Some s -> d_end r = Some e ->
     disc_n_obs r = Z.of_nat (count (fun o => visible (d_lim p) o && (m_night o <=? m_night (nth e (vis_obs (d_lim p) l) no_obs))
                                               && (m_night (nth s (vis_obs (d_lim p) l) no_obs) <=? m_night o)) l)).
Proof.
  intros H. set (l := [ex_o 1 1000 1; ex_o 1 1030 1]). assert (in_time_order l) as Ho by (split; repeat constructor; cbn; lia).
  specialize (H (ex_p 1) l {| d_start := Some 0%nat; d_end := Some 1%nat; d_chances := 1 |} 0%nat 1%nat Ho ltac:(cbn; lia) ltac:(cbn; lia) ltac:(cbn; lia) eq_refl eq_refl eq_refl). vm_compute in H. discriminate.
Qed.
Print Assumptions C132_observations_refuted.
(** it is one less than the number of detections from the first night of the opportunity to the last night with a
    tracklet in the window *)
Theorem C132_one_less_partial : forall p l gs r g rest, in_time_order l -> 1 <= n_obs_night p -> 1 <= n_nights_window p -> 0 <= t_min p -> tracklet_nights p l gs ->
  discovery p l = Some r -> opportunities p gs = g :: rest ->
  exists g', In g' gs /\ g <= g' <= g + t_window p /\ (forall h, In h gs -> h <= g + t_window p -> h <= g') /\
  disc_n_obs r + 1 = Z.of_nat (count (fun o => visible (d_lim p) o && (g <=? m_night o) && (m_night o <=? g')) l).
Proof. exact discovery_n_obs_spec. Qed.
Print Assumptions C132_one_less_partial.
Example C132_case : exists r, discovery (ex_p 2) ex_l = Some r /\ disc_n_obs r = 6 /\ opportunities (ex_p 2) [1; 4; 9; 30] = [1; 4].
Proof. eexists. split; [vm_compute; reflexivity|]. split; vm_compute; reflexivity. Qed.

(** C133: every child metric of the discovery metric can be made *)
Theorem C133_velocity_refuted : velocity_init discovery_attrs = Err AttributeError /\ (forall attrs, velocity_init attrs = Ok tt -> In "snrLimit"%string attrs).
Proof.
  split; [reflexivity|]. intros attrs H. unfold velocity_init, getattr in H. destruct (existsb (String.eqb "snrLimit") attrs) eqn:E; [|discriminate].
  apply existsb_exists in E. destruct E as (a & Ha & Ea). apply String.eqb_eq in Ea. subst. exact Ha.
Qed.
Print Assumptions C133_velocity_refuted.
Theorem C133_time_partial : forall attrs, In "snr_limit"%string attrs -> time_init attrs = Ok tt.
Proof. intros attrs H. unfold time_init, getattr. rewrite (proj2 (existsb_exists _ _)); [reflexivity|]. exists "snr_limit"%string. split; [exact H|apply String.eqb_refl]. Qed.
Print Assumptions C133_time_partial.
Example C133_case : time_init discovery_attrs = Ok tt /\ In "snr_limit"%string discovery_attrs.
Proof. split; [reflexivity|left; reflexivity]. Qed.
