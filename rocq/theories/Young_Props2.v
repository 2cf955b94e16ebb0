(** C403, C404, C405 for the dust map in three dimensions, the default. *)
From Coq Require Import String.
From Verif Require Import Base Young_Model Young_Spec Young_Props.
From Verif Require Depth_Model Maps_Model Maps_Props2.
From Coq Require Import Reals Lra Lia List.
Import ListNotations.
Open Scope R_scope.

(** distances grow and are positive, the dust does not decrease along the line of sight, and no band has a negative coefficient *)
Definition Map (r_x : dict) (dists ebvs : list R) : Prop :=
  (forall b k, In (b, k) r_x -> 0 <= k) /\ length ebvs = length dists /\ dists <> [] /\
  (forall i j x y, (i < j)%nat -> nth_error dists i = Some x -> nth_error dists j = Some y -> x < y) /\
  (forall d, In d dists -> 0 < d) /\
  (forall i j a b, (i < j)%nat -> nth_error ebvs i = Some a -> nth_error ebvs j = Some b -> a <= b).
Lemma map_sight r_x dists ebvs b k : Map r_x dists ebvs -> In (b, k) r_x -> Maps_Props2.Sightline k dists ebvs.
Proof. intros (A & B & C & D & E & F) I. split; [exact (A b k I)|]. repeat (split; [assumption|]). exact F. Qed.
Lemma dget_in (d : dict) b k : dget String.eqb d b = Some k -> In (b, k) d.
Proof. intros H. apply key_in. unfold key. rewrite H. reflexivity. Qed.
Lemma map_first r_x d0 dists ebvs b m x : Map r_x (d0 :: dists) ebvs ->
  distance (dust_3d r_x (d0 :: dists) ebvs) b 0 m = Ok x -> d0 <= x.
Proof.
  intros M. cbn [distance dust_3d]. destruct m as [y|].
  - unfold Maps_Model.dist_at_point. destruct (dget String.eqb r_x b) as [k|] eqn:K; [|discriminate]. destruct ebvs as [|e t]; [discriminate|].
    intros H. destruct (Maps_Props2.row_answer _ _ _ _ _ _ (map_sight _ _ _ _ _ M (dget_in _ _ _ K)) H) as (i & c & w & far & _ & (e' & D & _) & _ & _ & ->).
    eapply Rle_trans; [|apply Rmax_l]. destruct i as [|i]; [cbn in D; injection D as <-; lra|]. destruct M as (_ & _ & _ & G & _). left. exact (G 0%nat (S i) d0 c ltac:(lia) eq_refl D).
  - destruct (key r_x b); [|discriminate]. cbn [bind]. destruct ebvs; [discriminate|]. intros H. injection H as <-. apply Rmax_l.
Qed.
Lemma distance_shift r_x dists ebvs b mag m x : distance (dust_3d r_x dists ebvs) b mag m = Ok x ->
  distance (dust_3d r_x dists ebvs) b 0 (match m with Some y => Some (y - mag) | None => None end) = Ok x.
Proof. cbn [distance dust_3d]. destruct m as [y|]; [|exact (fun H => H)]. rewrite Rminus_0_r. exact (fun H => H). Qed.
Lemma map_mono r_x dists ebvs b mag s d d' x x' : Map r_x dists ebvs -> le_o d d' ->
  distance (dust_3d r_x dists ebvs) b mag (m_app s d) = Ok x -> distance (dust_3d r_x dists ebvs) b mag (m_app s d') = Ok x' -> x <= x'.
Proof.
  intros M L H H'. destruct d as [d|].
  - destruct d' as [d'|]; [|contradiction]. cbn [le_o] in L. cbn [distance dust_3d m_app] in H, H'. unfold Maps_Model.dist_at_point in *.
    destruct (dget String.eqb r_x b) as [k|] eqn:K; [|discriminate]. destruct ebvs as [|e t]; [discriminate|].
    eapply (Maps_Props2.C305_monotone k dists (e :: t) _ _ _ _ _ (map_sight _ _ _ _ _ M (dget_in _ _ _ K))); [|exact H|exact H']. lra.
  - apply distance_shift in H'. cbn [distance dust_3d m_app] in H. destruct (key r_x b); [|discriminate]. cbn [bind] in H.
    destruct dists as [|d0 t]; [discriminate|]. pose proof (map_first _ _ _ _ _ _ _ M H') as F. destruct ebvs; [discriminate|]. injection H as <-.
    destruct M as (_ & _ & _ & _ & P & _). rewrite Rmax_left by (left; apply P; left; reflexivity). exact F.
Qed.
Lemma distances_map r_x dists ebvs crowd snrs vs ws mags l l' : Map r_x dists ebvs ->
  distances (dust_3d r_x dists ebvs) crowd snrs vs mags = Ok l -> distances (dust_3d r_x dists ebvs) crowd snrs (vs ++ ws) mags = Ok l' -> Forall2 Rle l l'.
Proof.
  intros M. revert l l'. induction mags as [|[b mag] mags IH]; intros l l' H H'; cbn [distances] in *.
  - injection H as <-. injection H' as <-. constructor.
  - destruct (key snrs b) as [s|]; [|discriminate]. cbn [bind] in *.
    destruct (distance (dust_3d r_x dists ebvs) b mag (m_app s (depth crowd vs b))) as [x|] eqn:D; [|discriminate]. cbn [bind] in H.
    destruct (distance (dust_3d r_x dists ebvs) b mag (m_app s (depth crowd (vs ++ ws) b))) as [x'|] eqn:D'; [|discriminate]. cbn [bind] in H'.
    destruct (distances (dust_3d r_x dists ebvs) crowd snrs vs mags) as [r|]; [|discriminate]. cbn [bind] in H. injection H as <-.
    destruct (distances (dust_3d r_x dists ebvs) crowd snrs (vs ++ ws) mags) as [r'|]; [|discriminate]. cbn [bind] in H'. injection H' as <-.
    constructor; [exact (map_mono _ _ _ _ _ _ _ _ _ _ M (depth_more crowd vs ws b) D D')|apply IH; reflexivity].
Qed.

(** *** C404 *)
Theorem C404_map : forall r_x dists ebvs crowd snrs vs ws mags D D', Map r_x dists ebvs ->
  final_distance (dust_3d r_x dists ebvs) crowd snrs vs mags = Ok D ->
  final_distance (dust_3d r_x dists ebvs) crowd snrs (vs ++ ws) mags = Ok D' -> D <= D'.
Proof.
  intros r_x dists ebvs crowd snrs vs ws mags D D' M H H'. unfold final_distance in *.
  destruct (distances (dust_3d r_x dists ebvs) crowd snrs vs mags) as [l|] eqn:E; [|discriminate].
  destruct (distances (dust_3d r_x dists ebvs) crowd snrs (vs ++ ws) mags) as [l'|] eqn:E'; [|discriminate]. cbn [bind] in *.
  pose proof (distances_map _ _ _ _ _ _ _ _ _ _ M E E') as F. destruct F as [|x x' t t' L F]; [discriminate|]. injection H as <-. injection H' as <-.
  unfold Rdiv. apply Rmult_le_compat_r; [lra|]. apply fold_min_mono; assumption.
Qed.
Print Assumptions C404_map.

(** *** C405: a band without visits gives the first distance of the map, not 0 *)
Theorem C405_map_partial : forall r_x d0 dists ebvs crowd snrs vs mags D b mag, Map r_x (d0 :: dists) ebvs -> In (b, mag) mags ->
  (forall v, In v vs -> v_band v <> b) ->
  final_distance (dust_3d r_x (d0 :: dists) ebvs) crowd snrs vs mags = Ok D -> 1000 * D = d0 /\ 0 < D.
Proof.
  intros r_x d0 dists ebvs crowd snrs vs mags D b mag M I NV H. destruct (final_inv _ _ _ _ _ _ H) as (l & DL & IN & LB).
  destruct (distances_nth _ _ _ _ _ _ DL) as (LL & NT).
  assert (P0 : 0 < d0) by (destruct M as (_ & _ & _ & _ & P & _); apply P; left; reflexivity).
  assert (NN : forall x, In x l -> d0 <= x).
  { intros x X. apply In_nth_error in X. destruct X as (j & J).
    destruct (nth_error mags j) as [[b' mag']|] eqn:N; [|apply nth_error_None in N; assert (j < length l)%nat by (apply nth_error_Some; congruence); lia].
    destruct (NT j b' mag' N) as (s & y & NY & _ & DY). rewrite J in NY. injection NY as <-. apply distance_shift in DY. exact (map_first _ _ _ _ _ _ _ M DY). }
  apply In_nth_error in I. destruct I as (j & J). destruct (NT j b mag J) as (s & x & NX & _ & DX).
  assert (DN : depth crowd vs b = None).
  { pose proof (depth_m5_is vs b) as DM. unfold depth. destruct (depth_m5 vs b) as [d|]; [|destruct crowd; reflexivity]. exfalso. destruct DM as (NE & _).
    destruct (filter (fun v => String.eqb (v_band v) b) vs) as [|v t] eqn:F; [apply NE; reflexivity|].
    assert (K : In v (filter (fun v => String.eqb (v_band v) b) vs)) by (rewrite F; left; reflexivity). apply filter_In in K. destruct K as (K1 & K2).
    apply String.eqb_eq in K2. exact (NV v K1 K2). }
  rewrite DN in DX. cbn [m_app distance dust_3d] in DX. destruct (key r_x b); [|discriminate]. cbn [bind] in DX. destruct ebvs; [discriminate|]. injection DX as <-.
  pose proof (LB _ (nth_error_In _ _ NX)) as L. rewrite Rmax_left in L by lra. pose proof (NN _ IN). lra.
Qed.
Print Assumptions C405_map_partial.
Theorem C405_map_refuted : exists r_x dists ebvs snrs vs mags b mag D, Map r_x dists ebvs /\ In (b, mag) mags /\ (forall v, In v vs -> v_band v <> b) /\
  final_distance (dust_3d r_x dists ebvs) None snrs vs mags = Ok D /\ 0 < D.
Proof.
  exists [("r"%string, 2)], [20; 50], [0; 1], [("r"%string, 5)], [{| v_band := "g"; v_m5 := 25 |}], [("r"%string, 10)], "r"%string, 10, (20 / 1000).
  split; [|split; [left; reflexivity|split; [intros v [<-|[]]; discriminate|split; [|lra]]]].
  - split; [intros b k [E|[]]; injection E as _ <-; lra|]. split; [reflexivity|]. split; [discriminate|]. split; [|split].
    + intros i j x y L A B. destruct i as [|[|i]], j as [|[|j]]; try lia; cbn in A, B; try discriminate; try (destruct j; discriminate); injection A as <-; injection B as <-; lra.
    + intros d [<-|[<-|[]]]; lra.
    + intros i j x y L A B. destruct i as [|[|i]], j as [|[|j]]; try lia; cbn in A, B; try discriminate; try (destruct j; discriminate); injection A as <-; injection B as <-; lra.
  - cbn. rewrite Rmax_left by lra. reflexivity.
Qed.
Print Assumptions C405_map_refuted.
Example C404_map_case : Map [("r"%string, 2)] [20] [0].
Proof.
  split; [intros b k [E|[]]; injection E as _ <-; lra|]. split; [reflexivity|]. split; [discriminate|]. split; [|split].
  - intros i j x y L A B. destruct j as [|j]; [lia|]. destruct j; discriminate.
  - intros d [<-|[]]; lra.
  - intros i j x y L A B. destruct j as [|j]; [lia|]. destruct j; discriminate.
Qed.

(** *** C403 for the dust map in three dimensions: the distance is the smallest over the bands of the distance that the map gives for
    the dimming from the absolute magnitude to the limit.  Full statement: a star there is just seen in one band.  Missing: the map
    gives the nearest of its distances, see C305. *)
Theorem C403_map_partial : forall r_x dists ebvs crowd snrs vs mags D,
  (forall b mag, In (b, mag) mags -> exists v, In v vs /\ v_band v = b) ->
  final_distance (dust_3d r_x dists ebvs) crowd snrs vs mags = Ok D ->
  (forall b mag, In (b, mag) mags -> exists snr d0 lim x, In (b, snr) snrs /\
     Coadded (map v_m5 (filter (fun v => String.eqb (v_band v) b) vs)) d0 /\
     AtSnr snr (match crowd with Some c => Rmin d0 (c b) | None => d0 end) lim /\
     Maps_Model.dist_at_point r_x b (lim - mag) dists ebvs = Ok x /\ 1000 * D <= x) /\
  (exists b mag snr d0 lim, In (b, mag) mags /\ In (b, snr) snrs /\
     Coadded (map v_m5 (filter (fun v => String.eqb (v_band v) b) vs)) d0 /\
     AtSnr snr (match crowd with Some c => Rmin d0 (c b) | None => d0 end) lim /\
     Maps_Model.dist_at_point r_x b (lim - mag) dists ebvs = Ok (1000 * D)).
Proof.
  intros r_x dists ebvs crowd snrs vs mags D HV H. destruct (final_inv _ _ _ _ _ _ H) as (l & DL & IN & LB).
  destruct (distances_nth _ _ _ _ _ _ DL) as (LL & NT).
  assert (K : forall j b mag, nth_error mags j = Some (b, mag) -> exists snr d0 lim x, nth_error l j = Some x /\ In (b, snr) snrs /\
     Coadded (map v_m5 (filter (fun v => String.eqb (v_band v) b) vs)) d0 /\
     AtSnr snr (match crowd with Some c => Rmin d0 (c b) | None => d0 end) lim /\
     Maps_Model.dist_at_point r_x b (lim - mag) dists ebvs = Ok x).
  { intros j b mag N. destruct (NT j b mag N) as (s & x & NX & KS & DX).
    pose proof (depth_m5_is vs b) as DM. destruct (depth_m5 vs b) as [d0|] eqn:E.
    2:{ exfalso. destruct (HV b mag) as (v & I & B); [eapply nth_error_In, N|]. exact (DM v I B). }
    set (d := match crowd with Some c => Rmin d0 (c b) | None => d0 end).
    assert (DD : depth crowd vs b = Some d) by (unfold depth; rewrite E; destruct crowd; reflexivity).
    rewrite DD in DX. cbn [m_app distance dust_3d] in DX.
    exists s, d0, (- (5/2) * Depth_Model.log10 (s / 5) + d), x. split; [exact NX|]. split; [apply key_in, KS|]. split; [exact DM|].
    split; [unfold AtSnr, Depth_Model.log10; fold d; ring|exact DX]. }
  split.
  - intros b mag I. apply In_nth_error in I. destruct I as (j & J). destruct (K j b mag J) as (snr & d0 & lim & x & NX & IS & CO & AT & DX).
    exists snr, d0, lim, x. repeat (split; [assumption|]). apply LB. eapply nth_error_In, NX.
  - apply In_nth_error in IN. destruct IN as (j & J).
    destruct (nth_error mags j) as [[b mag]|] eqn:N; [|apply nth_error_None in N; assert (j < length l)%nat by (apply nth_error_Some; congruence); lia].
    destruct (K j b mag N) as (snr & d0 & lim & x & NX & IS & CO & AT & DX). rewrite J in NX. injection NX as <-.
    exists b, mag, snr, d0, lim. split; [eapply nth_error_In, N|]. repeat (split; [assumption|]). exact DX.
Qed.
Print Assumptions C403_map_partial.
