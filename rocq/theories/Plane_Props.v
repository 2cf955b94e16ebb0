(** C327 visits over the Galactic plane; C328 exposure time by band; C329 gaps between visits; C330 gaps between seasons. *)
From Coq Require Import String Reals ZArith List Bool Lia Lra Permutation Sorted.
From Verif Require Import Base Depth_Model Depth_Proofs Template_Model Sky_Proofs Plane_Model Plane_Spec.
From Verif Require Small_Model Small_Proofs Maps_Model Astrom_Props.
Import ListNotations.
Open Scope R_scope.

Lemma key_ok : forall {V} (d : list (string * V)) k v, at_key d k = Ok v <-> dget String.eqb d k = Some v.
Proof. intros V d k v. unfold at_key. destruct (dget String.eqb d k); split; intros H; try discriminate H; injection H as ->; reflexivity. Qed.

(** ** C327 *)
(** a visit that counts: in a listed band and at least as deep as the band's cut *)
Definition Counts (filters : list string) (cuts : list (string * R)) (v : pvisit) : Prop :=
  In (p_band v) filters /\ exists c, dget String.eqb cuts (p_band v) = Some c /\ c <= p_m5 v.

Definition counts_b (filters : list string) (cuts : list (string * R)) (v : pvisit) : bool :=
  existsb (String.eqb (p_band v)) filters && match dget String.eqb cuts (p_band v) with Some c => rleb c (p_m5 v) | None => false end.
Lemma counts_iff : forall fs cuts v, counts_b fs cuts v = true <-> Counts fs cuts v.
Proof.
  intros fs cuts v. unfold counts_b, Counts. rewrite andb_true_iff. split.
  - intros [A B]. apply existsb_exists in A. destruct A as (x & I & E). apply String.eqb_eq in E. subst x. split; [exact I|].
    destruct (dget String.eqb cuts (p_band v)) as [c|]; [|discriminate B]. exists c. split; [reflexivity|apply rleb_true; exact B].
  - intros [I (c & E & L)]. split; [apply existsb_exists; exists (p_band v); split; [exact I|apply String.eqb_refl]|]. rewrite E.
    destruct (rleb c (p_m5 v)) eqn:K; [reflexivity|]. apply rleb_false in K. lra.
Qed.

Lemma countP_filter : forall {A} (P : A -> Prop) (b : A -> bool), (forall x, b x = true <-> P x) -> forall l, CountP P l (length (filter b l)).
Proof.
  intros A P b H l. induction l as [|x t IH]; [constructor|]. cbn [filter]. destruct (b x) eqn:E.
  - cbn [length]. apply CP_in; [apply H; exact E|exact IH].
  - apply CP_out; [|exact IH]. intros Q. apply H in Q. congruence.
Qed.

Lemma loop_spec : forall sm cuts point filters vs r, NoDup filters -> footprint_loop sm cuts point filters vs = Ok r ->
  fst r = length (filter (counts_b filters cuts) vs) /\
  snd r = rsum (map (fun v => match dget String.eqb point (Maps_Model.gp_key (p_band v) sm) with Some w => w | None => 0 end) (filter (counts_b filters cuts) vs)).
Proof.
  intros sm cuts point filters vs. induction filters as [|f fs IH]; intros r ND H.
  - cbn in H. injection H as <-. cbn.
    assert (E : filter (counts_b [] cuts) vs = []) by (induction vs as [|v vs IH]; [reflexivity|exact IH]). rewrite E. split; reflexivity.
  - cbn [footprint_loop] in H. destruct (at_key cuts f) as [cut|] eqn:C; [|discriminate H]. destruct (at_key point _) as [w|] eqn:W; [|discriminate H].
    cbn [bind] in H. destruct (footprint_loop sm cuts point fs vs) as [r0|] eqn:L; [|discriminate H]. cbn [bind] in H. injection H as <-.
    inversion ND as [|? ? NI ND']; subst. destruct (IH r0 ND' eq_refl) as [A B]. cbn [fst snd]. rewrite A, B. clear A B IH L.
    apply key_ok in C. apply key_ok in W. unfold deep.
    induction vs as [|v vs IH].
    + cbn. split; [reflexivity|ring].
    + destruct IH as [I1 I2].
      assert (S : forall x, counts_b (f :: fs) cuts x = (String.eqb (p_band x) f && rleb cut (p_m5 x)) || (counts_b fs cuts x)).
      { intros x. unfold counts_b. cbn [existsb]. destruct (String.eqb (p_band x) f) eqn:E; cbn [orb andb].
        - apply String.eqb_eq in E. rewrite E, C. destruct (rleb cut (p_m5 x)); [reflexivity|]. cbn. rewrite andb_false_r. reflexivity.
        - reflexivity. }
      cbn [filter]. rewrite (S v). destruct (String.eqb (p_band v) f && rleb cut (p_m5 v)) eqn:E; cbn [orb].
      * assert (N : counts_b fs cuts v = false).
        { apply andb_true_iff in E. destruct E as [E _]. apply String.eqb_eq in E. unfold counts_b.
          destruct (existsb (String.eqb (p_band v)) fs) eqn:X; [|reflexivity]. apply existsb_exists in X. destruct X as (y & Y & Z). apply String.eqb_eq in Z. subst y. rewrite E in Y. contradiction. }
        rewrite N. cbn [length map]. split; [lia|]. rewrite S_INR.
        apply andb_true_iff in E. destruct E as [E _]. apply String.eqb_eq in E.
        change (rsum (?a :: ?l)) with (a + rsum l). rewrite <- I2. rewrite E, W. ring.
      * destruct (counts_b fs cuts v); cbn [length map]; [split; [lia|]|split; [exact I1|exact I2]].
        change (rsum (?a :: ?l)) with (a + rsum l). rewrite <- I2. cbn. ring.
Qed.

(** a point of low priority is masked; elsewhere the observations are counted, once each, and weighted by the priority of their band *)
Theorem C327_count : forall science_map cuts filters point vs n w p,
  NoDup filters -> footprint_run science_map cuts filters point vs = Ok (Some (n, w, p)) ->
  CountP (Counts filters cuts) vs n /\
  SumP (Counts filters cuts) (fun v x => dget String.eqb point (Maps_Model.gp_key (p_band v) science_map) = Some x) vs w /\
  dget String.eqb point (Maps_Model.gp_key "sum" science_map) = Some p /\
  (if String.eqb science_map "galactic_plane" then 0.4 else if String.eqb science_map "combined_map" then 0.001 else 0) < p.
Proof.
  intros sm cuts filters point vs n w p ND H. unfold footprint_run in H.
  destruct (at_key point (Maps_Model.gp_key "sum" sm)) as [q|] eqn:Q; [|discriminate H]. cbn [bind] in H.
  destruct (rleb q (priority_threshold sm)) eqn:T; [discriminate H|]. apply rleb_false in T.
  destruct (footprint_loop sm cuts point filters vs) as [r|] eqn:L; [|discriminate H]. cbn [bind] in H. injection H as <- <- <-.
  destruct (loop_spec _ _ _ _ _ _ ND L) as [A B]. rewrite A, B. split; [apply countP_filter; apply counts_iff|].
  split; [|split; [apply key_ok; exact Q|exact T]].
  assert (KEYS : forall f, In f filters -> exists x, dget String.eqb point (Maps_Model.gp_key f sm) = Some x).
  { clear -L. revert r L. induction filters as [|g fs IH]; intros r L f I; [destruct I|]. cbn [footprint_loop] in L.
    destruct (at_key cuts g); [|discriminate L]. destruct (at_key point (Maps_Model.gp_key g sm)) as [x|] eqn:X; [|discriminate L]. cbn [bind] in L.
    destruct (footprint_loop sm cuts point fs vs) as [r0|] eqn:M; [|discriminate L]. destruct I as [<-|I]; [exists x; apply key_ok; exact X|]. exact (IH r0 eq_refl f I). }
  clear -KEYS. induction vs as [|v vs IH]; [constructor|]. cbn [filter]. destruct (counts_b filters cuts v) eqn:E.
  - apply counts_iff in E. cbn [map]. change (rsum (?a :: ?l)) with (a + rsum l).
    destruct (KEYS (p_band v) (proj1 E)) as [x X]. rewrite X. apply SP_in; assumption.
  - apply SP_out; [|exact IH]. intros Q. apply counts_iff in Q. congruence.
Qed.
Print Assumptions C327_count.

Theorem C327_masked : forall science_map cuts filters point vs p,
  dget String.eqb point (Maps_Model.gp_key "sum" science_map) = Some p ->
  p <= (if String.eqb science_map "galactic_plane" then 0.4 else if String.eqb science_map "combined_map" then 0.001 else 0) ->
  footprint_run science_map cuts filters point vs = Ok None.
Proof.
  intros sm cuts filters point vs p P L. unfold footprint_run. apply key_ok in P. rewrite P. cbn [bind].
  destruct (rleb p (priority_threshold sm)) eqn:E; [reflexivity|]. apply rleb_false in E. unfold priority_threshold in E. lra.
Qed.
Print Assumptions C327_masked.

(** further visits never lower the count *)
Theorem C327_more : forall science_map cuts filters point vs ws n w p, NoDup filters ->
  footprint_run science_map cuts filters point vs = Ok (Some (n, w, p)) ->
  exists n' w', footprint_run science_map cuts filters point (vs ++ ws) = Ok (Some (n', w', p)) /\ (n <= n')%nat.
Proof.
  intros sm cuts filters point vs ws n w p ND H. unfold footprint_run in *.
  destruct (at_key point (Maps_Model.gp_key "sum" sm)) as [q|] eqn:Q; [|discriminate H]. cbn [bind] in *.
  destruct (rleb q (priority_threshold sm)) eqn:T; [discriminate H|].
  destruct (footprint_loop sm cuts point filters vs) as [r|] eqn:L; [|discriminate H]. cbn [bind] in H. injection H as <- <- <-.
  assert (X : exists r', footprint_loop sm cuts point filters (vs ++ ws) = Ok r').
  { clear -L. revert r L. induction filters as [|g fs IH]; intros r L; [eexists; reflexivity|]. cbn [footprint_loop] in *.
    destruct (at_key cuts g); [|discriminate L]. destruct (at_key point (Maps_Model.gp_key g sm)) as [x|]; [|discriminate L]. cbn [bind] in *.
    destruct (footprint_loop sm cuts point fs vs) as [r0|] eqn:M; [|discriminate L]. destruct (IH r0 eq_refl) as [r' R']. rewrite R'. eexists. reflexivity. }
  destruct X as [r' X]. rewrite X. cbn [bind]. eexists. eexists. split; [reflexivity|].
  destruct (loop_spec _ _ _ _ _ _ ND L) as [A _]. destruct (loop_spec _ _ _ _ _ _ ND X) as [B _]. rewrite A, B, filter_app, app_length. lia.
Qed.
Print Assumptions C327_more.

(** the number of visits asked for at a timescale: pairs of visits in 6.5 months of each year, every [tau] days; so a point that is
    good at one timescale is good at every longer one *)
Theorem C327_timescales : forall nyears t1 t2 n w p, 0 <= nyears -> 0 < t1 <= t2 ->
  exists a b, nvisits_thresholds nyears (Array [t1; t2]) = Ok [a; b] /\
    a * t1 = 2 * (365.25 * nyears * 6.5 / 12) /\ b * t2 = 2 * (365.25 * nyears * 6.5 / 12) /\
    (reduce_tau a (n, w, p) = p \/ reduce_tau a (n, w, p) = 0) /\
    (a <= INR n -> reduce_tau a (n, w, p) = p /\ reduce_tau b (n, w, p) = p) /\
    (INR n < a -> reduce_tau a (n, w, p) = 0).
Proof.
  intros nyears t1 t2 n w p Y [T1 T2]. exists (nvisits_of nyears t1), (nvisits_of nyears t2). split; [reflexivity|].
  assert (A : nvisits_of nyears t1 * t1 = 2 * (365.25 * nyears * 6.5 / 12)) by (unfold nvisits_of, Rdiv; rewrite (Rmult_assoc _ (/ t1) t1), (Rinv_l t1) by lra; lra).
  assert (B : nvisits_of nyears t2 * t2 = 2 * (365.25 * nyears * 6.5 / 12)) by (unfold nvisits_of, Rdiv; rewrite (Rmult_assoc _ (/ t2) t2), (Rinv_l t2) by lra; lra).
  split; [exact A|]. split; [exact B|]. unfold reduce_tau. cbn [fst snd]. split; [destruct (rleb _ _); [left|right]; reflexivity|]. split.
  - intros H.
    assert (LE : nvisits_of nyears t2 <= nvisits_of nyears t1).
    { assert (P0 : 0 <= nvisits_of nyears t2).
      { destruct (Rle_lt_dec 0 (nvisits_of nyears t2)) as [Z|Z]; [exact Z|]. exfalso. assert (nvisits_of nyears t2 * t2 < 0) by nra. lra. }
      destruct (Rle_lt_dec (nvisits_of nyears t2) (nvisits_of nyears t1)) as [Z|Z]; [exact Z|]. exfalso. nra. }
    destruct (rleb (nvisits_of nyears t1) (INR n)) eqn:E; [|apply rleb_false in E; lra].
    destruct (rleb (nvisits_of nyears t2) (INR n)) eqn:F; [|apply rleb_false in F; lra]. split; reflexivity.
  - intros H. destruct (rleb (nvisits_of nyears t1) (INR n)) eqn:E; [apply rleb_true in E; lra|reflexivity].
Qed.
Print Assumptions C327_timescales.

(** a list of timescales, as documented, is refused *)
Theorem C327_list_refuted : ~ (forall nyears l, exists r, nvisits_thresholds nyears (PyList l) = Ok r).
Proof. intros H. destruct (H 10 [2]) as [r E]. discriminate E. Qed.
Print Assumptions C327_list_refuted.

Definition pt (s f : string) (w : R) : string * R := (Maps_Model.gp_key f s, w).
Example C327_case : exists w, footprint_run "M" [("g", 24); ("r", 23)]%string ["g"; "r"]%string [pt "M" "sum" 1; pt "M" "g" 0.5; pt "M" "r" 0.25]
  [Build_pvisit "g" 25 0 30; Build_pvisit "r" 22 1 30; Build_pvisit "r" 23 2 30] = Ok (Some (2%nat, w, 1)).
Proof.
  unfold footprint_run, pt, at_key. cbn [dget Maps_Model.gp_key String.eqb]. cbn. unfold priority_threshold. cbn.
  assert (A : rleb 1 0 = false) by (destruct (rleb 1 0) eqn:E; [apply rleb_true in E; lra|reflexivity]).
  assert (B : rleb 24 25 = true) by (destruct (rleb 24 25) eqn:E; [reflexivity|apply rleb_false in E; lra]).
  assert (C : rleb 23 22 = false) by (destruct (rleb 23 22) eqn:E; [apply rleb_true in E; lra|reflexivity]).
  assert (D : rleb 23 23 = true) by (destruct (rleb 23 23) eqn:E; [reflexivity|apply rleb_false in E; lra]).
  rewrite A. unfold deep. cbn. rewrite B, C, D. cbn. eexists. reflexivity.
Qed.

(** ** C328 *)
Lemma weights_spec : forall sm point all filters ws, weights_loop sm point all filters = Ok ws ->
  map fst ws = filters /\ forall f x, In (f, x) ws -> exists w, dget String.eqb point (Maps_Model.gp_key f sm) = Some w /\ x = w / all.
Proof.
  intros sm point all filters. induction filters as [|f fs IH]; intros ws H; cbn in H.
  - injection H as <-. split; [reflexivity|intros f x []].
  - destruct (at_key point _) as [w|] eqn:W; [|discriminate H]. cbn [bind] in H. destruct (weights_loop sm point all fs) as [r|] eqn:L; [|discriminate H].
    cbn [bind] in H. injection H as <-. destruct (IH r eq_refl) as [A B]. split; [cbn; rewrite A; reflexivity|].
    intros g x [E|I]; [injection E as <- <-; exists w; split; [apply key_ok; exact W|reflexivity]|exact (B g x I)].
Qed.
Lemma exptime_spec : forall cuts filters vs es, exptime_loop cuts filters vs = Ok es ->
  map fst es = filters /\ forall f x, In (f, x) es -> exists c, dget String.eqb cuts f = Some c /\ x = rsum (map p_exp (deep c f vs)).
Proof.
  intros cuts filters vs. induction filters as [|f fs IH]; intros es H; cbn in H.
  - injection H as <-. split; [reflexivity|intros f x []].
  - destruct (at_key cuts f) as [c|] eqn:C; [|discriminate H]. cbn [bind] in H. destruct (exptime_loop cuts fs vs) as [r|] eqn:L; [|discriminate H].
    cbn [bind] in H. injection H as <-. destruct (IH r eq_refl) as [A B]. split; [cbn; rewrite A; reflexivity|].
    intros g x [E|I]; [injection E as <- <-; exists c; split; [apply key_ok; exact C|reflexivity]|exact (B g x I)].
Qed.

Lemma combine_same : forall {A B} (ws : list (string * A)) (es : list (string * B)), map fst ws = map fst es ->
  map (fun we => fst (fst we)) (combine ws es) = map fst ws /\ map snd (map snd (combine ws es)) = map snd es /\
  (forall a b, In (a, b) (combine ws es) -> fst a = fst b /\ In a ws /\ In b es).
Proof.
  intros A B. induction ws as [|a ws IH]; intros [|b es] H; try discriminate H.
  - split; [reflexivity|]. split; [reflexivity|intros a b []].
  - cbn in H. injection H as H1 H2. destruct (IH es H2) as (P & Q & S). cbn. split; [rewrite P; reflexivity|]. split; [rewrite Q; reflexivity|].
    intros x y [E|I]; [injection E as <- <-; split; [exact H1|split; left; reflexivity]|]. destruct (S x y I) as (S1 & S2 & S3). split; [exact S1|split; right; assumption].
Qed.

(** the shares of the time, weighed by the desired shares, make up the whole: if every listed band is wanted *)
Theorem C328_shares : forall science_map cuts filters point vs out all,
  time_run science_map cuts filters point vs = Ok (Some out) ->
  dget String.eqb point (Maps_Model.gp_key "sum" science_map) = Some all -> 0 < all ->
  (forall f, In f filters -> exists w, dget String.eqb point (Maps_Model.gp_key f science_map) = Some w /\ 0 < w) ->
  (forall v, In v vs -> 0 < p_exp v) -> (exists v, In v vs /\ Counts filters cuts v) ->
  exists terms, length terms = length filters /\ fold_right Rplus 0 terms = 1 /\
  (forall k f, nth_error filters k = Some f -> exists x w, nth_error out k = Some (f, Some x) /\
     dget String.eqb point (Maps_Model.gp_key f science_map) = Some w /\ nth_error terms k = Some (x * (w / all))).
Proof.
  intros sm cuts filters point vs out all H A A0 W V (v0 & I0 & C0). unfold time_run in H. apply key_ok in A. rewrite A in H. cbn [bind] in H.
  destruct (rleb all (priority_threshold sm)); [discriminate H|].
  destruct (weights_loop sm point all filters) as [ws|] eqn:WL; [|discriminate H]. cbn [bind] in H.
  destruct (exptime_loop cuts filters vs) as [es|] eqn:EL; [|discriminate H]. cbn [bind] in H. injection H as <-.
  destruct (weights_spec _ _ _ _ _ WL) as [W1 W2]. destruct (exptime_spec _ _ _ _ EL) as [E1 E2].
  set (total := rsum (map snd es)).
  assert (NN : forall f x, In (f, x) es -> 0 <= x).
  { intros f x I. destruct (E2 f x I) as (c & _ & ->). unfold deep. clear -V. induction vs as [|v vs IH]; [cbn; lra|].
    cbn [filter]. specialize (IH (fun u U => V u (or_intror U))). destruct (_ && _); [|exact IH]. cbn [map]. change (rsum (?a :: ?l)) with (a + rsum l). specialize (V v (or_introl eq_refl)). lra. }
  assert (T0 : 0 < total).
  { destruct C0 as [CI (c & CC & CL)]. rewrite <- E1 in CI. apply in_map_iff in CI. destruct CI as ([f x] & F & I). cbn in F. subst f.
    destruct (E2 _ x I) as (c' & C' & X). rewrite CC in C'. injection C' as <-.
    assert (XP : 0 < x).
    { rewrite X. unfold deep. clear -V I0 CL. induction vs as [|v vs IH]; [destruct I0|]. cbn [filter].
      assert (NNr : 0 <= rsum (map p_exp (filter (fun v1 => String.eqb (p_band v1) (p_band v0) && rleb c (p_m5 v1)) vs))).
      { assert (V' : forall u, In u vs -> 0 < p_exp u) by (intros u U; apply V; right; exact U). clear -V'. induction vs as [|u us IHu]; [cbn; lra|].
        cbn [filter]. specialize (IHu (fun z Z => V' z (or_intror Z))). destruct (_ && _); [|exact IHu]. cbn [map]. change (rsum (?a :: ?l)) with (a + rsum l). specialize (V' u (or_introl eq_refl)). lra. }
      destruct I0 as [->|I0].
      - rewrite String.eqb_refl. destruct (rleb c (p_m5 v0)) eqn:E; [|apply rleb_false in E; lra]. cbn [andb map]. change (rsum (?a :: ?l)) with (a + rsum l).
        specialize (V v0 (or_introl eq_refl)). lra.
      - specialize (IH (fun u U => V u (or_intror U)) I0). destruct (_ && _); [|exact IH]. cbn [map]. change (rsum (?a :: ?l)) with (a + rsum l). specialize (V v (or_introl eq_refl)). lra. }
    unfold total. clear -I NN XP. induction es as [|[g y] es IH]; [destruct I|]. cbn [map snd]. change (rsum (?a :: ?l)) with (a + rsum l).
    assert (NT : 0 <= rsum (map snd es)).
    { assert (N' : forall f x, In (f, x) es -> 0 <= x) by (intros f z Z; apply (NN f z); right; exact Z). clear -N'. induction es as [|[h z] es IHe]; [cbn; lra|].
      cbn [map snd]. change (rsum (?a :: ?l)) with (a + rsum l). specialize (IHe (fun f y Y => N' f y (or_intror Y))). specialize (N' h z (or_introl eq_refl)). lra. }
    destruct I as [E|I]; [injection E as -> ->; lra|]. specialize (IH I (fun f z Z => NN f z (or_intror Z))). specialize (NN g y (or_introl eq_refl)). lra. }
  assert (ME : map fst ws = map fst es) by congruence.
  destruct (combine_same ws es ME) as (C1 & C2 & C3).
  exists (map (fun we => snd (snd we) / total) (combine ws es)). split.
  { rewrite map_length, combine_length. rewrite <- W1 at 1. assert (L : length ws = length es) by (rewrite <- (map_length fst ws), <- (map_length fst es), ME; reflexivity).
    rewrite map_length. lia. }
  split.
  - assert (S : fold_right Rplus 0 (map (fun we : (string * R) * (string * R) => snd (snd we) / total) (combine ws es)) = rsum (map snd (map snd (combine ws es))) / total).
    { clear. induction (combine ws es) as [|a l IH]; [cbn; unfold Rdiv; ring|]. cbn [map fold_right]. rewrite IH. change (rsum (?a :: ?l)) with (a + rsum l). unfold Rdiv. ring. }
    rewrite S, C2. fold total. field. lra.
  - intros k f K. rewrite <- W1 in K. rewrite <- C1 in K.
    destruct (nth_error (combine ws es) k) as [[a b]|] eqn:N.
    + rewrite (map_nth_error _ _ _ N) in K. injection K as <-. cbn [fst]. pose proof (nth_error_In _ _ N) as I. destruct (C3 a b I) as (F & Ia & Ib).
      destruct a as [f x]. cbn [fst snd] in *. destruct (W2 f x Ia) as (w & PW & ->).
      destruct (W f) as (w' & PW' & W0). { rewrite <- W1. exact (in_map fst _ _ Ia). }
      rewrite PW in PW'. injection PW' as <-.
      assert (XW : 0 < w / all) by (apply Rdiv_lt_0_compat; assumption).
      exists (snd b / total / (w / all)), w. split; [|split; [exact PW|]].
      * rewrite (map_nth_error _ _ _ N). cbn [fst snd]. destruct (Req_EM_T total 0) as [Z|Z]; [lra|].
        destruct (rltb 0 (w / all)) eqn:E; [reflexivity|]. apply rltb_false in E. lra.
      * rewrite (map_nth_error _ _ _ N). cbn [fst snd]. f_equal. field. lra.
    + assert (K' : nth_error (map (fun we : (string * R) * (string * R) => fst (fst we)) (combine ws es)) k = None).
      { apply nth_error_None. rewrite map_length. apply nth_error_None. exact N. }
      congruence.
Qed.
Print Assumptions C328_shares.

(** the exposure time of the deep enough visits of a band *)
Definition BandTime (cuts : list (string * R)) (vs : list pvisit) (f : string) (t : R) : Prop :=
  exists c, dget String.eqb cuts f = Some c /\ SumP (fun v => p_band v = f /\ c <= p_m5 v) (fun v e => e = p_exp v) vs t.
Lemma deep_sum : forall c f vs, SumP (fun v => p_band v = f /\ c <= p_m5 v) (fun v e => e = p_exp v) vs (rsum (map p_exp (deep c f vs))).
Proof.
  intros c f vs. unfold deep. induction vs as [|v vs IH]; [constructor|]. cbn [filter]. destruct (String.eqb (p_band v) f && rleb c (p_m5 v)) eqn:E.
  - apply andb_true_iff in E. destruct E as [E1 E2]. apply String.eqb_eq in E1. apply rleb_true in E2. cbn [map]. change (rsum (?a :: ?l)) with (a + rsum l).
    apply SP_in; [split; assumption|reflexivity|exact IH].
  - apply SP_out; [|exact IH]. intros [P Q]. subst f. rewrite String.eqb_refl in E. cbn in E. apply rleb_false in E. lra.
Qed.

(** each value compares the share of time with the desired share: 1 when they agree; a band that is not wanted is masked; without any
    deep enough exposure all are 0 *)
Theorem C328_value : forall science_map cuts filters point vs out all k f,
  time_run science_map cuts filters point vs = Ok (Some out) -> nth_error filters k = Some f ->
  dget String.eqb point (Maps_Model.gp_key "sum" science_map) = Some all -> 0 < all ->
  exists w c times total x, dget String.eqb point (Maps_Model.gp_key f science_map) = Some w /\ dget String.eqb cuts f = Some c /\
    SumP (fun v => p_band v = f /\ c <= p_m5 v) (fun v e => e = p_exp v) vs times /\ nth_error out k = Some (f, x) /\
    (exists parts, total = fold_right Rplus 0 parts /\ Forall2 (BandTime cuts vs) filters parts) /\
    (total = 0 -> x = Some 0) /\ (total <> 0 -> w <= 0 -> x = None) /\
    (total <> 0 -> 0 < w -> exists y, x = Some y /\ y * (w / all) = times / total).
Proof.
  intros sm cuts filters point vs out all k f H K A A0. unfold time_run in H. apply key_ok in A. rewrite A in H. cbn [bind] in H.
  destruct (rleb all (priority_threshold sm)); [discriminate H|].
  destruct (weights_loop sm point all filters) as [ws|] eqn:WL; [|discriminate H]. cbn [bind] in H.
  destruct (exptime_loop cuts filters vs) as [es|] eqn:EL; [|discriminate H]. cbn [bind] in H. injection H as <-.
  destruct (weights_spec _ _ _ _ _ WL) as [W1 W2]. destruct (exptime_spec _ _ _ _ EL) as [E1 E2].
  assert (ME : map fst ws = map fst es) by congruence. destruct (combine_same ws es ME) as (C1 & C2 & C3).
  rewrite <- W1, <- C1 in K. destruct (nth_error (combine ws es) k) as [[a b]|] eqn:N.
  2:{ assert (K' : nth_error (map (fun we : (string * R) * (string * R) => fst (fst we)) (combine ws es)) k = None).
      { apply nth_error_None. rewrite map_length. apply nth_error_None. exact N. } congruence. }
  rewrite (map_nth_error _ _ _ N) in K. injection K as <-. destruct (C3 a b (nth_error_In _ _ N)) as (F & Ia & Ib).
  destruct a as [f x]. destruct b as [f' e]. cbn [fst snd] in *. subst f'. destruct (W2 f x Ia) as (w & PW & ->). destruct (E2 f e Ib) as (c & PC & EE).
  exists w, c, e, (rsum (map snd es)). eexists. split; [exact PW|]. split; [exact PC|]. split.
  - rewrite EE. apply deep_sum.
  - split; [rewrite (map_nth_error _ _ _ N); cbn [fst snd]; reflexivity|]. split.
    { exists (map snd es). split; [reflexivity|]. rewrite <- E1. clear -E2. induction es as [|[g t] es IH]; [constructor|]. cbn [map fst snd]. constructor; [|apply IH; intros h y Y; apply E2; right; exact Y].
      destruct (E2 g t (or_introl eq_refl)) as (c & C & ->). exists c. split; [exact C|apply deep_sum]. }
    split.
    + intros Z. destruct (Req_EM_T (rsum (map snd es)) 0); [reflexivity|contradiction].
    + split.
      * intros Z W0. destruct (Req_EM_T (rsum (map snd es)) 0); [contradiction|]. destruct (rltb 0 (w / all)) eqn:E; [|reflexivity].
        apply rltb_true in E. assert (w / all * all = w) by (field; lra). nra.
      * intros Z W0. destruct (Req_EM_T (rsum (map snd es)) 0); [contradiction|]. assert (XW : 0 < w / all) by (apply Rdiv_lt_0_compat; assumption).
        destruct (rltb 0 (w / all)) eqn:E; [|apply rltb_false in E; lra]. eexists. split; [reflexivity|]. field. lra.
Qed.
Print Assumptions C328_value.

(** with fewer bands than six the reduced values of the others cannot be taken *)
Theorem C328_bands_refuted : ~ (forall science_map cuts filters point vs out b, time_run science_map cuts filters point vs = Ok (Some out) ->
  In b ["u"; "g"; "r"; "i"; "z"; "y"]%string -> exists x, reduce_band b out = Ok x).
Proof.
  intros H. specialize (H "M"%string [] [] [pt "M" "sum" 1] [] [] "u"%string).
  assert (A : rleb 1 0 = false) by (destruct (rleb 1 0) eqn:E; [apply rleb_true in E; lra|reflexivity]).
  assert (X : time_run "M" [] [] [pt "M" "sum" 1] [] = Ok (Some [])).
  { unfold time_run, pt, at_key. cbn [dget]. rewrite String.eqb_refl. cbn [bind]. unfold priority_threshold. cbn. rewrite A. reflexivity. }
  destruct (H X) as [x E]; [cbn; tauto|]. discriminate E.
Qed.
Print Assumptions C328_bands_refuted.

Theorem C328_bands_partial : forall science_map cuts filters point vs out b, time_run science_map cuts filters point vs = Ok (Some out) ->
  In b filters -> exists x, reduce_band b out = Ok x.
Proof.
  intros sm cuts filters point vs out b H I. unfold time_run in H. destruct (at_key point _) as [all|]; [|discriminate H]. cbn [bind] in H.
  destruct (rleb all (priority_threshold sm)); [discriminate H|].
  destruct (weights_loop sm point all filters) as [ws|] eqn:WL; [|discriminate H]. cbn [bind] in H.
  destruct (exptime_loop cuts filters vs) as [es|] eqn:EL; [|discriminate H]. cbn [bind] in H. injection H as <-.
  destruct (weights_spec _ _ _ _ _ WL) as [W1 _]. destruct (exptime_spec _ _ _ _ EL) as [E1 _].
  assert (ME : map fst ws = map fst es) by congruence. destruct (combine_same ws es ME) as (C1 & _ & _). rewrite <- W1, <- C1 in I. clear -I. generalize (rsum (map snd es)). intros total.
  unfold reduce_band, at_key. induction (combine ws es) as [|a l IH]; [destruct I|]. cbn [map dget fst snd] in *.
  destruct (String.eqb b (fst (fst a))) eqn:E; [eexists; reflexivity|]. apply IH. destruct I as [I|I]; [rewrite I, String.eqb_refl in E; discriminate E|exact I].
Qed.
Print Assumptions C328_bands_partial.

Example C328_case : exists x y, time_run "M" [("g", 24); ("r", 23)]%string ["g"; "r"]%string [pt "M" "sum" 1; pt "M" "g" 0.5; pt "M" "r" 0.5]
  [Build_pvisit "g" 25 0 30; Build_pvisit "r" 24 1 10; Build_pvisit "r" 20 2 30] = Ok (Some [("g"%string, Some x); ("r"%string, Some y)]) /\ y < 1 < x.
Proof.
  unfold time_run, pt, at_key, priority_threshold. cbn.
  assert (A : rleb 1 0 = false) by (destruct (rleb 1 0) eqn:E; [apply rleb_true in E; lra|reflexivity]).
  assert (B : rleb 24 25 = true) by (destruct (rleb 24 25) eqn:E; [reflexivity|apply rleb_false in E; lra]).
  assert (C : rleb 23 24 = true) by (destruct (rleb 23 24) eqn:E; [reflexivity|apply rleb_false in E; lra]).
  assert (D : rleb 23 20 = false) by (destruct (rleb 23 20) eqn:E; [apply rleb_true in E; lra|reflexivity]).
  assert (F : rltb 0 (0.5 / 1) = true) by (destruct (rltb 0 (0.5 / 1)) eqn:E; [reflexivity|apply rltb_false in E; lra]).
  rewrite A. unfold deep. cbn. rewrite B, C, D. cbn. rewrite F. destruct (Req_EM_T _ 0) as [Z|_]; [lra|]. do 2 eexists. split; [reflexivity|]. lra.
Qed.
