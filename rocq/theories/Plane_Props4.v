(** C332 lensed supernovae; C333 supernova cadence. *)
From Coq Require Import String Reals ZArith List Bool Lia Lra Permutation Sorted.
From Verif Require Import Base Depth_Model Depth_Proofs Template_Model Template_Spec Template_Proofs Sky_Proofs Plane_Model Plane_Spec Plane_Props Plane_Props2 Plane_Props3.
From Verif Require Small_Model Small_Proofs Astrom_Props Crowd_Props3.
Import ListNotations.
Open Scope R_scope.

(** ** C332 *)
(** the number grows with the area and the length of the season and falls with the gap between the nights *)
Theorem C332_formula : forall area area' cadence cadence' len len', 0 <= area <= area' -> 0 <= len <= len' -> cadence' <= cadence ->
  0 <= n_lensed area cadence len <= n_lensed area' cadence' len' /\
  n_lensed 20000 0 2.5 = 45.7 / 2.15 /\
  n_lensed area cadence (len + len') = n_lensed area cadence len + n_lensed area cadence len'.
Proof.
  intros area area' c c' len len' A L C. unfold n_lensed.
  assert (E : 0 < exp (0.37 * c') <= exp (0.37 * c)).
  { split; [apply exp_pos|]. destruct C as [C|C]; [left; apply exp_increasing; lra|rewrite C; lra]. }
  assert (I : 0 < / (2.15 * exp (0.37 * c)) <= / (2.15 * exp (0.37 * c'))).
  { split; [apply Rinv_0_lt_compat; lra|apply Rinv_le_contravar; lra]. }
  assert (N : 0 <= 45.7 * area / 20000 * len / 2.5 <= 45.7 * area' / 20000 * len' / 2.5).
  { replace (45.7 * area / 20000 * len / 2.5) with (45.7 / 20000 / 2.5 * (area * len)) by lra. replace (45.7 * area' / 20000 * len' / 2.5) with (45.7 / 20000 / 2.5 * (area' * len')) by lra.
    assert (0 <= area * len <= area' * len') by nra. lra. }
  split; [|split].
  - unfold Rdiv at 1 4. unfold Rdiv in N |- *. split; [apply Rmult_le_pos; lra|]. apply Rmult_le_compat; lra.
  - replace (0.37 * 0) with 0 by ring. rewrite exp_0. lra.
  - unfold Rdiv. lra.
Qed.
Print Assumptions C332_formula.

Definition Known (ax1 m5mins : string -> option R) (f : string) : Prop := ax1 f <> None /\ m5mins f <> None.
(** deep enough after the correction for dust *)
Definition Deep (ax1 m5mins : string -> option R) (ebv : R) (e : nentry) : Prop :=
  exists a m, ax1 (n_filter e) = Some a /\ m5mins (n_filter e) = Some m /\ m < n_depth e - a * ebv.

Definition cut_entry (ax1 m5mins : string -> option R) (ebv : R) (e : nentry) : list nentry :=
  match ax1 (n_filter e), m5mins (n_filter e) with
  | Some a, Some m => if rltb m (n_depth e - a * ebv) then [{| n_filter := n_filter e; n_depth := n_depth e - a * ebv; n_mjd := n_mjd e |}] else []
  | _, _ => []
  end.
Lemma cut_is : forall ax1 m5mins ebv es, (forall e, In e es -> Known ax1 m5mins (n_filter e)) -> snsl_cut ax1 ebv m5mins es = Ok (flat_map (cut_entry ax1 m5mins ebv) es).
Proof.
  intros ax1 m5mins ebv. induction es as [|e es IH]; intros K; [reflexivity|]. cbn [snsl_cut flat_map]. unfold cut_entry at 1. destruct (K e (or_introl eq_refl)) as [A M].
  destruct (ax1 (n_filter e)) as [a|]; [|contradiction]. destruct (m5mins (n_filter e)) as [m|]; [|contradiction]. rewrite IH by (intros x X; apply K; right; exact X). cbn [bind].
  destruct (rltb _ _); reflexivity.
Qed.
Lemma cut_err : forall ax1 m5mins ebv es e, In e es -> ~ Known ax1 m5mins (n_filter e) -> snsl_cut ax1 ebv m5mins es = Err KeyError.
Proof.
  intros ax1 m5mins ebv. induction es as [|x es IH]; intros e I K; [destruct I|]. cbn [snsl_cut]. unfold Known in K. destruct I as [->|I].
  - destruct (ax1 (n_filter e)) as [a|]; [|reflexivity]. destruct (m5mins (n_filter e)) as [m|]; [|reflexivity]. exfalso. apply K. split; discriminate.
  - destruct (ax1 (n_filter x)) as [a|]; [|reflexivity]. destruct (m5mins (n_filter x)) as [m|]; [|reflexivity]. rewrite (IH e I K). reflexivity.
Qed.
Lemma known_dec : forall ax1 m5mins es, (forall e, In e es -> Known ax1 m5mins (n_filter e)) \/ exists e, In e es /\ ~ Known ax1 m5mins (n_filter e).
Proof.
  intros ax1 m5mins es. induction es as [|e es [IH|(x & I & K)]]; [left; intros e []| |right; exists x; split; [right; exact I|exact K]].
  assert (D : Known ax1 m5mins (n_filter e) \/ ~ Known ax1 m5mins (n_filter e)).
  { unfold Known. destruct (ax1 (n_filter e)), (m5mins (n_filter e)); [left; split; discriminate|right; intros [_ Z]; apply Z; reflexivity|right; intros [Z _]; apply Z; reflexivity..]. }
  destruct D as [D|D]; [left; intros x [<-|X]; [exact D|exact (IH x X)]|right; exists e; split; [left; reflexivity|exact D]].
Qed.

Lemma e_insert_perm : forall e l, Permutation (e_insert e l) (e :: l).
Proof. intros e. induction l as [|x t IH]; [apply Permutation_refl|]. cbn. destruct (rleb _ _); [apply Permutation_refl|]. rewrite IH. apply perm_swap. Qed.
Lemma e_sort_perm : forall l, Permutation (e_sort l) l.
Proof. induction l as [|e l IH]; [constructor|]. cbn. rewrite e_insert_perm. constructor. exact IH. Qed.
Lemma e_sort_sorted : forall l, StronglySorted (fun a b => n_mjd a <= n_mjd b) (e_sort l).
Proof.
  induction l as [|e l IH]; [constructor|]. cbn. change (fold_right e_insert [] l) with (e_sort l). induction IH as [|x t S IS F]; [repeat constructor|]. cbn. destruct (rleb (n_mjd e) (n_mjd x)) eqn:E.
  - apply rleb_true in E. constructor; [constructor; assumption|]. constructor; [exact E|]. eapply Forall_impl; [|exact F]. cbn. intros y Y. lra.
  - apply rleb_false in E. constructor; [exact IS|]. rewrite e_insert_perm. constructor; [lra|exact F].
Qed.
Lemma e_sorted_unique : forall l m, StronglySorted (fun a b => n_mjd a <= n_mjd b) l -> StronglySorted (fun a b => n_mjd a <= n_mjd b) m -> Permutation l m -> NoDup (map n_mjd l) -> l = m.
Proof.
  induction l as [|x l IH]; intros m SL SM P ND; [apply Permutation_nil in P; symmetry; exact P|].
  destruct m as [|y m]; [apply Permutation_sym, Permutation_nil in P; discriminate P|].
  apply StronglySorted_inv in SL. destruct SL as [SL FL]. apply StronglySorted_inv in SM. destruct SM as [SM FM]. rewrite Forall_forall in FL, FM. inversion ND as [|? ? N1 N2]; subst.
  assert (E : x = y).
  { assert (IX : In x (y :: m)) by (apply (Permutation_in _ P); left; reflexivity). assert (IY : In y (x :: l)) by (apply (Permutation_in _ (Permutation_sym P)); left; reflexivity).
    destruct IX as [IX|IX]; [symmetry; exact IX|]. destruct IY as [IY|IY]; [exact IY|]. specialize (FM x IX). specialize (FL y IY). cbn in FM, FL.
    exfalso. apply N1. replace (n_mjd x) with (n_mjd y) by lra. apply in_map. exact IY. }
  subst y. f_equal. apply IH; [assumption|assumption|apply Permutation_cons_inv with x; exact P|exact N2].
Qed.
Lemma cut_mjd : forall ax1 m5mins ebv es, NoDup (map n_mjd es) -> NoDup (map n_mjd (flat_map (cut_entry ax1 m5mins ebv) es)) /\ incl (map n_mjd (flat_map (cut_entry ax1 m5mins ebv) es)) (map n_mjd es).
Proof.
  intros ax1 m5mins ebv. induction es as [|e es IH]; intros ND; [split; [constructor|intros x []]|]. cbn [map] in ND. inversion ND as [|? ? N1 N2]; subst. destruct (IH N2) as [A B].
  cbn [flat_map]. unfold cut_entry at 1 3. cbn [map].
  assert (OUT : NoDup (map n_mjd ([] ++ flat_map (cut_entry ax1 m5mins ebv) es)) /\ incl (map n_mjd ([] ++ flat_map (cut_entry ax1 m5mins ebv) es)) (n_mjd e :: map n_mjd es)) by (split; [exact A|intros x X; right; exact (B x X)]).
  destruct (ax1 (n_filter e)) as [a|]; [|exact OUT]. destruct (m5mins (n_filter e)) as [m|]; [|exact OUT]. destruct (rltb _ _); [|exact OUT].
  cbn [app map n_mjd]. split; [constructor; [intros X; apply N1; exact (B _ X)|exact A]|]. intros x [<-|X]; [left; reflexivity|right; exact (B x X)].
Qed.

(** the order in which the nights come does not matter; an unknown band is an error wherever it stands *)
Theorem C332_order : forall ax1 m5mins ebv area min_obs nfilters season seasons es fs, Permutation es fs -> NoDup (map n_mjd es) ->
  snsl_run ax1 m5mins ebv area min_obs nfilters season seasons es = snsl_run ax1 m5mins ebv area min_obs nfilters season seasons fs /\
  ((exists e, In e es /\ ~ Known ax1 m5mins (n_filter e)) -> snsl_run ax1 m5mins ebv area min_obs nfilters season seasons es = Err KeyError).
Proof.
  intros ax1 m5mins ebv area mo nf season seasons es fs P ND. unfold snsl_run. split.
  - destruct es as [|e es]; [apply Permutation_nil in P; subst fs; reflexivity|]. destruct fs as [|f fs]; [apply Permutation_sym, Permutation_nil in P; discriminate P|].
    destruct (known_dec ax1 m5mins (e :: es)) as [K|(x & I & K)].
    + rewrite (cut_is ax1 m5mins ebv (e :: es) K). rewrite (cut_is ax1 m5mins ebv (f :: fs)) by (intros y Y; apply K; apply (Permutation_in _ (Permutation_sym P)); exact Y). cbn [bind].
      set (c1 := flat_map (cut_entry ax1 m5mins ebv) (e :: es)). set (c2 := flat_map (cut_entry ax1 m5mins ebv) (f :: fs)).
      assert (PC : Permutation c1 c2) by (apply Permutation_flat_map; exact P).
      assert (SE : e_sort c1 = e_sort c2).
      { apply e_sorted_unique; [apply e_sort_sorted|apply e_sort_sorted|rewrite !e_sort_perm; exact PC|].
        apply (Permutation_NoDup (Permutation_map n_mjd (Permutation_sym (e_sort_perm c1)))). apply cut_mjd. exact ND. }
      rewrite SE. destruct c1 as [|x1 t1], c2 as [|x2 t2]; [reflexivity|apply Permutation_nil in PC; discriminate PC|apply Permutation_sym, Permutation_nil in PC; discriminate PC|reflexivity].
    + rewrite (cut_err ax1 m5mins ebv (e :: es) x I K), (cut_err ax1 m5mins ebv (f :: fs) x (Permutation_in _ P I) K). reflexivity.
  - intros (e & I & K). destruct es as [|x es]; [destruct I|]. rewrite (cut_err ax1 m5mins ebv (x :: es) e I K). reflexivity.
Qed.
Print Assumptions C332_order.

(** visits without any deep enough night are masked, no visits at all give 0 *)
Theorem C332_masked : forall ax1 m5mins ebv area min_obs nfilters season seasons es, (forall e, In e es -> Known ax1 m5mins (n_filter e)) ->
  (snsl_run ax1 m5mins ebv area min_obs nfilters season seasons es = Ok Masked <-> es <> [] /\ forall e, In e es -> ~ Deep ax1 m5mins ebv e) /\
  snsl_run ax1 m5mins ebv area min_obs nfilters season seasons [] = Ok (Number (Some 0)).
Proof.
  intros ax1 m5mins ebv area mo nf season seasons es K. split; [|reflexivity].
  assert (CE : flat_map (cut_entry ax1 m5mins ebv) es = [] <-> forall e, In e es -> ~ Deep ax1 m5mins ebv e).
  { assert (ONE : forall e, Known ax1 m5mins (n_filter e) -> cut_entry ax1 m5mins ebv e = [] <-> ~ Deep ax1 m5mins ebv e).
    { intros e [A M]. unfold cut_entry, Deep. destruct (ax1 (n_filter e)) as [a|]; [|contradiction]. destruct (m5mins (n_filter e)) as [m|]; [|contradiction].
      destruct (rltb m (n_depth e - a * ebv)) eqn:E.
      - apply rltb_true in E. split; [discriminate|]. intros N. exfalso. apply N. exists a, m. repeat split. exact E.
      - apply rltb_false in E. split; [|reflexivity]. intros _ (a' & m' & Ea & Em & L). injection Ea as <-. injection Em as <-. lra. }
    clear -K ONE. induction es as [|e es IH]; [split; [intros _ e []|reflexivity]|]. cbn [flat_map]. specialize (IH (fun x X => K x (or_intror X))). specialize (ONE e (K e (or_introl eq_refl))). split.
    - intros H. apply app_eq_nil in H. destruct H as [H1 H2]. intros x [<-|X]; [apply ONE; exact H1|apply (proj1 IH H2 x X)].
    - intros H. rewrite (proj2 ONE (H e (or_introl eq_refl))). apply IH. intros x X. apply H. right. exact X. }
  unfold snsl_run. destruct es as [|e es]; [split; [discriminate|intros [N _]; contradiction]|]. rewrite (cut_is ax1 m5mins ebv (e :: es) K). cbn [bind]. rewrite <- CE.
  destruct (flat_map (cut_entry ax1 m5mins ebv) (e :: es)); [split; [intros _; split; [discriminate|reflexivity]|reflexivity]|split; [discriminate|intros [_ Z]; discriminate Z]].
Qed.
Print Assumptions C332_masked.

(** seasons with too few nights or bands count nothing *)
Theorem C332_seasons : forall area min_obs nfilters season es,
  ((length es < min_obs)%nat \/ (forall l, NoDup l -> incl l (map n_filter es) -> (length l < nfilters)%nat) -> season_number area min_obs nfilters season es = Some 0) /\
  (forall x, season_number area min_obs nfilters season es = Some x -> 0 <= area -> (forall a b, a <= b -> season a <= season b) -> StronglySorted (fun a b => n_mjd a <= n_mjd b) es -> 0 <= x).
Proof.
  intros area mo nf season es. unfold season_number. split.
  - intros [L|L].
    + apply Nat.ltb_lt in L. rewrite L. reflexivity.
    + specialize (L (nodup string_dec (map n_filter es)) (NoDup_nodup _ _) ltac:(intros x X; apply nodup_In in X; exact X)). apply Nat.ltb_lt in L. rewrite L, orb_true_r. reflexivity.
  - intros x H A M S. destruct (_ || _); [injection H as <-; lra|]. destruct (filter _ _) as [|g gs]; [discriminate H|]. destruct es as [|e es]; [discriminate H|]. injection H as <-.
    assert (L : n_mjd e <= n_mjd (last (e :: es) e)).
    { apply StronglySorted_inv in S. destruct S as [_ F]. rewrite Forall_forall in F. assert (I : In (last (e :: es) e) (e :: es)).
      { clear. generalize e at 1 3. induction es as [|y es IH]; intros d; [left; reflexivity|]. change (last (e :: y :: es) d) with (last (y :: es) d).
        clear IH. right. revert y. induction es as [|z es IH]; intros y; [left; reflexivity|]. change (last (y :: z :: es) d) with (last (z :: es) d). right. apply IH. }
      destruct I as [<-|I]; [lra|exact (F _ I)]. }
    specialize (M _ _ L). assert (M' : 0 <= season (n_mjd (last (e :: es) e)) - season (n_mjd e)) by lra.
    match goal with |- 0 <= n_lensed area ?c ?l => change (0 <= l) in M'; destruct (C332_formula area area c c l l) as ([B _] & _); [lra|split; [exact M'|apply Rle_refl]|apply Rle_refl|exact B] end.
Qed.
Print Assumptions C332_seasons.

(** a season of a single night with enough bands makes the total not a number *)
Theorem C332_number_refuted : ~ (forall ax1 m5mins ebv area min_obs nfilters season seasons es,
  (forall e, In e es -> Known ax1 m5mins (n_filter e)) -> (forall a b, a <= b -> season a <= season b) ->
  snsl_run ax1 m5mins ebv area min_obs nfilters season seasons es <> Ok (Number None)).
Proof.
  intros H. set (es := map (fun f => {| n_filter := f; n_depth := 25; n_mjd := 0 |}) ["u"; "g"; "r"; "i"; "z"]%string).
  apply (H (fun _ => Some 0) (fun _ => Some 20) 0 1 5%nat 4%nat (fun _ => 0) (Some [0%Z]) es); [intros e _; split; discriminate|intros; lra|].
  unfold snsl_run, es. cbn [map]. rewrite cut_is by (intros e _; split; discriminate). cbn [flat_map cut_entry n_filter n_depth n_mjd].
  assert (A : rltb 20 (25 - 0 * 0) = true) by (destruct (rltb 20 (25 - 0 * 0)) eqn:E; [reflexivity|apply rltb_false in E; lra]). rewrite A. cbn [app bind].
  assert (I0 : Int_part 0 = 0%Z) by (apply (Int_part_INR 0)).
  assert (B : rleb 0 0 = true) by (destruct (rleb 0 0) eqn:E; [reflexivity|apply rleb_false in E; lra]).
  unfold e_sort. cbn [fold_right]. repeat (cbn [e_insert n_mjd]; rewrite B). cbn [filter map n_mjd]. rewrite I0. cbn [Z.eqb filter].
  unfold season_number. cbn [length map n_filter n_mjd diffs filter].
  assert (C : rltb 0.4 (0 - 0) = false) by (destruct (rltb 0.4 (0 - 0)) eqn:E; [apply rltb_true in E; lra|reflexivity]). rewrite !C. reflexivity.
Qed.
Print Assumptions C332_number_refuted.

Example C332_case : exists x, season_number 1 2 1 (fun t => t / 365) [{| n_filter := "g"; n_depth := 25; n_mjd := 0 |}; {| n_filter := "g"; n_depth := 25; n_mjd := 3 |}] = Some x /\ 0 < x.
Proof.
  unfold season_number. cbn [length map n_filter n_mjd diffs filter last].
  assert (C : rltb 0.4 (3 - 0) = true) by (destruct (rltb 0.4 (3 - 0)) eqn:E; [reflexivity|apply rltb_false in E; lra]). rewrite C. cbn. eexists. split; [reflexivity|].
  unfold n_lensed. apply Rdiv_lt_0_compat; [lra|]. pose proof (exp_pos (0.37 * percentile [3 - 0] 50)). lra.
Qed.

(** ** C333 *)
(** with the columns it asks for the metric always fails *)
Theorem C333_columns_refuted : forall coadd vs, sncad_run (sncad_cols coadd) vs = Err ValueError.
Proof. intros [|] vs; reflexivity. Qed.
Print Assumptions C333_columns_refuted.

Lemma min_r_spec : forall l x, In x l -> min_r l <= x /\ In (min_r l) l.
Proof.
  intros [|y t] x I; [destruct I|]. cbn [min_r]. assert (K : forall t a, fold_left Rmin t a <= a /\ (forall z, In z t -> fold_left Rmin t a <= z) /\ (fold_left Rmin t a = a \/ In (fold_left Rmin t a) t)).
  { clear. induction t as [|b t IH]; intros a; [cbn; split; [lra|split; [intros z []|left; reflexivity]]|]. cbn [fold_left]. destruct (IH (Rmin a b)) as (A & B & C). pose proof (Rmin_l a b). pose proof (Rmin_r a b).
    split; [lra|]. split; [intros z [<-|Z]; [lra|exact (B z Z)]|]. destruct C as [C|C]; [|right; right; exact C]. rewrite C. unfold Rmin. destruct (Rle_dec a b); [left; reflexivity|right; left; reflexivity]. }
  destruct (K t y) as (A & B & C). split; [destruct I as [<-|I]; [exact A|exact (B x I)]|]. destruct C as [C|C]; [left; symmetry; exact C|right; exact C].
Qed.
Lemma max_r_spec : forall l x, In x l -> x <= max_r l /\ In (max_r l) l.
Proof.
  intros [|y t] x I; [destruct I|]. cbn [max_r]. assert (K : forall t a, a <= fold_left Rmax t a /\ (forall z, In z t -> z <= fold_left Rmax t a) /\ (fold_left Rmax t a = a \/ In (fold_left Rmax t a) t)).
  { clear. induction t as [|b t IH]; intros a; [cbn; split; [lra|split; [intros z []|left; reflexivity]]|]. cbn [fold_left]. destruct (IH (Rmax a b)) as (A & B & C). pose proof (Rmax_l a b). pose proof (Rmax_r a b).
    split; [lra|]. split; [intros z [<-|Z]; [lra|exact (B z Z)]|]. destruct C as [C|C]; [|right; right; exact C]. rewrite C. unfold Rmax. destruct (Rle_dec a b); [right; left; reflexivity|left; reflexivity]. }
  destruct (K t y) as (A & B & C). split; [destruct I as [<-|I]; [exact A|exact (B x I)]|]. destruct C as [C|C]; [left; symmetry; exact C|right; exact C].
Qed.
Lemma int_part_is : forall x z, IZR z <= x < IZR z + 1 -> Int_part x = z.
Proof. intros x z H. destruct (base_Int_part x) as [A B]. apply Z.le_antisymm; apply Z.lt_succ_r; apply lt_IZR; rewrite succ_IZR; lra. Qed.
Lemma ceil_is : forall x d, IZR d < x <= IZR d + 1 -> ceilR x = (d + 1)%Z.
Proof. intros x d H. unfold ceilR. rewrite (int_part_is (- x) (- (d + 1))); [lia|]. rewrite opp_IZR, plus_IZR. lra. Qed.
Lemma floor_le : forall x d, x <= IZR d -> (floorR x <= d)%Z.
Proof. intros x d H. unfold floorR. destruct (base_Int_part x) as [A B]. apply le_IZR. lra. Qed.

(** consecutive days *)
Definition days (f : Z) (n : nat) : list R := map (fun k => IZR f + INR k) (seq 0 n).
Lemma days_S : forall f n, days f (S n) = IZR f :: days (f + 1) n.
Proof.
  intros f n. unfold days. cbn [seq map]. f_equal; [cbn; lra|]. rewrite <- seq_shift, map_map. apply map_ext. intros k. rewrite S_INR, plus_IZR. lra.
Qed.
Lemma hist_days : forall n f data, (1 <= n)%nat ->
  fold_right Nat.add 0%nat (histogram (days f (S n)) data) = length (filter (fun d => rleb (IZR f) d && rleb d (IZR f + INR n)) data).
Proof.
  induction n as [|n IH]; intros f data N; [lia|]. rewrite days_S. destruct n as [|n].
  - rewrite days_S. cbn [days seq map histogram fold_right]. rewrite Nat.add_0_r. f_equal. apply filter_ext. intros d. do 2 f_equal. rewrite plus_IZR. cbn. lra.
  - specialize (IH (f + 1)%Z data ltac:(lia)). rewrite days_S in IH |- *. rewrite days_S in IH |- *.
    change (histogram (IZR f :: IZR (f + 1) :: IZR (f + 1 + 1) :: days (f + 1 + 1 + 1) n) data)
      with (length (filter (fun d => rleb (IZR f) d && rltb d (IZR (f + 1))) data) :: histogram (IZR (f + 1) :: IZR (f + 1 + 1) :: days (f + 1 + 1 + 1) n) data).
    cbn [fold_right]. rewrite IH. clear IH. induction data as [|d data IHd]; [reflexivity|]. cbn [filter].
    assert (E : (IZR (f + 1) + INR (S n) = IZR f + INR (S (S n)))) by (rewrite !S_INR, plus_IZR; lra). rewrite E in *. rewrite plus_IZR in *. pose proof (pos_INR n) as PN. rewrite !S_INR in *.
    destruct (rleb (IZR f) d) eqn:A; [apply rleb_true in A|apply rleb_false in A]; destruct (rltb d (IZR f + 1)) eqn:B; [apply rltb_true in B|apply rltb_false in B|apply rltb_true in B|apply rltb_false in B];
    destruct (rleb (IZR f + 1) d) eqn:C; [apply rleb_true in C|apply rleb_false in C|apply rleb_true in C|apply rleb_false in C|apply rleb_true in C|apply rleb_false in C|apply rleb_true in C|apply rleb_false in C];
    destruct (rleb d (IZR f + (INR n + 1 + 1))) eqn:D; try (apply rleb_true in D); try (apply rleb_false in D); cbn [andb length]; try lra; lia.
Qed.

Lemma day_edges_is : forall ts d, (exists x, In x ts /\ IZR d < x) -> (forall x, In x ts -> x <= IZR d + 1) ->
  (ceilR (max_r ts) = d + 1)%Z /\ day_edges ts = days (floorR (min_r ts)) (Z.to_nat (d + 1 - floorR (min_r ts))).
Proof.
  intros ts d (x & I & L) U. destruct (max_r_spec ts x I) as [A B]. pose proof (U _ B). assert (C : ceilR (max_r ts) = (d + 1)%Z) by (apply ceil_is; lra). split; [exact C|]. unfold day_edges, days. rewrite C. reflexivity.
Qed.

(** the visits of the last day are not counted: adding more of them changes nothing *)
Theorem C333_last_refuted : forall ts more d, (exists x, In x ts /\ x <= IZR d) -> (exists x, In x ts /\ IZR d < x) ->
  (forall x, In x (ts ++ more) -> x <= IZR d + 1) -> (forall x, In x more -> IZR d < x) -> cadence (ts ++ more) = cadence ts.
Proof.
  intros ts more d (lo & I0 & L0) (hi & I1 & L1) U M.
  assert (F : min_r (ts ++ more) = min_r ts).
  { destruct (min_r_spec ts lo I0) as [A B]. destruct (min_r_spec (ts ++ more) lo (in_or_app _ _ _ (or_introl I0))) as [A' B'].
    destruct (min_r_spec (ts ++ more) (min_r ts) (in_or_app _ _ _ (or_introl B))) as [Q _]. apply in_app_iff in B'. destruct B' as [B'|B']; [|specialize (M _ B'); lra].
    destruct (min_r_spec ts _ B') as [Q' _]. lra. }
  destruct (day_edges_is ts d (ex_intro _ hi (conj I1 L1)) (fun x X => U x (in_or_app _ _ _ (or_introl X)))) as [_ E].
  destruct (day_edges_is (ts ++ more) d (ex_intro _ hi (conj (in_or_app _ _ _ (or_introl I1)) L1)) U) as [_ E'].
  assert (H : histogram (day_edges (ts ++ more)) (ts ++ more) = histogram (day_edges ts) ts).
  { rewrite E, E', F. set (f := floorR (min_r ts)).
    assert (FL : (f <= d)%Z) by (destruct (min_r_spec ts lo I0) as [A _]; apply floor_le; lra).
    assert (G : forall n f, (f + Z.of_nat n <= d)%Z -> histogram (days f (S n)) (ts ++ more) = histogram (days f (S n)) ts).
    { clear -M. induction n as [|n IH]; intros f L; [reflexivity|]. rewrite days_S. specialize (IH (f + 1)%Z ltac:(lia)).
      rewrite days_S in IH |- *. cbn [histogram]. f_equal; [|exact IH]. rewrite filter_app, app_length.
      assert (Z : filter (fun x => rleb (IZR f) x && (if match days (f + 1 + 1) n with [] => true | _ => false end then rleb x (IZR (f + 1)) else rltb x (IZR (f + 1)))) more = []).
      { apply filter_none. intros x X. specialize (M x X). assert (IZR (f + 1) <= IZR d) by (apply IZR_le; lia).
        assert (P1 : rleb x (IZR (f + 1)) = false) by (destruct (rleb x (IZR (f + 1))) eqn:Q; [apply rleb_true in Q; lra|reflexivity]).
        assert (P2 : rltb x (IZR (f + 1)) = false) by (destruct (rltb x (IZR (f + 1))) eqn:Q; [apply rltb_true in Q; lra|reflexivity]).
        destruct (match days (f + 1 + 1) n with [] => true | _ => false end); [rewrite P1|rewrite P2]; apply andb_false_r. }
      rewrite Z. apply Nat.add_0_r. }
    replace (Z.to_nat (d + 1 - f)) with (S (Z.to_nat (d - f))) by lia. apply G. lia. }
  unfold cadence. rewrite H. reflexivity.
Qed.
Print Assumptions C333_last_refuted.

(** visits of a single day give cadence 0, however many *)
Theorem C333_one_day_refuted : forall ts d, (forall x, In x ts -> IZR d < x <= IZR d + 1) -> cadence ts = 0.
Proof.
  intros ts d H. destruct ts as [|x t]; [unfold cadence, day_edges; cbn; unfold ceilR, floorR; rewrite Ropp_0, (int_part_is 0 0) by lra; reflexivity|]. set (ts := x :: t) in *.
  destruct (day_edges_is ts d) as [_ E]; [exists x; split; [left; reflexivity|apply H; left; reflexivity]|intros y Y; apply H; exact Y|].
  destruct (min_r_spec ts x (or_introl eq_refl)) as [_ B]. specialize (H _ B).
  assert (F : (d <= floorR (min_r ts))%Z) by (unfold floorR; destruct (base_Int_part (min_r ts)) as [P Q]; apply Z.lt_succ_r; apply lt_IZR; rewrite succ_IZR; lra).
  unfold cadence. rewrite E. assert (N : (Z.to_nat (d + 1 - floorR (min_r ts)) = 0 \/ Z.to_nat (d + 1 - floorR (min_r ts)) = 1)%nat) by lia. destruct N as [-> | ->]; reflexivity.
Qed.
Print Assumptions C333_one_day_refuted.

(** the cadence is the number of whole days before the last one per visit in them *)
Theorem C333_cadence_partial : forall ts d n, (exists x, In x ts /\ x <= IZR d) -> (exists x, In x ts /\ IZR d < x) -> (forall x, In x ts -> x <= IZR d + 1) ->
  forall f, (exists x, In x ts /\ x < IZR f + 1) -> (forall x, In x ts -> IZR f <= x) -> (f < d)%Z -> CountP (fun x => x <= IZR d) ts n ->
  IZR (d - f) < 100000000 -> cadence ts * INR n = IZR (d - f).
Proof.
  intros ts d n (lo & I0 & L0) HI U f (fx & IF & LF) FM FD C BIG.
  assert (FI : floorR (min_r ts) = f).
  { destruct (min_r_spec ts fx IF) as [A B]. apply int_part_is. specialize (FM _ B). lra. }
  destruct (day_edges_is ts d HI U) as [_ E]. rewrite FI in E. replace (Z.to_nat (d + 1 - f)) with (S (Z.to_nat (d - f))) in E by lia.
  assert (S := hist_days (Z.to_nat (d - f)) f ts ltac:(lia)). assert (LN := histogram_length (days f (Datatypes.S (Z.to_nat (d - f)))) ts). unfold days in LN at 2. rewrite map_length, seq_length in LN.
  replace (IZR f + INR (Z.to_nat (d - f))) with (IZR d) in S by (rewrite INR_IZR_INZ, Z2Nat.id by lia; rewrite minus_IZR; lra).
  assert (CN : length (filter (fun x => rleb (IZR f) x && rleb x (IZR d)) ts) = n).
  { clear -C FM. induction C as [|x t n P C IH|x t n P C IH]; [reflexivity| |]; cbn [filter]; specialize (IH (fun y Y => FM y (or_intror Y))); specialize (FM x (or_introl eq_refl));
    (destruct (rleb (IZR f) x) eqn:A; [|apply rleb_false in A; lra]); cbn [andb].
    - destruct (rleb x (IZR d)) eqn:B; [cbn [length]; rewrite IH; reflexivity|apply rleb_false in B; lra].
    - destruct (rleb x (IZR d)) eqn:B; [apply rleb_true in B; lra|exact IH]. }
  rewrite CN in S. unfold cadence. rewrite E. set (h := histogram (days f (Datatypes.S (Z.to_nat (d - f)))) ts) in *.
  assert (N1 : (1 <= n)%nat).
  { clear -C I0 L0. induction C as [|x t n P C IH|x t n P C IH]; [destruct I0|lia|]. destruct I0 as [->|I0]; [lra|exact (IH I0)]. }
  assert (RS : rsum (map INR h) = INR n).
  { rewrite <- S. clear. induction h as [|a h IH]; [reflexivity|]. cbn [map fold_right]. change (rsum (?a :: ?l)) with (a + rsum l). rewrite IH, plus_INR. reflexivity. }
  assert (HL : INR (length h) = IZR (d - f)) by (rewrite LN; replace (Datatypes.S (Z.to_nat (d - f)) - 1)%nat with (Z.to_nat (d - f)) by lia; rewrite INR_IZR_INZ, Z2Nat.id by lia; reflexivity).
  assert (DP : 1 <= IZR (d - f)) by (apply (IZR_le 1); lia).
  assert (NP : 1 <= INR n) by (apply (le_INR 1); exact N1).
  assert (MV : mean (map INR h) = INR n / IZR (d - f)) by (unfold mean; rewrite RS, map_length, HL; reflexivity).
  destruct (map INR h) as [|a t] eqn:MH; [apply map_eq_nil in MH; rewrite MH in HL; cbn in HL; lra|]. rewrite MV.
  destruct (rltb (INR n / IZR (d - f)) (/ 100000000)) eqn:Q; [|field; lra]. apply rltb_true in Q. exfalso.
  assert (/ 100000000 < INR n / IZR (d - f)); [|lra]. apply Rlt_le_trans with (/ IZR (d - f)); [apply Rinv_lt_contravar; [nra|exact BIG]|]. unfold Rdiv. rewrite <- (Rmult_1_l (/ IZR (d - f))) at 1. apply Rmult_le_compat_r; [left; apply Rinv_0_lt_compat; lra|exact NP].
Qed.
Print Assumptions C333_cadence_partial.

Example C333_case : cadence [1/10; 2/10; 105/10] * 2 = 10 /\ cadence [1/10; 2/10; 105/10; 106/10; 107/10] = cadence [1/10; 2/10; 105/10] /\ cadence [1/10; 2/10; 3/10] = 0.
Proof.
  split; [|split].
  - assert (K : cadence [1/10; 2/10; 105/10] * INR 2 = IZR (10 - 0)); [|cbn [INR] in K; change (IZR (10 - 0)) with 10 in K; lra]. apply C333_cadence_partial.
    + exists (1/10). split; [left; reflexivity|lra].
    + exists (105/10). split; [right; right; left; reflexivity|lra].
    + intros x [<-|[<-|[<-|[]]]]; lra.
    + exists (1/10). split; [left; reflexivity|lra].
    + intros x [<-|[<-|[<-|[]]]]; lra.
    + lia.
    + apply CP_in; [lra|]. apply CP_in; [lra|]. apply CP_out; [lra|constructor].
    + cbn. lra.
  - apply (C333_last_refuted [1/10; 2/10; 105/10] [106/10; 107/10] 10).
    + exists (1/10). split; [left; reflexivity|lra].
    + exists (105/10). split; [right; right; left; reflexivity|lra].
    + intros x X. cbn in X. decompose [or] X; subst; try lra; contradiction.
    + intros x X. cbn in X. decompose [or] X; subst; try lra; contradiction.
  - apply (C333_one_day_refuted _ 0). intros x X. cbn in X. decompose [or] X; subst; try lra; contradiction.
Qed.
