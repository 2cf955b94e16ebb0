(** Theorems about the gaps between visits in pairs of bands: C351. *)
From Coq Require Import String Ascii Reals Lra Lia ZArith List Bool Permutation Sorted.
From Verif Require Import Base Depth_Model Depth_Proofs Template_Model Sky_Proofs Pop_Model Pop_Spec Runs_Spec Plane_Spec Pop_Props Pop_Props2 Pop_Props3 Pop_Props7 Pop_Props8.
From Verif Require Runs_Props Small_Model Small_Proofs Plane_Props.
Import ListNotations.
Open Scope R_scope.

(** * The lists of gaps *)
Lemma against_filter (P : R -> R -> Prop) (b : R -> R -> bool) (f : R -> R -> R) x : (forall y, b x y = true <-> P x y) -> forall l, Against P f x l (map (f x) (filter (b x) l)).
Proof.
  intros H. induction l as [|y l IH]; cbn [filter map]; [constructor|]. destruct (b x y) eqn:E.
  - cbn [map]. constructor; [apply H; exact E|exact IH].
  - constructor; [|exact IH]. intros C. apply H in C. congruence.
Qed.
(** the lists as functions, to work with *)
Definition gaps1 (x : R) (l : list R) : list R := map (fun y => Rabs (x - y)) (filter (fun y => if Req_EM_T x y then false else true) l).
Fixpoint gaps2 (l : list R) : list R := match l with [] => [] | x :: t => gaps1 x t ++ gaps2 t end.
Lemma gaps1_spec x l : Against (fun x y => x <> y) (fun x y => Rabs (x - y)) x l (gaps1 x l).
Proof. apply (against_filter (fun x y => x <> y) (fun x y => if Req_EM_T x y then false else true) (fun x y => Rabs (x - y))). intros y. destruct (Req_EM_T x y); split; intros; congruence. Qed.
Lemma gaps2_spec l : PairGaps l (gaps2 l).
Proof. induction l as [|x l IH]; cbn [gaps2]; constructor; [apply gaps1_spec|exact IH]. Qed.
Lemma filter_perm {A} (b : A -> bool) l l' : Permutation l l' -> Permutation (filter b l) (filter b l').
Proof. induction 1; cbn; try (destruct (b x)); try (destruct (b y)); auto using perm_swap. etransitivity; eassumption. Qed.
Lemma gaps1_perm x l l' : Permutation l l' -> Permutation (gaps1 x l) (gaps1 x l').
Proof. intros H. apply Permutation_map, filter_perm, H. Qed.
Lemma gaps1_app x l l' : gaps1 x (l ++ l') = gaps1 x l ++ gaps1 x l'.
Proof. unfold gaps1. rewrite filter_app, map_app. reflexivity. Qed.
Lemma gaps2_swap x y l : Permutation (gaps2 (x :: y :: l)) (gaps2 (y :: x :: l)).
Proof.
  cbn [gaps2]. unfold gaps1 at 1 3. cbn [filter]. destruct (Req_EM_T y x) as [E|E], (Req_EM_T x y) as [E'|E']; try congruence; cbn [map app]; fold (gaps1 x l) (gaps1 y l).
  - rewrite !app_assoc. apply Permutation_app_tail, Permutation_app_comm.
  - rewrite (Rabs_minus_sym x y). apply perm_skip. rewrite !app_assoc. apply Permutation_app_tail, Permutation_app_comm.
Qed.
Lemma gaps2_perm l l' : Permutation l l' -> Permutation (gaps2 l) (gaps2 l').
Proof.
  induction 1 as [|x l l' H IH|x y l|l1 l2 l3 _ IH1 _ IH2]; [reflexivity| |apply gaps2_swap|etransitivity; eassumption].
  cbn [gaps2]. apply Permutation_app; [apply gaps1_perm; exact H|exact IH].
Qed.
Lemma before_is x earlier : Permutation (filter (fun d => negb (if Req_EM_T d 0 then true else false)) (map (fun y => Rabs (x - y)) earlier)) (gaps1 x earlier).
Proof.
  unfold gaps1. induction earlier as [|y l IH]; cbn [map filter]; [reflexivity|]. destruct (Req_EM_T (Rabs (x - y)) 0) as [E|E], (Req_EM_T x y) as [E'|E']; cbn [negb map].
  - exact IH.
  - exfalso. apply Rabs_no_R0 in E; [exact E|lra].
  - exfalso. apply E. subst. replace (y - y) with 0 by ring. apply Rabs_R0.
  - apply perm_skip. exact IH.
Qed.
Lemma before_gaps_perm l : forall earlier, Permutation (before_gaps earlier l ++ gaps2 earlier) (gaps2 (earlier ++ l)).
Proof.
  induction l as [|x l IH]; intros earlier; cbn [before_gaps]; [rewrite app_nil_r; reflexivity|].
  specialize (IH (earlier ++ [x])). rewrite <- app_assoc in IH. cbn [app] in IH. rewrite <- IH. rewrite (before_is x earlier).
  rewrite (gaps2_perm (earlier ++ [x]) (x :: earlier)) by (symmetry; apply Permutation_cons_append). cbn [gaps2]. rewrite <- app_assoc.
  rewrite (Permutation_app_comm (gaps1 x earlier)). rewrite <- app_assoc. apply Permutation_app_head. rewrite Permutation_app_comm. reflexivity.
Qed.
Definition cross1 (d x : R) (l : list R) : list R := map (fun y => Rabs (x - y)) (filter (fun y => rleb (Rabs (x - y)) d) l).
Lemma cross_spec d l m : CrossGaps d l m (flat_map (fun x => cross1 d x m) l).
Proof.
  induction l as [|x l IH]; cbn [flat_map]; constructor; [|exact IH].
  apply (against_filter (fun x y => Rabs (x - y) <= d) (fun x y => rleb (Rabs (x - y)) d) (fun x y => Rabs (x - y))). intros y. apply rleb_true.
Qed.
Lemma near_cross d l m : near_gaps d l m = flat_map (fun x => cross1 d x m) l.
Proof.
  unfold near_gaps. apply flat_map_ext. intros x. unfold cross1. induction m as [|y m IH]; cbn [filter]; [reflexivity|].
  assert (E : rleb (x - d) y && rleb y (x + d) = rleb (Rabs (x - y)) d).
  { apply eq_true_iff_eq. rewrite andb_true_iff, !rleb_true. unfold Rabs. destruct (Rcase_abs (x - y)); lra. }
  rewrite E. destruct (rleb (Rabs (x - y)) d); cbn [map]; [rewrite IH; f_equal; apply Rabs_minus_sym|exact IH].
Qed.
Lemma flat_perm {A B} (g h : A -> list B) l l' : Permutation l l' -> (forall x, Permutation (g x) (h x)) -> Permutation (flat_map g l) (flat_map h l').
Proof.
  intros P H. induction P as [|x l l' P IH|x y l|l1 l2 l3 P1 IH1 P2 IH2]; cbn [flat_map]; [reflexivity|apply Permutation_app; auto| |].
  - rewrite !app_assoc. apply Permutation_app; [|induction l as [|z l IH]; cbn [flat_map]; [reflexivity|apply Permutation_app; auto]].
    rewrite (Permutation_app_comm (g y)). apply Permutation_app; apply H.
  - rewrite IH1. transitivity (flat_map g l3); [|exact (IH2)] || idtac.
    assert (Q : Permutation (flat_map h l2) (flat_map g l2)) by (clear - H; induction l2 as [|z l IH]; cbn [flat_map]; [reflexivity|apply Permutation_app; [symmetry; apply H|exact IH]]). rewrite Q. exact IH2.
Qed.

(** the visits of a band that are deep enough *)
Definition Deep (lim : list (string * R)) (f : string) (v : event_visit) : Prop := e_band v = f /\ exists m, Entry lim f m /\ m < e_m5 v.
Lemma used_spec lim f vs l : used lim f vs = Ok l -> exists sel, Sub (Deep lim f) vs sel /\ Permutation l (map e_mjd sel) /\ InOrder l.
Proof.
  unfold used. destruct (lookup lim f) as [m|] eqn:L; cbn [bind]; [|discriminate]. apply lookup_ok in L. intros [= <-].
  exists (filter (fun v => String.eqb (e_band v) f && rltb m (e_m5 v)) vs). split; [|split].
  - apply Runs_Props.filter_sub. intros v. rewrite andb_true_iff, String.eqb_eq, rltb_true. unfold Deep. split; [intros [A B]; split; [exact A|eauto]|].
    intros (A & m' & B & C). apply entry_dget in B, L. assert (m' = m) by congruence. subst. auto.
  - apply Small_Proofs.rsort_perm.
  - pose proof (Small_Proofs.rsort_sorted (map e_mjd (filter (fun v => String.eqb (e_band v) f && rltb m (e_m5 v)) vs))) as S. induction S as [|x l S IH F]; intros i j a b H A B; [destruct i; discriminate|].
    destruct j as [|j]; [lia|]. destruct i as [|i]; cbn in A, B; [injection A as <-; apply nth_error_In in B; rewrite Forall_forall in F; apply F; exact B|]. apply (IH i j); auto; lia.
Qed.

(** C351: all pairs of one band: each two visits at different times once *)
Theorem C351_same : forall lim dtmax f vs g, all_gaps lim dtmax f f vs = Ok g -> exists sel h, Sub (Deep lim f) vs sel /\ PairGaps (map e_mjd sel) h /\ Permutation g h.
Proof.
  intros lim dtmax f vs g. unfold all_gaps. destruct (used lim f vs) as [l|] eqn:U; cbn [bind]; [|discriminate]. rewrite String.eqb_refl. intros [= <-].
  apply used_spec in U. destruct U as (sel & A & B & _). exists sel, (gaps2 (map e_mjd sel)). split; [exact A|]. split; [apply gaps2_spec|].
  pose proof (before_gaps_perm l []) as P. cbn [gaps2 app] in P. rewrite app_nil_r in P. rewrite P. apply gaps2_perm. exact B.
Qed.
Print Assumptions C351_same.
(** of two bands: each visit of the one with each of the other not further away than the last edge *)
Theorem C351_different : forall lim dtmax f0 f1 vs g, f0 <> f1 -> all_gaps lim dtmax f0 f1 vs = Ok g ->
  exists s0 s1 h, Sub (Deep lim f0) vs s0 /\ Sub (Deep lim f1) vs s1 /\ CrossGaps dtmax (map e_mjd s0) (map e_mjd s1) h /\ Permutation g h.
Proof.
  intros lim dtmax f0 f1 vs g N. unfold all_gaps. destruct (used lim f0 vs) as [l0|] eqn:U0; cbn [bind]; [|discriminate]. destruct (used lim f1 vs) as [l1|] eqn:U1; cbn [bind]; [|discriminate].
  destruct (String.eqb_spec f0 f1) as [E|_]; [contradiction|]. intros [= <-]. apply used_spec in U0, U1. destruct U0 as (s0 & A0 & B0 & _), U1 as (s1 & A1 & B1 & _).
  exists s0, s1, (flat_map (fun x => cross1 dtmax x (map e_mjd s1)) (map e_mjd s0)). split; [exact A0|]. split; [exact A1|]. split; [apply cross_spec|].
  rewrite near_cross. apply flat_perm; [exact B0|]. intros x. unfold cross1. apply Permutation_map, filter_perm. exact B1.
Qed.
Print Assumptions C351_different.
(** the pair "gr" has the gaps of the pair "rg" *)
Lemma cross1_cons d x y l : cross1 d x (y :: l) = (if rleb (Rabs (x - y)) d then [Rabs (x - y)] else []) ++ cross1 d x l.
Proof. unfold cross1. cbn [filter]. destruct (rleb (Rabs (x - y)) d); reflexivity. Qed.
Lemma cross_swap d m : forall l, Permutation (flat_map (fun x => cross1 d x m) l) (flat_map (fun x => cross1 d x l) m).
Proof.
  induction l as [|x l IH]; cbn [flat_map].
  - induction m as [|y m IH]; [reflexivity|]. exact IH.
  - rewrite IH. clear IH. induction m as [|y m IH]; cbn [flat_map]; [reflexivity|]. rewrite !cross1_cons, (Rabs_minus_sym y x). rewrite <- !app_assoc. apply Permutation_app_head. rewrite <- IH.
    rewrite !app_assoc. apply Permutation_app_tail, Permutation_app_comm.
Qed.
Theorem C351_symmetric : forall lim dtmax f0 f1 vs g, all_gaps lim dtmax f0 f1 vs = Ok g -> exists g', all_gaps lim dtmax f1 f0 vs = Ok g' /\ Permutation g g'.
Proof.
  intros lim dtmax f0 f1 vs g. unfold all_gaps. destruct (used lim f0 vs) as [l0|] eqn:U0; cbn [bind]; [|discriminate]. destruct (used lim f1 vs) as [l1|] eqn:U1; cbn [bind]; [|discriminate].
  rewrite String.eqb_sym. destruct (String.eqb_spec f1 f0) as [E|N]; intros [= <-].
  - subst. rewrite U0 in U1. injection U1 as ->. exists (before_gaps [] l1). split; reflexivity.
  - eexists. split; [reflexivity|]. rewrite !near_cross. apply cross_swap.
Qed.
Print Assumptions C351_symmetric.

(** * The nearest visits *)
Theorem C351_nearest_same : forall lim f vs g, nearest_gaps lim f f vs = Ok g ->
  exists sel l, Sub (Deep lim f) vs sel /\ Permutation l (map e_mjd sel) /\ InOrder l /\ length g = (length l - 1)%nat
  /\ forall k d, nth_error g k = Some d -> exists a b, nth_error l k = Some a /\ nth_error l (S k) = Some b /\ d = b - a /\ 0 <= d.
Proof.
  intros lim f vs g. unfold nearest_gaps. destruct (used lim f vs) as [l|] eqn:U; cbn [bind]; [|discriminate]. rewrite String.eqb_refl. intros [= <-].
  apply used_spec in U. destruct U as (sel & A & B & C). exists sel, l. split; [exact A|]. split; [exact B|]. split; [exact C|]. clear A B. split.
  - destruct l as [|a l]; [reflexivity|]. destruct (steps_sum l a) as [_ E]. rewrite E. cbn. lia.
  - induction l as [|a l IH]; intros k d H; [destruct k; discriminate|]. destruct l as [|b l]; [destruct k; discriminate|].
    change (steps (a :: b :: l)) with ((b - a) :: steps (b :: l)) in H. destruct k as [|k].
    + injection H as <-. exists a, b. split; [reflexivity|]. split; [reflexivity|]. split; [reflexivity|]. pose proof (C 0%nat 1%nat a b ltac:(lia) eq_refl eq_refl). lra.
    + cbn [nth_error] in H |- *. apply IH; [|exact H]. intros i j x y L X Y. apply (C (S i) (S j)); [lia|exact X|exact Y].
Qed.
Print Assumptions C351_nearest_same.
Lemma in_filter_nil {A} (b : A -> bool) l : filter b l = [] -> forall x, In x l -> b x = false.
Proof. intros E x I. destruct (b x) eqn:B; [|reflexivity]. assert (H : In x (filter b l)) by (apply filter_In; auto). rewrite E in H. destruct H. Qed.
Lemma above_spec x l d : In d (above x l) <-> exists y, In y l /\ x < y /\ d = y - x /\ forall z, In z l -> x < z -> y <= z.
Proof.
  unfold above. destruct (filter (rltb x) l) as [|y t] eqn:E.
  - split; [intros []|]. intros (y & Y & L & _). pose proof (in_filter_nil _ _ E y Y) as F. apply rltb_false in F. lra.
  - destruct (list_min_spec t y) as [M2 M1]. set (m := list_min y t) in *. assert (I : In m (filter (rltb x) l)) by (rewrite E; exact M1). apply filter_In in I. destruct I as [I1 I2]. apply rltb_true in I2.
    assert (LB : forall z, In z l -> x < z -> m <= z). { intros z Z L. apply M2. rewrite <- E. apply filter_In. split; [exact Z|apply rltb_true; exact L]. }
    cbn [In]. split.
    + intros [<-|[]]. exists m. auto.
    + intros (y' & Y & L & -> & Q). left. f_equal. apply Rle_antisym; [apply LB; assumption|apply Q; assumption].
Qed.
Lemma below_spec x l d : In d (below x l) <-> exists y, In y l /\ y < x /\ d = x - y /\ forall z, In z l -> z < x -> z <= y.
Proof.
  unfold below. destruct (filter (fun y => rltb y x) l) as [|y t] eqn:E.
  - split; [intros []|]. intros (y & Y & L & _). pose proof (in_filter_nil _ _ E y Y) as F. cbv beta in F. apply rltb_false in F. lra.
  - destruct (list_max_spec t y) as [M2 M1]. set (m := list_max y t) in *. assert (I : In m (filter (fun y => rltb y x) l)) by (rewrite E; exact M1). apply filter_In in I. destruct I as [I1 I2]. apply rltb_true in I2.
    assert (LB : forall z, In z l -> z < x -> z <= m). { intros z Z L. apply M2. rewrite <- E. apply filter_In. split; [exact Z|apply rltb_true; exact L]. }
    cbn [In]. split.
    + intros [<-|[]]. exists m. auto.
    + intros (y' & Y & L & -> & Q). left. f_equal. apply Rle_antisym; [apply Q; assumption|apply LB; assumption].
Qed.
(** of two bands: the times from a visit of the first to the nearest of the second after it and before it; a visit at the same time is left out *)
Theorem C351_nearest_different : forall lim f0 f1 vs g, f0 <> f1 -> nearest_gaps lim f0 f1 vs = Ok g ->
  exists s0 s1, Sub (Deep lim f0) vs s0 /\ Sub (Deep lim f1) vs s1 /\
  forall d, In d g <-> exists v w, In v s0 /\ In w s1 /\ ((e_mjd v < e_mjd w /\ d = e_mjd w - e_mjd v /\ forall u, In u s1 -> e_mjd v < e_mjd u -> e_mjd w <= e_mjd u)
                                                     \/ (e_mjd w < e_mjd v /\ d = e_mjd v - e_mjd w /\ forall u, In u s1 -> e_mjd u < e_mjd v -> e_mjd u <= e_mjd w)).
Proof.
  intros lim f0 f1 vs g N. unfold nearest_gaps. destruct (used lim f0 vs) as [l0|] eqn:U0; cbn [bind]; [|discriminate]. destruct (used lim f1 vs) as [l1|] eqn:U1; cbn [bind]; [|discriminate].
  destruct (String.eqb_spec f0 f1) as [E|_]; [contradiction|]. intros H. assert (G : g = flat_map (fun x => above x l1) l0 ++ flat_map (fun x => below x l1) l0) by (destruct l0, l1; congruence). clear H.
  apply used_spec in U0, U1. destruct U0 as (s0 & A0 & B0 & _), U1 as (s1 & A1 & B1 & _). exists s0, s1. split; [exact A0|]. split; [exact A1|].
  assert (I0 : forall x, In x l0 <-> exists v, In v s0 /\ x = e_mjd v) by (intros x; split; [intros I; apply (Permutation_in _ B0) in I; apply in_map_iff in I; destruct I as (v & <- & I); eauto|intros (v & I & ->); apply (Permutation_in _ (Permutation_sym B0)), in_map; exact I]).
  assert (I1 : forall x, In x l1 <-> exists v, In v s1 /\ x = e_mjd v) by (intros x; split; [intros I; apply (Permutation_in _ B1) in I; apply in_map_iff in I; destruct I as (v & <- & I); eauto|intros (v & I & ->); apply (Permutation_in _ (Permutation_sym B1)), in_map; exact I]).
  assert (J1 : forall u, In u s1 -> In (e_mjd u) l1) by (intros u U; apply I1; eauto).
  intros d. subst g. rewrite in_app_iff, !in_flat_map. split.
  - intros [(x & X & D)|(x & X & D)]; apply I0 in X; destruct X as (v & V & ->).
    + apply above_spec in D. destruct D as (y & Y & L & -> & Q). apply I1 in Y. destruct Y as (w & W & ->). exists v, w. split; [exact V|]. split; [exact W|]. left. auto.
    + apply below_spec in D. destruct D as (y & Y & L & -> & Q). apply I1 in Y. destruct Y as (w & W & ->). exists v, w. split; [exact V|]. split; [exact W|]. right. auto.
  - intros (v & w & V & W & [(L & -> & Q)|(L & -> & Q)]).
    + left. exists (e_mjd v). split; [apply I0; eauto|]. apply above_spec. exists (e_mjd w). split; [auto|]. split; [exact L|]. split; [reflexivity|]. intros z Z LZ. apply I1 in Z. destruct Z as (u & U & ->). auto.
    + right. exists (e_mjd v). split; [apply I0; eauto|]. apply below_spec. exists (e_mjd w). split; [auto|]. split; [exact L|]. split; [reflexivity|]. intros z Z LZ. apply I1 in Z. destruct Z as (u & U & ->). auto.
Qed.
Print Assumptions C351_nearest_different.
(** with only nearest pairs, a field with visits in one band of a pair and none in the other is an error *)
Theorem C351_missing_band_refuted : forall lim f0 f1 vs v m0 m1, f0 <> f1 -> Entry lim f0 m0 -> Entry lim f1 m1 -> In v vs -> e_band v = f0 -> m0 < e_m5 v ->
  (forall w, In w vs -> e_band w <> f1) -> nearest_gaps lim f0 f1 vs = Err ValueError.
Proof.
  intros lim f0 f1 vs v m0 m1 N E0 E1 I B M H. assert (L0 : lookup lim f0 = Ok m0) by (unfold lookup; apply entry_dget in E0; rewrite E0; reflexivity). assert (L1 : lookup lim f1 = Ok m1) by (unfold lookup; apply entry_dget in E1; rewrite E1; reflexivity).
  unfold nearest_gaps, used. rewrite L0, L1. cbn [bind]. destruct (String.eqb_spec f0 f1) as [E|_]; [contradiction|].
  assert (F1 : filter (fun v => String.eqb (e_band v) f1 && rltb m1 (e_m5 v)) vs = []).
  { clear - H. induction vs as [|w vs IH]; [reflexivity|]. cbn [filter]. destruct (String.eqb_spec (e_band w) f1) as [E|_]; [exfalso; apply (H w); [left; reflexivity|exact E]|]. cbn [andb]. apply IH. intros u U. apply H. right. exact U. }
  rewrite F1. cbn [map]. assert (X : In (e_mjd v) (Small_Model.rsort (map e_mjd (filter (fun v => String.eqb (e_band v) f0 && rltb m0 (e_m5 v)) vs)))).
  { apply (Permutation_in _ (Permutation_sym (Small_Proofs.rsort_perm _))). apply in_map, filter_In. split; [exact I|]. apply andb_true_iff. split; [apply String.eqb_eq; exact B|apply rltb_true; exact M]. }
  destruct (Small_Model.rsort _) as [|a l]; [destruct X|]. reflexivity.
Qed.
Print Assumptions C351_missing_band_refuted.

(** * The figure of merit *)
(** the number in a bin *)
Theorem C351_bins : forall edges l, length (histogram edges l) = (length edges - 1)%nat /\ forall k n, nth_error (histogram edges l) k = Some n -> CountP (InBin edges k) l n.
Proof.
  induction edges as [|a edges IH]; intros l; [split; [reflexivity|intros k n H; destruct k; discriminate]|].
  destruct edges as [|b r]; [split; [reflexivity|intros k n H; destruct k; discriminate]|]. destruct (IH l) as [L H].
  change (histogram (a :: b :: r) l) with (length (filter (fun x => rleb a x && match r with [] => rleb x b | _ => rltb x b end) l) :: histogram (b :: r) l).
  split; [cbn [length] in *; lia|]. intros k n K. destruct k as [|k].
  - injection K as <-. apply Plane_Props.countP_filter. intros x. rewrite andb_true_iff, rleb_true. unfold InBin. cbn [nth_error]. split.
    + intros [X Y]. exists a, b. split; [reflexivity|]. split; [reflexivity|]. split; [exact X|]. destruct r as [|c r]; [apply rleb_true in Y|apply rltb_true in Y; auto]. destruct Y as [Y|Y]; auto.
    + intros (a' & b' & [= <-] & [= <-] & X & Y). split; [exact X|]. destruct r as [|c r]; [apply rleb_true; lra|]. apply rltb_true. destruct Y as [Y|(_ & Y)]; [exact Y|discriminate].
  - cbn [nth_error] in K. specialize (H k n K). exact H.
Qed.
Print Assumptions C351_bins.
Lemma histogram_perm edges l l' : Permutation l l' -> histogram edges l = histogram edges l'.
Proof.
  intros P. induction edges as [|a edges IH]; [reflexivity|]. destruct edges as [|b r]; [reflexivity|].
  change (histogram (a :: b :: r) l) with (length (filter (fun x => rleb a x && match r with [] => rleb x b | _ => rltb x b end) l) :: histogram (b :: r) l).
  change (histogram (a :: b :: r) l') with (length (filter (fun x => rleb a x && match r with [] => rleb x b | _ => rltb x b end) l') :: histogram (b :: r) l').
  rewrite IH. f_equal. apply Permutation_length, filter_perm, P.
Qed.
Lemma variance_average w : w <> [] -> let m := rsum w / INR (length w) in Average (map (fun x => (x - m) * (x - m)) w) (variance w).
Proof.
  intros W m. split; [destruct w; [congruence|discriminate]|]. assert (W0 : INR (length w) <> 0) by (apply not_0_INR; destruct w; [congruence|discriminate]).
  rewrite map_length. unfold variance. fold m. unfold Rdiv. rewrite Rmult_assoc, Rinv_l by exact W0. apply Rmult_1_r.
Qed.
(** of one pair of bands: nothing without gaps in the bins, otherwise their number over the scatter of the clipped numbers *)
Theorem C351_merit : forall allgaps lim bins_same bins_diff dtmax clips a b vs v, fom_run allgaps lim bins_same bins_diff dtmax clips [String a (letter b)] vs = Ok (Some v) ->
  exists gaps h, gaps_of allgaps lim dtmax (letter a) (letter b) vs = Ok gaps
  /\ h = histogram (if Ascii.eqb a b then bins_same else bins_diff) gaps
  /\ ((forall n, In n h -> n = 0%nat) /\ v = 0
      \/ exists clip mean scatter, Entry clips (String a (letter b)) clip /\ Average (map (fun n => INR (Nat.min n clip)) h) mean
         /\ Average (map (fun n => (INR (Nat.min n clip) - mean) * (INR (Nat.min n clip) - mean)) h) (scatter * scatter) /\ 0 < scatter /\ v * scatter = rsum (map INR h)).
Proof.
  intros allgaps lim bs bd dtmax clips a b vs v. cbn [fom_run split_pair bind fst snd letter].
  assert (EQ : String.eqb (letter a) (letter b) = Ascii.eqb a b) by (unfold letter; cbn [String.eqb]; destruct (Ascii.eqb a b); reflexivity). fold (letter a). fold (letter b). rewrite EQ.
  destruct (gaps_of allgaps lim dtmax (letter a) (letter b) vs) as [gaps|] eqn:G; cbn [bind]; [|discriminate]. set (h := histogram (if Ascii.eqb a b then bs else bd) gaps).
  intros H. exists gaps, h. split; [reflexivity|]. split; [reflexivity|].
  destruct (existsb (fun n => negb (Nat.eqb n 0)) h) eqn:E.
  - right. destruct (lookup clips (String a (letter b))) as [clip|] eqn:L; cbn [bind] in H; [|discriminate]. apply lookup_ok in L.
    unfold pair_fom in H. destruct (Req_EM_T (sqrt (variance (map (fun n => INR (Nat.min n clip)) h))) 0) as [Z|Z]; [discriminate|]. injection H as H.
    set (w := map (fun n => INR (Nat.min n clip)) h) in *. assert (W : w <> []). { unfold w. destruct h; [discriminate|discriminate]. }
    assert (W0 : INR (length w) <> 0) by (apply not_0_INR; destruct w; [congruence|discriminate]).
    exists clip, (rsum w / INR (length w)), (sqrt (variance w)). split; [exact L|]. split; [|split; [|split]].
    + split; [exact W|]. unfold Rdiv. rewrite Rmult_assoc, Rinv_l by exact W0. apply Rmult_1_r.
    + assert (V : 0 <= variance w). { unfold variance. apply Rmult_le_pos; [|left; apply Rinv_0_lt_compat; apply lt_0_INR; destruct w; [congruence|cbn; lia]].
        clear. set (m := rsum w / INR (length w)). clearbody m. induction w as [|x w IH]; cbn; [lra|]. pose proof (Rle_0_sqr (x - m)). unfold Rsqr in *. unfold rsum in IH. lra. }
      rewrite sqrt_sqrt by exact V. pose proof (variance_average w W) as Q. cbv zeta in Q. set (m := rsum w / INR (length w)) in *. set (s2 := variance w) in *. clearbody m s2. unfold w in Q. rewrite map_map in Q. exact Q.
    + pose proof (sqrt_pos (variance w)). lra.
    + assert (T : INR (fold_right Nat.add 0%nat h) = rsum (map INR h)). { clear. induction h as [|n h IH]; [reflexivity|]. cbn [fold_right map]. rewrite plus_INR, IH. reflexivity. }
      rewrite <- T, <- H. field. exact Z.
  - left. cbn [bind] in H. injection H as <-. split; [|ring]. intros n I. destruct (Nat.eqb_spec n 0) as [->|N]; [reflexivity|]. exfalso.
    assert (X : existsb (fun n => negb (Nat.eqb n 0)) h = true) by (apply existsb_exists; exists n; split; [exact I|]; destruct (Nat.eqb_spec n 0); [contradiction|reflexivity]). congruence.
Qed.
Print Assumptions C351_merit.
(** the sum over the pairs *)
Theorem C351_sum : forall allgaps lim bs bd dtmax clips p q vs x y, fom_run allgaps lim bs bd dtmax clips p vs = Ok x -> fom_run allgaps lim bs bd dtmax clips q vs = Ok y ->
  fom_run allgaps lim bs bd dtmax clips (p ++ q) vs = Ok match x, y with Some x, Some y => Some (x + y) | _, _ => None end.
Proof.
  intros allgaps lim bs bd dtmax clips p q vs x y. revert x. induction p as [|two p IH]; intros x H Y; cbn [fom_run app] in *.
  - injection H as <-. rewrite Y. destruct y as [y|]; [rewrite Rplus_0_l|]; reflexivity.
  - destruct (split_pair two) as [t|]; cbn [bind] in *; [|discriminate]. destruct (gaps_of allgaps lim dtmax (fst t) (snd t) vs) as [g|]; cbn [bind] in *; [|discriminate].
    destruct (if existsb _ _ then _ else _) as [v|]; cbn [bind] in *; [|discriminate]. destruct (fom_run allgaps lim bs bd dtmax clips p vs) as [r|]; cbn [bind] in *; [|discriminate].
    rewrite (IH r eq_refl Y). cbn [bind]. injection H as <-. f_equal. destruct v, r, y; try reflexivity. f_equal. ring.
Qed.
Print Assumptions C351_sum.
(** the order of the visits does not matter *)
Lemma used_perm lim f vs vs' : Permutation vs vs' -> used lim f vs = used lim f vs'.
Proof. intros P. unfold used. destruct (lookup lim f) as [m|]; cbn [bind]; [|reflexivity]. f_equal. apply Small_Proofs.rsort_perm_eq, Permutation_map, filter_perm, P. Qed.
Theorem C351_order : forall allgaps lim bs bd dtmax clips pairs vs vs', Permutation vs vs' -> fom_run allgaps lim bs bd dtmax clips pairs vs = fom_run allgaps lim bs bd dtmax clips pairs vs'.
Proof.
  intros allgaps lim bs bd dtmax clips pairs vs vs' P. induction pairs as [|two pairs IH]; cbn [fom_run]; [reflexivity|]. rewrite IH. destruct (split_pair two) as [t|]; cbn [bind]; [|reflexivity].
  assert (G : gaps_of allgaps lim dtmax (fst t) (snd t) vs = gaps_of allgaps lim dtmax (fst t) (snd t) vs') by (unfold gaps_of, all_gaps, nearest_gaps; rewrite !(used_perm _ _ _ _ P); reflexivity).
  rewrite G. reflexivity.
Qed.
Print Assumptions C351_order.
(** nor, of a pair with all gaps, which band comes first *)
Theorem C351_swap : forall lim bs bd dtmax clips a b vs, dget String.eqb clips (String a (letter b)) = dget String.eqb clips (String b (letter a)) ->
  (exists g, all_gaps lim dtmax (letter a) (letter b) vs = Ok g) ->
  fom_run true lim bs bd dtmax clips [String a (letter b)] vs = fom_run true lim bs bd dtmax clips [String b (letter a)] vs.
Proof.
  intros lim bs bd dtmax clips a b vs C (g & G). cbn [fom_run split_pair bind fst snd letter]. fold (letter a). fold (letter b). unfold gaps_of. destruct (C351_symmetric _ _ _ _ _ _ G) as (g' & G' & P). rewrite G, G'. cbn [bind].
  rewrite (histogram_perm _ _ _ P). rewrite (String.eqb_sym (letter b) (letter a)). unfold lookup. rewrite C. reflexivity.
Qed.
Print Assumptions C351_swap.
(** one number of gaps in all bins makes the figure infinite; and more gaps may make it smaller *)
Lemma fom_two clip x y : pair_fom clip [x; y] = if Nat.eqb (Nat.min x clip) (Nat.min y clip) then None else Some (2 * INR (x + y) / Rabs (INR (Nat.min x clip) - INR (Nat.min y clip))).
Proof.
  unfold pair_fom, variance. cbn [map length fold_right]. set (p := INR (Nat.min x clip)). set (q := INR (Nat.min y clip)). unfold rsum. cbn [fold_right map].
  assert (V : ((p - (p + (q + 0)) / INR 2) * (p - (p + (q + 0)) / INR 2) + ((q - (p + (q + 0)) / INR 2) * (q - (p + (q + 0)) / INR 2) + 0)) / INR 2 = (Rabs (p - q) / 2) * (Rabs (p - q) / 2)).
  { assert (A : Rabs (p - q) * Rabs (p - q) = (p - q) * (p - q)) by (rewrite <- Rabs_mult; apply Rabs_right; pose proof (Rle_0_sqr (p - q)); unfold Rsqr in *; lra).
    replace (Rabs (p - q) / 2 * (Rabs (p - q) / 2)) with (Rabs (p - q) * Rabs (p - q) / 4) by field. rewrite A. replace (INR 2) with 2 by (cbn; ring). field. }
  rewrite V, sqrt_square by (pose proof (Rabs_pos (p - q)); lra). rewrite Nat.add_0_r.
  destruct (Nat.eqb_spec (Nat.min x clip) (Nat.min y clip)) as [E|E].
  - assert (p = q) by (unfold p, q; rewrite E; reflexivity). destruct (Req_EM_T (Rabs (p - q) / 2) 0) as [_|N]; [reflexivity|]. exfalso. apply N. replace (p - q) with 0 by lra. rewrite Rabs_R0. lra.
  - assert (D : p - q <> 0). { intros Z. apply E. apply INR_eq. unfold p, q in Z. lra. } assert (N : Rabs (p - q) <> 0) by (apply Rabs_no_R0; exact D).
    destruct (Req_EM_T (Rabs (p - q) / 2) 0) as [Z|_]; [lra|]. f_equal. field. exact N.
Qed.
Theorem C351_infinite_refuted : exists clip h, h = histogram [1; 2; 3] [1; 2] /\ pair_fom clip h = None.
Proof.
  exists 30%nat, [1%nat; 1%nat]. split; [|rewrite fom_two; reflexivity]. cbn [histogram filter].
  rewrite (rb_t 1 1), (rl_t 1 2), (rb_t 1 2), (rl_f 2 2), (rb_f 2 1), (rb_t 2 2), (rb_t 2 3) by lra. reflexivity.
Qed.
Print Assumptions C351_infinite_refuted.
Theorem C351_more_refuted : exists clip x y v w, pair_fom clip [x; y] = Some v /\ pair_fom clip [S x; y] = Some w /\ w < v.
Proof.
  exists 30%nat, 3%nat, 2%nat. eexists. eexists. rewrite !fom_two. cbn [Nat.min Nat.eqb Nat.add]. split; [reflexivity|]. split; [reflexivity|].
  replace (INR 5) with 5 by (cbn; ring). replace (INR 6) with 6 by (cbn; ring). replace (INR 4 - INR 2) with 2 by (cbn; ring). replace (INR 3 - INR 2) with 1 by (cbn; ring).
  rewrite (Rabs_right 2), (Rabs_right 1) by lra. lra.
Qed.
Print Assumptions C351_more_refuted.
Definition at_time (t : R) (b : string) : event_visit := {| e_mjd := t; e_m5 := 24; e_band := b |}.
(** two visits in each band: the gaps of "gg" and of "gr" within two days *)
Example C351_case : exists g h, all_gaps [("g", 18); ("r", 18)]%string 2 "g" "g" [at_time 0 "g"; at_time 3 "g"; at_time 1 "r"] = Ok g /\ Permutation g [3]
  /\ all_gaps [("g", 18); ("r", 18)]%string 2 "g" "r" [at_time 0 "g"; at_time 3 "g"; at_time 1 "r"] = Ok h /\ Permutation h [1; 2].
Proof.
  assert (R0 : rltb 18 24 = true) by (apply rltb_true; lra).
  unfold all_gaps, used, at_time, lookup. cbn [dget String.eqb Ascii.eqb Bool.eqb bind filter e_band e_m5 andb]. rewrite R0. cbn [map e_mjd Small_Model.rsort fold_right].
  eexists. eexists. split; [reflexivity|]. split; [|split; [reflexivity|]].
  - pose proof (before_gaps_perm (Small_Model.rsort [0; 3]) []) as P. cbn [gaps2 app] in P. rewrite app_nil_r in P. rewrite P. rewrite (gaps2_perm _ _ (Small_Proofs.rsort_perm [0; 3])).
    cbn [gaps2]. unfold gaps1. cbn [filter]. destruct (Req_EM_T 0 3) as [E|_]; [lra|]. cbn [map app]. replace (Rabs (0 - 3)) with 3 by (rewrite Rabs_minus_sym, Rabs_right; lra). reflexivity.
  - rewrite near_cross. transitivity (flat_map (fun x => cross1 2 x [1]) [0; 3]).
    + apply flat_perm; [apply (Small_Proofs.rsort_perm [0; 3])|]. intros x. reflexivity.
    + cbn [flat_map]. unfold cross1. cbn [filter]. replace (Rabs (0 - 1)) with 1 by (rewrite Rabs_minus_sym, Rabs_right; lra). replace (Rabs (3 - 1)) with 2 by (rewrite Rabs_right; lra).
      rewrite (rb_t 1 2), (rb_t 2 2) by lra. cbn [map app]. replace (Rabs (0 - 1)) with 1 by (rewrite Rabs_minus_sym, Rabs_right; lra). replace (Rabs (3 - 1)) with 2 by (rewrite Rabs_right; lra). reflexivity.
Qed.
