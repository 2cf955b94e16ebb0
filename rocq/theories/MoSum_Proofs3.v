From Verif Require Import Base MoSum_Model MoSum_Spec MoSum_Proofs MoSum_Proofs2.
From Coq Require Import QArith Qabs Lqa Lia Sorted.
Open Scope Q_scope.

(** * Least and largest elements *)
Lemma fold_min_spec : forall l x, let m := fold_left (fun a b => if Qle_bool a b then a else b) l x in In m (x :: l) /\ forall y, In y (x :: l) -> m <= y.
Proof.
  intros l. induction l as [|y l IH]; intros x; cbn [fold_left]; [split; [left; reflexivity|intros z [<-|[]]; apply Qle_refl]|].
  specialize (IH (if Qle_bool x y then x else y)). cbv zeta in *. destruct IH as [I M]. split.
  - destruct I as [I|I]; [rewrite <- I; destruct (Qle_bool x y); [left|right; left]; reflexivity|right; right; exact I].
  - intros z Hz. pose proof (M _ (or_introl eq_refl)) as M0. destruct (qle_spec x y) as [[E H]|[E H]]; rewrite E in *.
    + destruct Hz as [<-|[<-|Hz]]; [exact M0|lra|apply M; right; exact Hz].
    + destruct Hz as [<-|[<-|Hz]]; [lra|exact M0|apply M; right; exact Hz].
Qed.
Lemma qmin_spec l m : qmin_list l = Some m -> In m l /\ forall y, In y l -> m <= y.
Proof. destruct l as [|x l]; [discriminate|]. cbn [qmin_list]. intros E. injection E as <-. apply fold_min_spec. Qed.
Lemma fold_max_spec : forall l x, let m := fold_left (fun a b => if Qle_bool a b then b else a) l x in In m (x :: l) /\ forall y, In y (x :: l) -> y <= m.
Proof.
  intros l. induction l as [|y l IH]; intros x; cbn [fold_left]; [split; [left; reflexivity|intros z [<-|[]]; apply Qle_refl]|].
  specialize (IH (if Qle_bool x y then y else x)). cbv zeta in *. destruct IH as [I M]. split.
  - destruct I as [I|I]; [rewrite <- I; destruct (Qle_bool x y); [right; left|left]; reflexivity|right; right; exact I].
  - intros z Hz. pose proof (M _ (or_introl eq_refl)) as M0. destruct (qle_spec x y) as [[E H]|[E H]]; rewrite E in *.
    + destruct Hz as [<-|[<-|Hz]]; [lra|exact M0|apply M; right; exact Hz].
    + destruct Hz as [<-|[<-|Hz]]; [exact M0|lra|apply M; right; exact Hz].
Qed.
Lemma qmax_spec l m : qmax_list l = Some m -> In m l /\ forall y, In y l -> y <= m.
Proof. destruct l as [|x l]; [discriminate|]. cbn [qmax_list]. intros E. injection E as <-. apply fold_max_spec. Qed.
Lemma argmin_spec l : l <> [] -> (argmin l < length l)%nat /\ forall j, (j < length l)%nat -> at_ l (argmin l) <= at_ l j.
Proof.
  intros N. unfold argmin. destruct (qmin_some l N) as (m & E). rewrite E. destruct (qmin_spec l m E) as [I M].
  apply at_in in I. destruct I as (i & Hi & Ei). set (c := filter _ _).
  assert (In i c) as Hc by (apply filter_In; split; [apply in_seq; lia|apply Qeq_bool_iff; fold (at_ l i); rewrite Ei; reflexivity]).
  destruct c as [|k c'] eqn:Ec; [destruct Hc|]. cbn [hd]. assert (In k c) as Hk by (rewrite Ec; left; reflexivity). subst c. apply filter_In in Hk. destruct Hk as [K1 K2].
  apply in_seq in K1. apply Qeq_bool_iff in K2. split; [lia|]. intros j Hj. unfold at_ at 1. rewrite K2. apply M. apply nth_In. exact Hj.
Qed.

(** * Completeness at a time *)
Lemma map_result_ok {A B} (f : A -> result B) : forall l r, map_result f l = Ok r -> length r = length l /\ forall k da db, (k < length l)%nat -> f (nth k l da) = Ok (nth k r db).
Proof.
  intros l. induction l as [|x l IH]; cbn [map_result]; intros r E; [injection E as <-; split; [reflexivity|cbn; lia]|].
  destruct (f x) as [y|] eqn:Ex; [|discriminate]. cbn [bind] in E. destruct (map_result f l) as [ys|] eqn:El; [|discriminate]. cbn [bind] in E. injection E as <-.
  destruct (IH ys eq_refl) as [L H]. split; [cbn; congruence|]. intros [|k] da db Hk; cbn [nth length] in *; [exact Ex|apply H; lia].
Qed.
Lemma map_result_some {A B} (f : A -> result B) l : (forall x, In x l -> exists y, f x = Ok y) -> exists r, map_result f l = Ok r.
Proof.
  induction l as [|x l IH]; intros H; cbn [map_result]; [eexists; reflexivity|]. destruct (H x (or_introl eq_refl)) as (y & ->).
  destruct (IH ltac:(intros z Hz; apply H; right; exact Hz)) as (r & ->). cbn [bind]. eexists. reflexivity.
Qed.
Definition at_row (times : list Q) (rows : list (list (option Q))) (n k : nat) : list Q :=
  map (fun i => nth k (found_by times (map (fun r => nth i r None) rows)) 0 / inject_Z (Z.of_nat (length rows))) (seq 0 n).
Lemma at_row_nth times rows n k i : (i < n)%nat -> at_ (at_row times rows n k) i = nth k (found_by times (map (fun r => nth i r None) rows)) 0 / inject_Z (Z.of_nat (length rows)).
Proof. intros H. unfold at_, at_row. rewrite map_seq_nth by exact H. reflexivity. Qed.
Definition pick_h (hval : option Q) (h : list Q) : nat := match hval with None => Nat.div2 (length h) | Some x => argmin (map (fun y => Qabs (y - x)) h) end.
Lemma pick_h_lt hval h : h <> [] -> (pick_h hval h < length h)%nat.
Proof.
  intros N. destruct hval as [x|]; cbn [pick_h].
  - pose proof (argmin_spec (map (fun y => Qabs (y - x)) h) ltac:(destruct h; [congruence|discriminate])) as [H _]. rewrite map_length in H. exact H.
  - apply Nat.lt_div2. destruct h; [congruence|cbn; lia].
Qed.
Lemma pick_h_near x h : h <> [] -> forall j, (j < length h)%nat -> Qabs (at_ h (pick_h (Some x) h) - x) <= Qabs (at_ h j - x).
Proof.
  intros N j Hj. cbn [pick_h]. set (g := fun y => Qabs (y - x)). pose proof (argmin_spec (map g h) ltac:(destruct h; [congruence|discriminate])) as [H1 H2].
  rewrite map_length in *. specialize (H2 j Hj). unfold at_ in *. rewrite (nth_indep _ 0 (g 0)) in H2 by (rewrite map_length; exact H1). rewrite map_nth in H2.
  rewrite (nth_indep (map g h) 0 (g 0)) in H2 by (rewrite map_length; exact Hj). rewrite map_nth in H2. exact H2.
Qed.
Lemma comp_rows times rows n : times <> [] ->
  map (fun k => map (fun row => nth k row 0) (map (fun i => map (fun c => c / inject_Z (Z.of_nat (length rows))) (found_by times (map (fun r => nth i r None) rows))) (seq 0 n))) (seq 0 (length times))
  = map (at_row times rows n) (seq 0 (length times)).
Proof.
  intros N. apply map_ext_in. intros k Hk. apply in_seq in Hk. unfold at_row. rewrite map_map. apply map_ext. intros i. set (g := fun c => c / inject_Z (Z.of_nat (length rows))).
  rewrite (nth_indep _ 0 (g 0)) by (rewrite map_length, found_by_length by exact N; lia). rewrite map_nth. reflexivity.
Qed.
Lemma at_time_diff pow10 hval times rows h : times <> [] ->
  at_time_run pow10 false hval times rows (length h) h = Ok (Some (map (fun k => nth (pick_h hval h) (at_row times rows (length h) k) 0) (seq 0 (length times)), Some (at_ h (pick_h hval h)))).
Proof.
  intros N. unfold at_time_run. rewrite Nat.eqb_refl. cbn [negb]. rewrite comp_rows by exact N. cbn [bind]. fold (pick_h hval h). rewrite map_map. reflexivity.
Qed.
Lemma at_time_cum pow10 hval times rows h w : times <> [] -> h <> [] -> power_law_dndh pow10 [] h = Ok w -> length w = length h ->
  exists v, at_time_run pow10 true hval times rows (length h) h = Ok (Some (v, Some (at_ h (pick_h hval h)))) /\ length v = length times /\
    forall k, (k < length times)%nat -> at_ v k == wmean (at_row times rows (length h) k) w (pick_h hval h).
Proof.
  intros N Nh Ew Lw. unfold at_time_run. rewrite Nat.eqb_refl. cbn [negb]. rewrite comp_rows by exact N.
  set (comp := map (at_row times rows (length h)) (seq 0 (length times))). set (f := fun r => integrate_over_h (power_law_dndh pow10) [] r h).
  assert (forall r, length r = length h -> exists y, f r = Ok y) as F by (intros r Hr; apply (integrate_ok _ _ _ _ w Ew); congruence).
  destruct (map_result_some f comp) as (c' & Ec).
  { intros r Hr. unfold comp in Hr. apply in_map_iff in Hr. destruct Hr as (k & <- & _). apply F. unfold at_row. rewrite map_length, seq_length. reflexivity. }
  rewrite Ec. cbn [bind]. fold (pick_h hval h). destruct (map_result_ok _ _ _ Ec) as [L V]. assert (length comp = length times) as Lc by (unfold comp; rewrite map_length, seq_length; reflexivity).
  eexists. split; [reflexivity|]. split; [rewrite map_length; congruence|]. intros k Hk. unfold at_. set (g := fun row => nth (pick_h hval h) row 0).
  rewrite (nth_indep _ 0 (g [])) by (rewrite map_length; lia). rewrite map_nth.
  specialize (V k [] [] ltac:(lia)). replace (nth k comp []) with (at_row times rows (length h) k) in V.
  2:{ unfold comp. rewrite (nth_indep _ [] (at_row times rows (length h) O)) by (rewrite map_length, seq_length; exact Hk). rewrite map_nth, seq_nth by exact Hk. reflexivity. }
  unfold f in V. destruct (integrate_nth _ _ _ _ _ _ Ew V) as (_ & _ & R). unfold g. fold (at_ (nth k c' []) (pick_h hval h)). apply R.
  unfold at_row. rewrite map_length, seq_length. apply pick_h_lt. exact Nh.
Qed.
Lemma found_before_mono times k k' v : nondecreasing times -> (k <= k' < length times)%nat -> found_before times k v -> found_before times k' v.
Proof.
  intros M L (x & E & H & H0 & H1). exists x. split; [exact E|]. split; [lia|]. split; [exact H0|]. pose proof (M k k' L) as Mk.
  destruct H1 as [H1|[H1 H2]]; [left; lra|]. assert (k' = k) by lia. subst. right. split; assumption.
Qed.

(** * Interpolation *)
Definition sorted_pts (pts : list (Q * Q)) : Prop := StronglySorted (fun a b => fst a < fst b) pts.
Lemma seg_eq x x0 y0 x1 y1 : x0 < x1 -> (y0 + (y1 - y0) / (x1 - x0) * (x - x0) - y0) * (x1 - x0) == (y1 - y0) * (x - x0).
Proof. intros H. field. lra. Qed.
Lemma interp_from_here x x0 y0 pts : sorted_pts ((x0, y0) :: pts) -> x == x0 -> interp_from x x0 y0 pts == y0.
Proof.
  intros S E. destruct pts as [|[x1 y1] t]; cbn [interp_from]; [reflexivity|]. apply StronglySorted_inv in S. destruct S as [_ S]. inversion S as [|? ? S1 _]; subst. cbn in S1.
  destruct (qle_spec x1 x) as [[-> H]|[-> H]]; [lra|]. setoid_replace (x - x0) with 0 by lra. ring.
Qed.
(** on the segment from point i to point i+1 of the list with the first point in front *)
Lemma interp_from_seg : forall pts x0 y0 x i, sorted_pts ((x0, y0) :: pts) -> (i < length pts)%nat ->
  let a := nth i ((x0, y0) :: pts) (0, 0) in let b := nth i pts (0, 0) in
  fst a <= x -> x <= fst b -> (interp_from x x0 y0 pts - snd a) * (fst b - fst a) == (snd b - snd a) * (x - fst a).
Proof.
  intros pts. induction pts as [|[x1 y1] t IH]; intros x0 y0 x i S Hi; cbn [length] in Hi; [lia|]. cbv zeta.
  pose proof S as S'. apply StronglySorted_inv in S'. destruct S' as [S1 S0]. inversion S0 as [|? ? S01 S0t]; subst. cbn in S01.
  destruct i as [|i]; cbn [nth fst snd]; intros H0 H1; cbn [interp_from].
  - destruct (qle_spec x1 x) as [[-> H]|[-> H]].
    + assert (x == x1) as E by lra. rewrite (interp_from_here x x1 y1 t S1 E). rewrite E. ring.
    + apply seg_eq. exact S01.
  - specialize (IH x1 y1 x i S1 ltac:(lia)). cbv zeta in IH. specialize (IH H0 H1).
    assert (x1 <= x) as Hx. { destruct i as [|i]; cbn [nth fst] in H0; [exact H0|]. apply StronglySorted_inv in S1. destruct S1 as [_ F]. rewrite Forall_forall in F.
      pose proof (F (nth i t (0, 0)) ltac:(apply nth_In; lia)) as F1. cbn [fst] in F1. lra. }
    destruct (qle_spec x1 x) as [[-> _]|[-> C]]; [exact IH|lra].
Qed.
Lemma interp_from_above : forall pts x0 y0 x, (forall p, In p pts -> fst p <= x) -> interp_from x x0 y0 pts = snd (last ((x0, y0) :: pts) (0, 0)).
Proof.
  intros pts. induction pts as [|[x1 y1] t IH]; intros x0 y0 x H; cbn [interp_from]; [reflexivity|].
  destruct (qle_spec x1 x) as [[-> _]|[_ C]]; [|pose proof (H _ (or_introl eq_refl)) as H0; cbn in H0; lra].
  rewrite IH by (intros; apply H; right; assumption). reflexivity.
Qed.
Lemma combine_sorted : forall xp fp, length xp = length fp -> increasing xp -> sorted_pts (combine xp fp).
Proof.
  intros xp. induction xp as [|x xp IH]; intros [|y fp] L I; cbn [combine]; try constructor.
  - apply IH; [cbn in L; lia|]. intros i j H. apply (I (S i) (S j)). cbn [length]. lia.
  - apply Forall_forall. intros [a b] H. apply in_combine_l in H. apply at_in in H. destruct H as (i & Hi & <-). cbn [fst]. apply (I O (S i)). cbn [length]. lia.
Qed.
Lemma combine_nth' xp fp i : length xp = length fp -> (i < length xp)%nat -> nth i (combine xp fp) (0, 0) = (at_ xp i, at_ fp i).
Proof. intros L H. rewrite combine_nth by exact L. reflexivity. Qed.
Lemma interp_seg xp fp x i : length xp = length fp -> increasing xp -> (S i < length xp)%nat -> at_ xp i <= x <= at_ xp (S i) ->
  (interp x xp fp - at_ fp i) * (at_ xp (S i) - at_ xp i) == (at_ fp (S i) - at_ fp i) * (x - at_ xp i).
Proof.
  intros L I Hi [H0 H1]. unfold interp. pose proof (combine_sorted xp fp L I) as S. pose proof (combine_nth' xp fp i L ltac:(lia)) as N1. pose proof (combine_nth' xp fp (Datatypes.S i) L ltac:(lia)) as N2.
  assert (length (combine xp fp) = length xp) as Lc by (rewrite combine_length; lia).
  destruct (combine xp fp) as [|[x0 y0] pts] eqn:E; [cbn in Lc; lia|]. cbn [length] in Lc. cbn [nth] in N2.
  pose proof (interp_from_seg pts x0 y0 x i S ltac:(lia)) as G. cbv zeta in G. rewrite N1, N2 in G. cbn [fst snd] in G.
  destruct (qle_spec x x0) as [[-> C]|[-> C]]; [|exact (G H0 H1)].
  assert (x0 <= at_ xp i) as C0. { destruct i as [|i]; [cbn [nth] in N1; injection N1 as -> ->; apply Qle_refl|]. apply StronglySorted_inv in S. destruct S as [_ F]. rewrite Forall_forall in F.
    cbn [nth] in N1. pose proof (F (nth i pts (0, 0)) ltac:(apply nth_In; lia)) as F1. rewrite N1 in F1. cbn [fst] in F1. lra. }
  rewrite <- (G H0 H1). assert (x == x0) as Ex by lra. rewrite (interp_from_here x x0 y0 pts S Ex). reflexivity.
Qed.
Lemma interp_left xp fp x : length xp = length fp -> xp <> [] -> x <= at_ xp 0 -> interp x xp fp = at_ fp 0.
Proof.
  intros L N H. unfold interp. destruct xp as [|x0 xp]; [congruence|]. destruct fp as [|y0 fp]; [discriminate|]. cbn [combine]. unfold at_ in *. cbn [nth] in *.
  destruct (qle_spec x x0) as [[-> _]|[_ C]]; [reflexivity|lra].
Qed.
Lemma interp_right xp fp x : length xp = length fp -> increasing xp -> xp <> [] -> at_ xp (length xp - 1) <= x -> interp x xp fp = at_ fp (length xp - 1).
Proof.
  intros L I N H. assert (forall j, (j < length xp)%nat -> at_ xp j <= x) as A.
  { intros j Hj. destruct (Nat.eq_dec j (length xp - 1)) as [->|Hn]; [exact H|]. pose proof (I j (length xp - 1)%nat ltac:(lia)). lra. }
  unfold interp. pose proof (combine_nth' xp fp (length xp - 1) L ltac:(destruct xp; [congruence|cbn; lia])) as NL.
  assert (length (combine xp fp) = length xp) as Lc by (rewrite combine_length; lia).
  assert (forall p, In p (combine xp fp) -> fst p <= x) as B. { intros [a b] Hp. apply in_combine_l, at_in in Hp. destruct Hp as (j & Hj & <-). apply A, Hj. }
  rewrite <- Lc in NL. rewrite <- (Lc). destruct (combine xp fp) as [|[x0 y0] pts] eqn:E; [destruct xp; [congruence|discriminate Lc]|].
  assert (snd (last ((x0, y0) :: pts) (0, 0)) = at_ fp (length ((x0, y0) :: pts) - 1)) as EL.
  { replace (last ((x0, y0) :: pts) (0, 0)) with (nth (length ((x0, y0) :: pts) - 1) ((x0, y0) :: pts) (0, 0)); [rewrite NL; reflexivity|].
    clear. revert x0 y0. induction pts as [|p pts IH]; intros x0 y0; [reflexivity|]. destruct p as [a b]. specialize (IH a b). change (last ((x0, y0) :: (a, b) :: pts) (0, 0)) with (last ((a, b) :: pts) (0, 0)). rewrite <- IH.
    replace (length ((x0, y0) :: (a, b) :: pts) - 1)%nat with (S (length pts)) by (cbn; lia). replace (length ((a, b) :: pts) - 1)%nat with (length pts) by (cbn; lia). reflexivity. }
  destruct (qle_spec x x0) as [[-> C]|[-> C]].
  - rewrite <- EL. assert (pts = []) as ->; [|reflexivity]. destruct pts as [|[x1 y1] t]; [reflexivity|]. exfalso. pose proof (combine_sorted xp fp L I) as S. rewrite E in S.
    apply StronglySorted_inv in S. destruct S as [_ F]. inversion F as [|? ? F1 _]; subst. cbn in F1. pose proof (B (x1, y1) ltac:(right; left; reflexivity)) as B1. cbn in B1. lra.
  - rewrite <- EL. apply interp_from_above. intros p Hp. apply B. right. exact Hp.
Qed.
