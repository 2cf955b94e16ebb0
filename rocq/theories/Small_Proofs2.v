(** Lemmas for the cumulative counts and the Kuiper statistic. *)
From Coq Require Import Reals ZArith Lra Lia Psatz List Permutation Sorted.
From Verif Require Import Base Small_Model Small_Spec Small_Proofs.
Open Scope R_scope.

(** ** Interpolation of consecutive integers *)
Lemma interp_from_count x : forall xs x0 k,
  x0 <= x -> StronglySorted Rle (x0 :: xs) ->
  let r := interp_from x x0 (INR k) (combine xs (map (fun i => INR i + 1) (seq k (length xs)))) in
  let c := (k + length (filter (fun y => if Rle_dec y x then true else false) xs))%nat in
  INR c <= r < INR c + 1
  /\ (In x (x0 :: xs) -> r = INR c)
  /\ ((forall y, In y xs -> y <= x) -> r = INR c).
Proof.
  induction xs as [|x1 t IH]; intros x0 k H0 HS; cbn [length seq map combine interp_from filter].
  - cbn. rewrite Nat.add_0_r. repeat split; intros; lra.
  - inversion HS as [|? ? HS1 HF]; subst. inversion HF as [|? ? L01 HF']; subst.
    destruct (Rle_dec x1 x) as [L|L].
    + replace (INR k + 1) with (INR (S k)) by (rewrite S_INR; lra).
      pose proof (IH x1 (S k) L HS1) as [A [B C]]. cbv zeta in *.
      cbn [length]. rewrite Nat.add_succ_r. split; [exact A|]. split.
      * intros [E|[E|I]]; apply B.
        -- left. lra.
        -- now left.
        -- now right.
      * intro Q. apply C. intros; apply Q; now right.
    + assert (F : filter (fun y => if Rle_dec y x then true else false) t = []).
      { inversion HS1 as [|? ? _ HT]; subst. clear - HT L. induction t as [|z t IHt]; [reflexivity|].
        inversion HT; subst. cbn. destruct (Rle_dec z x); [lra|]. now apply IHt. }
      rewrite F. cbn [length]. rewrite Nat.add_0_r. cbv zeta.
      destruct (Req_EM_T x0 x) as [E|E].
      * repeat split; intros; lra.
      * assert (D : 0 < x1 - x0) by lra.
        replace ((INR k + 1 - INR k) / (x1 - x0) * (x - x0) + INR k) with (INR k + (x - x0) / (x1 - x0)) by (field; lra).
        assert (0 <= (x - x0) / (x1 - x0) < 1).
        { split.
          - apply Rmult_le_pos; [lra|]. left. now apply Rinv_0_lt_compat.
          - apply Rmult_lt_reg_r with (x1 - x0); [lra|].
            replace ((x - x0) / (x1 - x0) * (x1 - x0)) with (x - x0) by (field; lra). lra. }
        split; [lra|]. split.
        -- intros [Q|[Q|Q]]; [lra|lra|]. inversion HS1 as [|? ? _ HT]; subst. rewrite Forall_forall in HT.
           specialize (HT x Q). lra.
        -- intro Q. specialize (Q x1 (or_introl eq_refl)). lra.
Qed.

(** ** Sorting by time *)
Lemma tinsert_perm v l : Permutation (tinsert v l) (v :: l).
Proof.
  induction l as [|y t IH]; cbn [tinsert]; [reflexivity|].
  destruct (Rle_dec (fst v) (fst y)); [reflexivity|]. rewrite IH. apply perm_swap.
Qed.
Lemma tsort_perm l : Permutation (tsort l) l.
Proof. induction l as [|x t IH]; [reflexivity|]. cbn. rewrite tinsert_perm. now constructor. Qed.
Definition tle (v w : R * Z) := fst v <= fst w.
Lemma tinsert_sorted x l : StronglySorted tle l -> StronglySorted tle (tinsert x l).
Proof.
  induction l as [|y t IH]; intro H; cbn [tinsert]; [repeat constructor|].
  inversion H as [|? ? H1 H2]; subst. unfold tle in *. destruct (Rle_dec (fst x) (fst y)) as [L|L].
  - constructor; [assumption|]. constructor; [assumption|].
    eapply Forall_impl; [|exact H2]. intros; cbn in *; lra.
  - constructor; [now apply IH|].
    apply (Permutation_Forall (Permutation_sym (tinsert_perm x t))). constructor; [lra|assumption].
Qed.
Lemma tsort_sorted l : StronglySorted tle (tsort l).
Proof. induction l; [constructor|]. cbn. now apply tinsert_sorted. Qed.

Lemma nights_sorted (l : list (R * Z)) :
  (forall v w, In v l -> In w l -> fst v <= fst w -> (snd v <= snd w)%Z) -> StronglySorted tle l ->
  StronglySorted Rle (map (fun v => IZR (snd v)) l).
Proof.
  intros H S. induction S as [|a t S IH F]; [constructor|]. cbn. constructor.
  - apply IH. intros; apply H; cbn; auto.
  - rewrite Forall_forall in *. intros y Hy. apply in_map_iff in Hy as (v & <- & I).
    apply IZR_le, H; cbn; auto. now apply F.
Qed.

Lemma all_results_map {A B} (f : A -> result B) l m :
  all_results (map f l) = Ok m -> Forall2 (fun x y => f x = Ok y) l m.
Proof.
  revert m. induction l as [|x t IH]; intros m E; cbn in E.
  - injection E as <-. constructor.
  - destruct (f x) eqn:F; [|discriminate]. cbn in E. destruct (all_results (map f t)) eqn:T; [|discriminate].
    cbn in E. injection E as <-. constructor; auto.
Qed.
Lemma all_results_some {A B} (f : A -> result B) l :
  (forall x, In x l -> exists y, f x = Ok y) -> exists m, all_results (map f l) = Ok m.
Proof.
  induction l as [|x t IH]; intro H; [cbn; eauto|].
  destruct (H x) as [y E]; [now left|]. destruct IH as [m M]; [intros; apply H; now right|].
  cbn. rewrite E. cbn. rewrite M. cbn. eauto.
Qed.

Lemma interp_cumulative visits x :
  visits <> [] ->
  (forall v w, In v visits -> In w visits -> fst v <= fst w -> (snd v <= snd w)%Z) ->
  exists r, interp x (cumulative_pts visits) = Ok r
  /\ ((exists v, In v visits /\ IZR (snd v) <= x) ->
      let c := length (filter (fun v => if Rle_dec (IZR (snd v)) x then true else false) visits) in
      INR c <= r < INR c + 1
      /\ ((exists v, In v visits /\ IZR (snd v) = x) -> r = INR c)
      /\ ((forall v, In v visits -> IZR (snd v) <= x) -> r = INR c))
  /\ ((forall v, In v visits -> x < IZR (snd v)) -> r = 1).
Proof.
  intros NE MO. unfold cumulative_pts. cbv zeta.
  pose proof (tsort_perm visits) as P. pose proof (tsort_sorted visits) as S.
  set (s := tsort visits) in *.
  assert (MO' : forall v w, In v s -> In w s -> fst v <= fst w -> (snd v <= snd w)%Z).
  { intros v w Hv Hw. apply MO; eapply Permutation_in; eauto. }
  pose proof (nights_sorted s MO' S) as NS.
  rewrite <- (filter_length_perm (fun v => if Rle_dec (IZR (snd v)) x then true else false) _ _ P).
  assert (FM : forall l : list (R * Z), length (filter (fun v => if Rle_dec (IZR (snd v)) x then true else false) l)
             = length (filter (fun y => if Rle_dec y x then true else false) (map (fun v => IZR (snd v)) l))).
  { clear. induction l; [reflexivity|]. cbn. destruct (Rle_dec (IZR (snd a)) x); cbn; congruence. }
  rewrite FM.
  assert (INV : forall Q : R -> Prop, (exists v, In v visits /\ Q (IZR (snd v))) <-> (exists y, In y (map (fun v => IZR (snd v)) s) /\ Q y)).
  { intro Q. split.
    - intros (v & I & H). exists (IZR (snd v)). split; [|exact H]. apply in_map_iff. exists v. split; [reflexivity|].
      eapply Permutation_in; [symmetry; exact P|exact I].
    - intros (y & I & H). apply in_map_iff in I as (v & <- & I). exists v. split; [|exact H]. eapply Permutation_in; eauto. }
  assert (ALL : forall Q : R -> Prop, (forall v, In v visits -> Q (IZR (snd v))) -> (forall y, In y (map (fun v => IZR (snd v)) s) -> Q y)).
  { intros Q H y I. apply in_map_iff in I as (v & <- & I). apply H. eapply Permutation_in; eauto. }
  assert (LS : length s = length (map (fun v => IZR (snd v)) s)) by (now rewrite map_length).
  rewrite LS.
  assert (NN : map (fun v => IZR (snd v)) s <> []).
  { intro E. apply map_eq_nil in E. rewrite E in P. apply Permutation_nil in P. auto. }
  clear LS FM MO MO' S. revert NS NN ALL INV. generalize (map (fun v => IZR (snd v)) s) as ns.
  intros ns NS NN ALL INV. destruct ns as [|x0 t]; [easy|].
  cbn [length seq map combine interp]. eexists. split; [reflexivity|].
  assert (X0 : forall y, In y (x0 :: t) -> x0 <= y).
  { inversion NS as [|? ? _ HF]; subst. rewrite Forall_forall in HF. intros y [<-|I]; [lra|auto]. }
  split.
  - intros EX. apply (proj1 (INV (fun y => y <= x))) in EX as (y & I & L). destruct (Rlt_dec x x0); [specialize (X0 y I); lra|].
    assert (LX : x0 <= x) by lra.
    pose proof (interp_from_count x t x0 1%nat LX NS) as G. cbv zeta in G. destruct G as (A & B & C).
    replace (INR 0 + 1) with (INR 1) by (cbn; lra).
    cbn [filter]. destruct (Rle_dec x0 x) as [_|]; [|contradiction]. cbn [length]. cbv zeta.
    split; [exact A|]. split.
    + intros EX. apply (proj1 (INV (fun y => y = x))) in EX as (z & J & ->). apply B. exact J.
    + intro Q. apply C. intros z J. apply (ALL (fun y => y <= x)); [exact Q|now right].
  - intro Q. destruct (Rlt_dec x x0) as [_|N]; [cbn; lra|].
    elim N. apply (ALL (fun y => x < y)); [exact Q|now left].
Qed.

(** ** Angles *)
Lemma mod360_bounds x : 0 <= mod360 x < 360.
Proof. unfold mod360. pose proof (base_Int_part (x / 360)). lra. Qed.
Lemma mod360_same x : same_angle x (mod360 x).
Proof. exists (- Int_part (x / 360))%Z. unfold mod360. rewrite opp_IZR. lra. Qed.
Lemma angle_unique x y : 0 <= x < 360 -> 0 <= y < 360 -> same_angle x y -> x = y.
Proof.
  intros A B [k E].
  assert (-1 < IZR k < 1) by lra.
  assert (k = 0)%Z. { assert (-1 < k)%Z by (apply lt_IZR; lra). assert (k < 1)%Z by (apply lt_IZR; lra). lia. }
  subst k. lra.
Qed.
Lemma same_angle_sym x y : same_angle x y -> same_angle y x.
Proof. intros [k E]. exists (- k)%Z. rewrite opp_IZR. lra. Qed.
Lemma same_angle_trans x y z : same_angle x y -> same_angle y z -> same_angle x z.
Proof. intros [k E] [j F]. exists (k + j)%Z. rewrite plus_IZR. lra. Qed.
Lemma mod360_eq x y : same_angle x y <-> mod360 x = mod360 y.
Proof.
  split.
  - intro S. apply angle_unique; try apply mod360_bounds.
    eapply same_angle_trans; [apply same_angle_sym, mod360_same|]. eapply same_angle_trans; [exact S|apply mod360_same].
  - intro E. eapply same_angle_trans; [apply mod360_same|]. rewrite E. apply same_angle_sym, mod360_same.
Qed.

(** ** Spread: the difference of the extremes *)
Definition spread (l : list R) : result R :=
  do a <- np_max l; do b <- np_max (map (fun x => - x) l); Ok (a + b).
Lemma spread_is l r : spread l = Ok r <-> exists a b, is_max a l /\ is_min b l /\ r = a - b.
Proof.
  unfold spread. split.
  - intro E. destruct (np_max l) as [a|] eqn:A; [|discriminate]. cbn in E.
    destruct (np_max (map (fun x => - x) l)) as [b|] eqn:B; [|discriminate]. cbn in E. injection E as <-.
    apply np_max_is in A. apply np_max_is in B as [I M].
    exists a, (- b). split; [exact A|]. split; [|lra]. split.
    + apply in_map_iff in I as (y & <- & I). now rewrite Ropp_involutive.
    + intros x J. specialize (M (- x)). assert (- x <= b) by (apply M, in_map_iff; eauto). lra.
  - intros (a & b & A & [I M] & ->). rewrite (proj2 (np_max_is l a) A). cbn.
    assert (B : is_max (- b) (map (fun x => - x) l)).
    { split; [apply in_map_iff; eauto|]. intros x J. apply in_map_iff in J as (y & <- & J). specialize (M y J). lra. }
    rewrite (proj2 (np_max_is _ _) B). cbn. f_equal.
Qed.
Lemma is_max_perm a l m : Permutation l m -> is_max a l -> is_max a m.
Proof.
  intros P [I M]. split; [eapply Permutation_in; eauto|].
  intros x J. apply M. eapply Permutation_in; [symmetry; exact P|exact J].
Qed.
Lemma is_min_perm a l m : Permutation l m -> is_min a l -> is_min a m.
Proof.
  intros P [I M]. split; [eapply Permutation_in; eauto|].
  intros x J. apply M. eapply Permutation_in; [symmetry; exact P|exact J].
Qed.
Lemma spread_some l : l <> [] -> exists r, spread l = Ok r.
Proof.
  intro N. unfold spread. destruct (np_max_some l N) as [a ->]. cbn.
  destruct (np_max_some (map (fun x => - x) l)) as [b ->]; [|cbn; eauto].
  intro E. apply map_eq_nil in E. auto.
Qed.
Lemma spread_empty l : spread l = Err ValueError <-> l = [].
Proof.
  split; [|intros ->; reflexivity]. intro E. destruct l; [reflexivity|].
  destruct (spread_some (r :: l)) as [x X]; [discriminate|congruence].
Qed.
Lemma spread_shift c l m : Permutation m (map (fun x => x + c) l) -> spread m = spread l.
Proof.
  intro P. destruct l as [|x0 t].
  - apply Permutation_sym, Permutation_nil in P. now subst.
  - destruct (spread_some (x0 :: t)) as [r E]; [discriminate|]. rewrite E.
    apply spread_is in E as (a & b & A & B & ->). apply spread_is.
    exists (a + c), (b + c). split; [|split; [|lra]].
    + eapply is_max_perm; [symmetry; exact P|]. destruct A as [I M]. split.
      * apply in_map_iff. eauto.
      * intros x J. apply in_map_iff in J as (y & <- & J). specialize (M y J). lra.
    + eapply is_min_perm; [symmetry; exact P|]. destruct B as [I M]. split.
      * apply in_map_iff. eauto.
      * intros x J. apply in_map_iff in J as (y & <- & J). specialize (M y J). lra.
Qed.

Lemma kuiper_spread data : kuiper data = spread (offsets (rsort (map mod360 data))).
Proof. reflexivity. Qed.

(** offsets starting at a position, with a given number of values *)
Definition offs (n k : nat) (l : list R) : list R :=
  map (fun p => snd p / 360 - (INR (fst p) + 1) / INR n) (combine (seq k (length l)) l).
Lemma offsets_offs l : offsets l = offs (length l) 0 l.
Proof. reflexivity. Qed.
Lemma offs_cons n k x l : offs n k (x :: l) = (x / 360 - (INR k + 1) / INR n) :: offs n (S k) l.
Proof. reflexivity. Qed.
Lemma offs_app n l m : forall k, offs n k (l ++ m) = offs n k l ++ offs n (k + length l) m.
Proof.
  induction l as [|x t IH]; intro k; cbn [app length].
  - now rewrite Nat.add_0_r.
  - rewrite !offs_cons, IH. cbn. now rewrite Nat.add_succ_r.
Qed.
Lemma offs_shift n c d l : (0 < n)%nat -> forall k,
  offs n (k + d) (map (fun x => x + c) l) = map (fun x => x + (c / 360 - INR d / INR n)) (offs n k l).
Proof.
  intros Hn. assert (INR n <> 0) by (apply not_0_INR; lia).
  induction l as [|x t IH]; intro k; [reflexivity|].
  cbn [map]. rewrite !offs_cons. cbn [map]. f_equal.
  - rewrite plus_INR. field. assumption.
  - exact (IH (S k)).
Qed.
Lemma offs_length n l : forall k, length (offs n k l) = length l.
Proof. induction l; intro k; [reflexivity|]. rewrite offs_cons. cbn. now rewrite IHl. Qed.
Lemma offs_nth n l : forall k i d, (i < length l)%nat -> nth i (offs n k l) d = nth i l 0 / 360 - (INR (k + i) + 1) / INR n.
Proof.
  induction l as [|x t IH]; intros k i d H; [cbn in H; lia|]. rewrite offs_cons. destruct i as [|i].
  - cbn [nth]. now rewrite Nat.add_0_r.
  - change (nth (S i) (?a :: ?b) d) with (nth i b d). change (nth (S i) (x :: t) 0) with (nth i t 0).
    cbn [nth]. rewrite IH by (cbn in H; lia). now rewrite Nat.add_succ_r.
Qed.

Lemma mod360_add x d : 0 <= d < 360 -> mod360 (x + d) = if Rlt_dec (mod360 x + d) 360 then mod360 x + d else mod360 x + d - 360.
Proof.
  intro D. pose proof (mod360_bounds x) as B.
  assert (S : same_angle (x + d) (mod360 x + d)) by (destruct (mod360_same x) as [k E]; exists k; lra).
  destruct (Rlt_dec (mod360 x + d) 360) as [L|L].
  - symmetry. apply angle_unique; [lra|apply mod360_bounds|].
    eapply same_angle_trans; [apply same_angle_sym; exact S|apply mod360_same].
  - symmetry. apply angle_unique; [lra|apply mod360_bounds|].
    eapply same_angle_trans; [|apply mod360_same]. apply same_angle_sym.
    eapply same_angle_trans; [exact S|]. exists (-1)%Z. lra.
Qed.

Lemma sorted_split (s : list R) c : StronglySorted Rle s ->
  exists l1 l2, s = l1 ++ l2 /\ (forall x, In x l1 -> x < c) /\ (forall x, In x l2 -> c <= x).
Proof.
  induction 1 as [|a t S IH F].
  - exists [], []. repeat split; easy.
  - destruct (Rlt_dec a c) as [L|L].
    + destruct IH as (l1 & l2 & -> & A & B). exists (a :: l1), l2. split; [reflexivity|]. split; [|exact B].
      intros x [<-|I]; auto.
    + exists [], (a :: t). split; [reflexivity|]. split; [easy|].
      rewrite Forall_forall in F. intros x [<-|I]; [lra|]. specialize (F x I). lra.
Qed.
Lemma sorted_map_add c l : StronglySorted Rle l -> StronglySorted Rle (map (fun x => x + c) l).
Proof.
  induction 1 as [|a t S IH F]; cbn; constructor; [exact IH|].
  rewrite Forall_forall in *. intros y I. apply in_map_iff in I as (x & <- & I). specialize (F x I). lra.
Qed.
Lemma sorted_app (l m : list R) : StronglySorted Rle l -> StronglySorted Rle m -> (forall x y, In x l -> In y m -> x <= y) ->
  StronglySorted Rle (l ++ m).
Proof.
  induction 1 as [|a t S IH F]; intros M H; cbn; [exact M|]. constructor.
  - apply IH; auto. intros; apply H; cbn; auto.
  - rewrite Forall_forall in *. intros x I. apply in_app_or in I as [I|I]; [auto|apply H; cbn; auto].
Qed.
Lemma sorted_app_inv (l m : list R) : StronglySorted Rle (l ++ m) -> StronglySorted Rle l /\ StronglySorted Rle m.
Proof.
  induction l as [|a t IH]; cbn; intro H; [split; [constructor|exact H]|].
  inversion H as [|? ? S F]; subst. destruct (IH S). split; [|assumption]. constructor; [assumption|].
  rewrite Forall_forall in *. intros; apply F, in_or_app; auto.
Qed.

Lemma kuiper_rotate_small d data : 0 <= d < 360 -> kuiper (map (fun x => x + d) data) = kuiper data.
Proof.
  intro D. rewrite !kuiper_spread.
  destruct data as [|x0 t0]; [reflexivity|]. set (data := x0 :: t0) in *.
  assert (NE : (0 < length data)%nat) by (cbn; lia).
  clearbody data.
  set (s := rsort (map mod360 data)).
  assert (Ps : Permutation s (map mod360 data)) by apply rsort_perm.
  assert (Ss : StronglySorted Rle s) by apply rsort_sorted.
  destruct (sorted_split s (360 - d) Ss) as (l1 & l2 & E & A & B).
  assert (BD : forall x, In x s -> 0 <= x < 360).
  { intros x I. apply (Permutation_in _ Ps) in I. apply in_map_iff in I as (y & <- & _). apply mod360_bounds. }
  set (s' := map (fun x => x + (d - 360)) l2 ++ map (fun x => x + d) l1).
  assert (E' : rsort (map mod360 (map (fun x => x + d) data)) = s').
  { apply sorted_unique; [apply rsort_sorted| |].
    - rewrite E in Ss. apply sorted_app_inv in Ss as [S1 S2].
      apply sorted_app; [now apply sorted_map_add|now apply sorted_map_add|].
      intros x y I J. apply in_map_iff in I as (u & <- & I). apply in_map_iff in J as (v & <- & J).
      assert (0 <= u < 360) by (apply BD; rewrite E; apply in_or_app; now right).
      assert (0 <= v < 360) by (apply BD; rewrite E; apply in_or_app; now left). lra.
    - rewrite rsort_perm, map_map.
      rewrite (map_ext _ (fun x => (fun u => if Rlt_dec (u + d) 360 then u + d else u + d - 360) (mod360 x)))
        by (intro; now apply mod360_add).
      rewrite <- (map_map mod360 (fun u => if Rlt_dec (u + d) 360 then u + d else u + d - 360)).
      rewrite <- Ps, E, map_app. unfold s'. rewrite Permutation_app_comm.
      apply Permutation_app.
      + erewrite map_ext_in; [reflexivity|]. intros u I. cbn beta. specialize (B u I).
        destruct (Rlt_dec (u + d) 360); lra.
      + erewrite map_ext_in; [reflexivity|]. intros u I. cbn beta. specialize (A u I).
        destruct (Rlt_dec (u + d) 360); lra. }
  rewrite E'. rewrite !offsets_offs.
  assert (L : length s = length data) by (rewrite (Permutation_length Ps), map_length; reflexivity).
  assert (L' : length s' = length s) by (unfold s'; rewrite E, !app_length, !map_length; lia).
  rewrite L', L. set (n := length data) in *.
  assert (Hn : INR n <> 0) by (apply not_0_INR; lia).
  assert (LN : (length l1 + length l2 = n)%nat) by (rewrite <- L, E, app_length; reflexivity).
  apply (spread_shift (d / 360 - INR (length l2) / INR n)).
  unfold s'. rewrite E, !offs_app, map_app, map_length.
  rewrite (Nat.add_comm 0 (length l2)), (Nat.add_comm (length l2) 0), (offs_shift n d (length l2) l1 NE 0).
  rewrite Permutation_app_comm. apply Permutation_app; [reflexivity|].
  (* the part that wrapped around *)
  rewrite (map_ext (fun x => x + (d / 360 - INR (length l2) / INR n)) (fun x => x + ((d - 360) / 360 - - INR (length l1) / INR n))).
  2:{ intro x. assert (IN : INR (length l1) + INR (length l2) = INR n) by (rewrite <- plus_INR, LN; reflexivity).
      replace (INR (length l2)) with (INR n - INR (length l1)) by lra. field. exact Hn. }
  cbn [Nat.add].
  assert (G : forall l k, offs n k (map (fun x => x + (d - 360)) l)
            = map (fun x => x + ((d - 360) / 360 - - INR (length l1) / INR n)) (offs n (k + length l1) l)).
  { induction l as [|x t IH]; intro k; [reflexivity|]. cbn [map]. rewrite !offs_cons. cbn [map]. f_equal.
    - rewrite plus_INR. field. exact Hn.
    - apply (IH (S k)). }
  rewrite (G l2 0%nat). reflexivity.
Qed.

Lemma kuiper_mod (f g : R -> R) (data : list R) : (forall x, In x data -> same_angle (f x) (g x)) -> kuiper (map f data) = kuiper (map g data).
Proof.
  intro H. unfold kuiper. rewrite !map_map.
  rewrite (map_ext_in (fun x => mod360 (f x)) (fun x => mod360 (g x))); [reflexivity|].
  intros x I. apply mod360_eq. auto.
Qed.

Lemma kuiper_rotate d data : kuiper (map (fun x => x + d) data) = kuiper data.
Proof.
  rewrite <- (kuiper_rotate_small (mod360 d) data (mod360_bounds d)).
  apply kuiper_mod. intros x _. destruct (mod360_same d) as [k E]. exists k. lra.
Qed.
