(** Lemmas for the sky brightness: angles and interpolation. *)
From Coq Require Import String Reals ZArith Lra Lia Psatz List Permutation Sorted.
From Verif Require Import Base Depth_Model Depth_Proofs Template_Model Template_Spec Template_Proofs Sky_Model Sky_Spec.
Import ListNotations.
Open Scope R_scope.

Lemma rltb_true x y : rltb x y = true <-> x < y.
Proof. unfold rltb. destruct (Rlt_dec x y); split; auto; discriminate. Qed.
Lemma rltb_false x y : rltb x y = false <-> y <= x.
Proof. unfold rltb. destruct (Rlt_dec x y); split; intro; try discriminate; auto; lra. Qed.
Lemma rleb_true x y : rleb x y = true <-> x <= y.
Proof. unfold rleb. destruct (Rle_dec x y); split; auto; discriminate. Qed.
Lemma rleb_false x y : rleb x y = false <-> y < x.
Proof. unfold rleb. destruct (Rle_dec x y); split; intro; try discriminate; auto; lra. Qed.
Lemma reqb_true x y : reqb x y = true <-> x = y.
Proof. unfold reqb. destruct (Req_EM_T x y); split; auto; discriminate. Qed.
Lemma reqb_false x y : reqb x y = false <-> x <> y.
Proof. unfold reqb. destruct (Req_EM_T x y); split; intro H; auto; try discriminate. now elim H. Qed.

(** ** Angles *)
Lemma two_pi_pos : 0 < 2 * PI. Proof. pose proof PI_RGT_0; lra. Qed.
Lemma wrap_spec x : Wrapped x (wrap_ra x).
Proof.
  pose proof two_pi_pos as P. unfold Wrapped, wrap_ra. pose proof (int_part_bounds (x / (2 * PI))) as B.
  set (k := Int_part (x / (2 * PI))) in *.
  assert (E : x = 2 * PI * (x / (2 * PI))) by (field; lra).
  split.
  - set (q := x / (2 * PI)) in *. split; [|]; rewrite E; nra.
  - exists (- k)%Z. rewrite opp_IZR. lra.
Qed.
Lemma wrap_unique x y z : Wrapped x y -> Wrapped x z -> y = z.
Proof.
  intros [By [k ->]] [Bz [m ->]]. pose proof two_pi_pos as P.
  enough (k = m) by now subst.
  assert (H1 : IZR k - IZR m < 1) by nra. assert (H2 : IZR m - IZR k < 1) by nra.
  rewrite <- minus_IZR in H1, H2. apply lt_IZR in H1, H2. lia.
Qed.
Lemma az_between az m : Between az m (calc_az_rel_moon az m).
Proof.
  unfold calc_az_rel_moon. destruct (wrap_spec (az - m)) as [B [k E]]. set (r := wrap_ra (az - m)) in *.
  destruct (rltb PI r) eqn:L; [apply rltb_true in L|apply rltb_false in L].
  - split; [lra|]. exists (1 - k)%Z. right. rewrite minus_IZR. lra.
  - split; [lra|]. exists k. left. exact E.
Qed.
Lemma between_unique a b d e : Between a b d -> Between a b e -> d = e.
Proof.
  intros [Bd [k Hd]] [Be [m He]]. pose proof two_pi_pos as P.
  assert (D : exists j : Z, d = e + 2 * PI * IZR j \/ d = - e + 2 * PI * IZR j).
  { destruct Hd as [Hd|Hd], He as [He|He].
    - exists (k - m)%Z. left. rewrite minus_IZR. lra.
    - exists (k + m)%Z. right. rewrite plus_IZR. lra.
    - exists (k + m)%Z. right. rewrite plus_IZR. lra.
    - exists (k - m)%Z. left. rewrite minus_IZR. lra. }
  destruct D as [j [E|E]].
  - assert (IZR j < 1) by nra. assert (-1 < IZR j) by nra.
    assert (j < 1)%Z by now apply lt_IZR. assert (-1 < j)%Z by now apply lt_IZR. assert (j = 0)%Z by lia. subst j. lra.
  - assert (H : 0 <= 2 * PI * IZR j <= 2 * PI) by lra.
    assert (H1 : -1 < IZR j) by nra. assert (H2 : IZR j < 2) by nra. apply lt_IZR in H1, H2.
    assert (C : (j = 0 \/ j = 1)%Z) by lia. destruct C as [C|C]; subst j; lra.
Qed.
Lemma between_sym a b d : Between a b d -> Between b a d.
Proof. intros [B [k [H|H]]]; (split; [assumption|]); exists k; [right|left]; exact H. Qed.

(** ** Grids *)
Lemma increasing_cons x l : Increasing (x :: l) -> Increasing l.
Proof. intros H i j a b L E F. apply (H (S i) (S j)); auto with arith. Qed.
Lemma increasing_hd x l y : Increasing (x :: l) -> In y l -> x < y.
Proof. intros H I. apply In_nth_error in I as [j E]. apply (H O (S j)); auto with arith. Qed.
Lemma increasing_index l i j x y : Increasing l -> nth_error l i = Some x -> nth_error l j = Some y -> x < y -> (i < j)%nat.
Proof.
  intros H E F L. destruct (lt_eq_lt_dec i j) as [[C|C]|C]; [assumption| |].
  - subst j. rewrite E in F. injection F as ->. lra.
  - pose proof (H j i y x C F E). lra.
Qed.
Lemma increasing_index_eq l i j x : Increasing l -> nth_error l i = Some x -> nth_error l j = Some x -> i = j.
Proof.
  intros H E F. destruct (lt_eq_lt_dec i j) as [[C|C]|C]; [|assumption|].
  - pose proof (H i j x x C E F). lra.
  - pose proof (H j i x x C F E). lra.
Qed.
Lemma sorted_increasing l : StronglySorted Rlt l -> Increasing l.
Proof.
  induction l as [|x l IH]; intros S i j a b L E F.
  - destruct i; discriminate.
  - inversion S as [|? ? S' Fa]; subst. destruct j as [|j]; [lia|]. destruct i as [|i].
    + injection E as ->. cbn in F. rewrite Forall_forall in Fa. apply Fa. eapply nth_error_In; exact F.
    + cbn in E, F. apply (IH S' i j); auto; lia.
Qed.

Lemma searchsorted_le g p : (searchsorted g p <= length g)%nat.
Proof. induction g as [|x t IH]; cbn; [lia|]. destruct (rltb x p); lia. Qed.
Lemma searchsorted_below g p : forall i x, (i < searchsorted g p)%nat -> nth_error g i = Some x -> x < p.
Proof.
  induction g as [|y t IH]; intros i x L E; cbn in L; [lia|].
  destruct (rltb y p) eqn:C; [apply rltb_true in C|lia]. destruct i as [|i]; [injection E as ->; assumption|].
  apply (IH i x); [lia|exact E].
Qed.
Lemma searchsorted_above g p x : nth_error g (searchsorted g p) = Some x -> p <= x.
Proof.
  induction g as [|y t IH]; cbn; intro E; [discriminate|].
  destruct (rltb y p) eqn:C; [now apply IH|]. injection E as ->. now apply rltb_false in C.
Qed.
Lemma nth_of {A} (l : list A) i x d : nth_error l i = Some x -> nth i l d = x.
Proof. intro E. now apply nth_error_nth. Qed.
Lemma nth_some {A} (l : list A) i : (i < length l)%nat -> exists x, nth_error l i = Some x.
Proof. intro L. destruct (nth_error l i) as [x|] eqn:E; [now exists x|]. apply nth_error_None in E. lia. Qed.

(** the weighted value of a row at a point of a grid *)
Definition at_weights (w : weights) (values : list R) : R := w_r w * nth (ix_r w) values 0 + w_l w * nth (ix_l w) values 0.
Lemma weights_interp grid p : Increasing grid -> Inside grid p -> forall values, length values = length grid ->
  Interp grid values p (at_weights (indx_and_weights grid p) values).
Proof.
  intros Inc (a & b & Ia & Ib & La & Lb) values Len. unfold at_weights, indx_and_weights.
  pose proof (searchsorted_le grid p) as SL.
  assert (SN : (searchsorted grid p < length grid)%nat).
  { apply In_nth_error in Ib as [j E]. assert ((j < length grid)%nat) by (apply nth_error_Some; congruence).
    destruct (Nat.eq_dec (searchsorted grid p) (length grid)) as [C|C]; [|lia].
    pose proof (searchsorted_below grid p j b ltac:(lia) E). lra. }
  rewrite (proj2 (Nat.eqb_neq _ _)) by lia.
  destruct (nth_some grid _ SN) as [x1 E1]. destruct (nth_some values (searchsorted grid p) ltac:(lia)) as [y1 F1].
  pose proof (searchsorted_above grid p x1 E1) as A.
  destruct (searchsorted grid p) as [|k] eqn:S.
  - assert (P : p = x1).
    { apply In_nth_error in Ia as [j E]. destruct j as [|j]; [rewrite E1 in E; injection E as ->; lra|].
      pose proof (Inc O (Datatypes.S j) x1 a ltac:(lia) E1 E). lra. }
    rewrite (nth_of _ _ _ 0 E1). exists O, x1, x1, y1, y1. split; [exact E1|]. split; [exact F1|]. left. split; [exact P|].
    destruct (reqb _ 0) eqn:Q; cbn [w_r w_l ix_r ix_l].
    + rewrite (nth_of _ _ _ 0 F1). ring.
    + apply reqb_false in Q. rewrite (nth_of _ _ _ 0 F1). rewrite P. field. exact Q.
  - destruct (nth_some grid k ltac:(lia)) as [x0 E0]. destruct (nth_some values k ltac:(lia)) as [y0 F0].
    pose proof (searchsorted_below grid p k x0 ltac:(lia) E0) as B.
    rewrite (nth_of _ _ _ 0 E1), (nth_of _ _ _ 0 E0).
    rewrite (proj2 (reqb_false _ _)) by lra. cbn [w_r w_l ix_r ix_l]. rewrite (nth_of _ _ _ 0 F1), (nth_of _ _ _ 0 F0).
    destruct (Req_EM_T p x1) as [P|P].
    + exists (Datatypes.S k), x1, x1, y1, y1. split; [exact E1|]. split; [exact F1|]. left. split; [exact P|]. rewrite P. field. lra.
    + exists k, x0, x1, y0, y1. split; [exact E0|]. split; [exact F0|]. right. split; [exact E1|]. split; [exact F1|].
      split; [lra|]. field. lra.
Qed.
Lemma interp_unique grid values p v w : Increasing grid -> Interp grid values p v -> Interp grid values p w -> v = w.
Proof.
  intros Inc (i & x0 & x1 & y0 & y1 & E0 & F0 & H) (j & u0 & u1 & z0 & z1 & G0 & K0 & H').
  destruct H as [[P V]|(E1 & F1 & B & V)], H' as [[P' V']|(G1 & K1 & B' & V')].
  - subst p v w. rewrite P' in E0. assert (i = j) by (eapply increasing_index_eq; eassumption). subst j. congruence.
  - exfalso. rewrite P in B'. destruct B' as [B1 B2].
    pose proof (increasing_index _ _ _ _ _ Inc G0 E0 B1). pose proof (increasing_index _ _ _ _ _ Inc E0 G1 B2). lia.
  - exfalso. rewrite P' in B. destruct B as [B1 B2].
    pose proof (increasing_index _ _ _ _ _ Inc E0 G0 B1). pose proof (increasing_index _ _ _ _ _ Inc G0 E1 B2). lia.
  - assert (i = j).
    { pose proof (increasing_index _ _ _ _ _ Inc E0 G1 ltac:(lra)). pose proof (increasing_index _ _ _ _ _ Inc G0 E1 ltac:(lra)). lia. }
    subst j. rewrite E0 in G0. rewrite F0 in K0. rewrite E1 in G1. rewrite F1 in K1.
    injection G0 as ->. injection K0 as ->. injection G1 as ->. injection K1 as ->. congruence.
Qed.
Lemma interp_between grid values p v lo hi : Interp grid values p v -> (forall y, In y values -> lo <= y <= hi) -> lo <= v <= hi.
Proof.
  intros (i & x0 & x1 & y0 & y1 & E0 & F0 & [[P V]|(E1 & F1 & B & V)]) A.
  - subst v. apply A. eapply nth_error_In; exact F0.
  - apply nth_error_In in F0, F1. apply A in F0, F1.
    assert (T : 0 < (p - x0) / (x1 - x0) < 1).
    { split; [apply Rdiv_lt_0_compat; lra|]. apply (Rmult_lt_reg_r (x1 - x0)); [lra|]. unfold Rdiv. rewrite Rmult_assoc, Rinv_l by lra. lra. }
    set (t := (p - x0) / (x1 - x0)) in *. subst v. nra.
Qed.

Lemma last_in (l : list R) d : l <> [] -> In (last l d) l.
Proof. induction l as [|x t IH]; intro N; [now elim N|]. destruct t as [|y t]; [now left|]. right. apply IH. discriminate. Qed.
Lemma last_le l x : Increasing l -> In x l -> x <= last l 0.
Proof.
  induction l as [|y t IH]; intros Inc I; [destruct I|]. destruct t as [|z t].
  - destruct I as [->|[]]. cbn. lra.
  - change (last (y :: z :: t) 0) with (last (z :: t) 0). destruct I as [->|I].
    + assert (In (last (z :: t) 0) (z :: t)) by (apply last_in; discriminate). pose proof (increasing_hd _ _ _ Inc H). lra.
    + apply IH; [eapply increasing_cons; exact Inc|exact I].
Qed.
Lemma hd_le l x : Increasing l -> In x l -> hd 0 l <= x.
Proof. destruct l as [|y t]; intros Inc J; [destruct J|]. destruct J as [->|I]; cbn; [lra|]. pose proof (increasing_hd _ _ _ Inc I). lra. Qed.
Lemma in_grid_spec grid p : Increasing grid -> grid <> [] -> (in_grid grid p = true <-> Inside grid p).
Proof.
  intros Inc N. unfold in_grid, g_min, g_max. rewrite andb_true_iff, !rleb_true. split.
  - intros [A B]. exists (hd 0 grid), (last grid 0). split; [destruct grid; [now elim N|now left]|]. split; [now apply last_in|]. lra.
  - intros (a & b & Ia & Ib & A & B). pose proof (last_le _ _ Inc Ib). pose proof (hd_le _ _ Inc Ia). lra.
Qed.
Lemma in_grid_false grid p : Increasing grid -> grid <> [] -> (in_grid grid p = false <-> ~ Inside grid p).
Proof. intros Inc N. rewrite <- (in_grid_spec grid p Inc N). destruct (in_grid grid p); split; congruence. Qed.

Lemma weight1_interp grid values p v : Increasing grid -> length values = length grid -> Inside grid p ->
  (weight1 grid values p = v <-> Interp grid values p v).
Proof.
  intros Inc Len I. assert (N : grid <> []) by (destruct I as (a & _ & Ia & _); destruct grid; [destruct Ia|discriminate]).
  assert (K : Interp grid values p (weight1 grid values p)).
  { unfold weight1. rewrite (proj2 (in_grid_spec grid p Inc N) I). now apply weights_interp. }
  split; [intros <-; exact K|]. intro V. eapply interp_unique; eassumption.
Qed.
Lemma weight1_out grid values p : Increasing grid -> grid <> [] -> ~ Inside grid p -> weight1 grid values p = 0.
Proof. intros Inc N I. unfold weight1. now rewrite (proj2 (in_grid_false grid p Inc N) I). Qed.

(** ** Tables *)
Lemma nth_concat {A} (d : A) n (rows : list (list A)) : Forall (fun r => length r = n) rows -> forall i j, (j < n)%nat ->
  nth (i * n + j) (concat rows) d = nth j (nth i rows []) d.
Proof.
  induction rows as [|r rows IH]; intros F i j L.
  - cbn [concat]. rewrite (nth_overflow (@nil A)) by (cbn; lia). rewrite (nth_overflow (@nil (list A))) by (cbn; lia). destruct j; reflexivity.
  - inversion F as [|? ? Lr F']; subst. cbn [concat]. destruct i as [|i].
    + cbn. now rewrite app_nth1.
    + rewrite app_nth2 by (cbn; lia). replace (S i * length r + j - length r)%nat with (i * length r + j)%nat by (cbn; lia).
      cbn [nth]. now apply IH.
Qed.
Lemma ix_bounds grid p : grid <> [] -> (ix_r (indx_and_weights grid p) < length grid)%nat /\ (ix_l (indx_and_weights grid p) < length grid)%nat.
Proof.
  intro N. assert (L : (0 < length grid)%nat) by (destruct grid; [now elim N|cbn; lia]).
  pose proof (searchsorted_le grid p) as SL. unfold indx_and_weights.
  destruct (searchsorted grid p =? length grid)%nat eqn:E; [apply Nat.eqb_eq in E|apply Nat.eqb_neq in E];
    destruct (reqb _ 0); cbn [ix_r ix_l]; destruct (searchsorted grid p); lia.
Qed.
Lemma nth_map_at {A B} (f : A -> B) l d d' i : (i < length l)%nat -> nth i (map f l) d' = f (nth i l d).
Proof. intro L. rewrite (nth_indep _ d' (f d)) by now rewrite map_length. apply map_nth. Qed.

Lemma table_interp2 xs ys (table : list (list R)) x y : Increasing xs -> Increasing ys -> Full (length xs) (length ys) table ->
  Inside xs x -> Inside ys y ->
  Interp2 xs ys table x y (at_weights (indx_and_weights xs x) (map (at_weights (indx_and_weights ys y)) table)).
Proof.
  intros Ix Iy [L F] Hx Hy. exists (map (at_weights (indx_and_weights ys y)) table). split.
  - clear L. induction F as [|r t Lr F IH]; [constructor|]. cbn. constructor; [|exact IH]. now apply weights_interp.
  - apply weights_interp; auto. now rewrite map_length.
Qed.
Lemma interp2_unique xs ys table x y v w : Increasing xs -> Increasing ys -> Interp2 xs ys table x y v -> Interp2 xs ys table x y w -> v = w.
Proof.
  intros Ix Iy (c & Fc & Hc) (d & Fd & Hd). assert (c = d).
  { clear Hc Hd. revert d Fd. induction Fc as [|r u t c H F IH]; intros d Fd; inversion Fd; subst; [reflexivity|].
    f_equal; [eapply (interp_unique ys); eassumption|now apply IH]. }
  subst d. eapply (interp_unique xs); eassumption.
Qed.
Lemma interp2_between xs ys table x y v lo hi : Interp2 xs ys table x y v -> (forall r a, In r table -> In a r -> lo <= a <= hi) -> lo <= v <= hi.
Proof.
  intros (c & Fc & Hc) A. eapply interp_between; [exact Hc|]. intros a Ia.
  assert (K : forall t, Forall2 (fun row c => Interp ys row y c) t c -> (forall r, In r t -> In r table) -> lo <= a <= hi).
  { clear Fc Hc. induction c as [|z c IH]; intros t F Sub; [destruct Ia|]. inversion F; subst. destruct Ia as [->|Ia].
    - eapply interp_between; [eassumption|]. intros b Ib. eapply A; [|exact Ib]. apply Sub. now left.
    - eapply IH; [exact Ia|eassumption|]. intros r Ir. apply Sub. now right. }
  apply (K table Fc). auto.
Qed.

Lemma airglow_interp ams sfs table x y v : Increasing ams -> Increasing sfs -> Full (length ams) (length sfs) table ->
  Inside ams x -> Inside sfs y -> (airglow_weight ams sfs (concat table) x y = v <-> Interp2 ams sfs table x y v).
Proof.
  intros Ia Is Fu Hx Hy.
  assert (Na : ams <> []) by (destruct Hx as (a & _ & I & _); destruct ams; [destruct I|discriminate]).
  assert (Ns : sfs <> []) by (destruct Hy as (a & _ & I & _); destruct sfs; [destruct I|discriminate]).
  assert (E : airglow_weight ams sfs (concat table) x y = at_weights (indx_and_weights ams x) (map (at_weights (indx_and_weights sfs y)) table)).
  { unfold airglow_weight. rewrite (proj2 (in_grid_spec ams x Ia Na) Hx), (proj2 (in_grid_spec sfs y Is Ns) Hy). cbn [andb].
    destruct Fu as [Lt Ft]. destruct (ix_bounds ams x Na) as [B1 B2]. destruct (ix_bounds sfs y Ns) as [B3 B4].
    rewrite !(nth_concat 0 (length sfs) table Ft) by assumption.
    unfold at_weights. rewrite !(nth_map_at _ table []) by lia. ring. }
  rewrite E. split; [intros <-; now apply table_interp2|]. intro V. eapply interp2_unique; [exact Ia|exact Is| |exact V]. now apply table_interp2.
Qed.
Lemma airglow_out ams sfs values x y : Increasing ams -> Increasing sfs -> ams <> [] -> sfs <> [] -> ~ (Inside ams x /\ Inside sfs y) ->
  airglow_weight ams sfs values x y = 0.
Proof.
  intros Ia Is Na Ns H. unfold airglow_weight. destruct (in_grid ams x && in_grid sfs y) eqn:E; [|reflexivity].
  exfalso. apply andb_true_iff in E as [E1 E2]. apply H. split; [now apply (in_grid_spec ams)|now apply (in_grid_spec sfs)].
Qed.

(** ** Neighbours *)
Lemma known_spec hpids h : known hpids h = true <-> In h hpids.
Proof.
  unfold known. rewrite existsb_exists. split; [intros (x & I & E); apply Z.eqb_eq in E; now subst|].
  intro I. exists h. split; [exact I|apply Z.eqb_refl].
Qed.
Lemma rsum_zero {A} (f : A -> R) l : (forall x, In x l -> f x = 0) -> rsum (map f l) = 0.
Proof.
  induction l as [|x t IH]; intro H; [reflexivity|]. unfold rsum in *. cbn [map fold_right]. rewrite (H x) by now left. rewrite IH; [ring|]. intros; apply H. now right.
Qed.

(** the weighted sum over the neighbours in the table *)
Lemma weighted_sum hpids nb (c : Z -> R) : let kn := filter (fun q => known hpids (fst q)) nb in rsum (map snd kn) <> 0 ->
  rsum (map (fun p => snd p * c (fst p)) (hp_weights hpids nb)) * rsum (map snd kn) = rsum (map (fun p => snd p * c (fst p)) kn).
Proof.
  cbn zeta. intro N. unfold hp_weights.
  set (nb' := map (fun p => (fst p, if known hpids (fst p) then snd p else 0)) nb).
  assert (S : rsum (map snd nb') = rsum (map snd (filter (fun q => known hpids (fst q)) nb))).
  { subst nb'. clear N. induction nb as [|[h w] t IH]; [reflexivity|]. cbn [map filter fst snd].
    destruct (known hpids h); cbn [map rsum fold_right snd]; unfold rsum in *; cbn [map fold_right snd]; rewrite IH; ring. }
  assert (T : rsum (map (fun p => snd p * c (fst p)) nb') = rsum (map (fun p => snd p * c (fst p)) (filter (fun q => known hpids (fst q)) nb))).
  { subst nb'. clear N S. induction nb as [|[h w] t IH]; [reflexivity|]. cbn [map filter fst snd].
    destruct (known hpids h); unfold rsum in *; cbn [map fold_right fst snd]; rewrite IH; ring. }
  rewrite <- S in N |- *. rewrite (proj2 (reqb_false _ _) N). rewrite <- T. clear S T.
  set (n := rsum (map snd nb')) in *. clearbody n. induction nb' as [|[h w] t IH]; unfold rsum in *; cbn [map fold_right fst snd]; [ring|].
  rewrite Rmult_plus_distr_r, IH. field. exact N.
Qed.
Lemma hp_weights_none hpids nb : (forall q, In q nb -> ~ In (fst q) hpids) -> forall p, In p (hp_weights hpids nb) -> snd p = 0.
Proof.
  intros H. unfold hp_weights.
  set (nb' := map (fun p => (fst p, if known hpids (fst p) then snd p else 0)) nb).
  assert (Z : forall p, In p nb' -> snd p = 0).
  { intros p I. subst nb'. apply in_map_iff in I as (q & <- & I). cbn. destruct (known hpids (fst q)) eqn:K; [|reflexivity].
    exfalso. apply (H q I). now apply known_spec. }
  assert (S : rsum (map snd nb') = 0) by now apply rsum_zero.
  rewrite (proj2 (reqb_true _ _) S). exact Z.
Qed.

Lemma fold_last (x : Z) (l : list (Z * Z)) : forall acc, ~ In x (map fst l) ->
  fold_left (fun (acc : Z) p => if (fst p =? x)%Z then snd p else acc) l acc = acc.
Proof.
  induction l as [|[a b] t IH]; intros acc H; cbn; [reflexivity|]. cbn in H.
  rewrite (proj2 (Z.eqb_neq a x)) by tauto. apply IH. tauto.
Qed.
Lemma fold_find (x : Z) uint : forall uids acc j v, NoDup uint -> nth_error uint j = Some x -> nth_error uids j = Some v ->
  fold_left (fun (acc : Z) p => if (fst p =? x)%Z then snd p else acc) (combine uint uids) acc = v.
Proof.
  induction uint as [|a t IH]; intros uids acc j v ND E F; [destruct j; discriminate|].
  destruct uids as [|b u]; [destruct j; discriminate|]. inversion ND as [|? ? NI ND']; subst. cbn.
  destruct j as [|j].
  - injection E as ->. injection F as ->. rewrite Z.eqb_refl. apply fold_last. intro I. apply NI.
    clear -I. revert u I. induction t as [|y t IH]; intros u I; [destruct I|]. destruct u; [destruct I|]. destruct I as [<-|I]; [now left|right; eapply IH; exact I].
  - cbn in E, F. rewrite (proj2 (Z.eqb_neq a x)) by (intros ->; apply NI; eapply nth_error_In; exact E). eapply IH; eassumption.
Qed.
Lemma hpindex hpids j h : NoDup hpids -> nth_error hpids j = Some h ->
  Z.to_nat (hd 0%Z (intid2id [h] hpids (map Z.of_nat (seq 0 (length hpids))))) = j.
Proof.
  intros ND E. assert (Lj : (j < length hpids)%nat) by (apply nth_error_Some; congruence).
  cbn [intid2id map hd]. unfold intid2id. cbn [map hd]. rewrite (fold_find h hpids _ 0%Z j (Z.of_nat j) ND E); [apply Nat2Z.id|].
  rewrite nth_error_map. rewrite (nth_error_nth' _ O) by now rewrite seq_length. rewrite seq_nth by exact Lj. reflexivity.
Qed.

Lemma full_pixel n m k (table : list (list (list R))) j : length table = n -> Forall (fun b => Full m k b) table -> Full n m (Pixel j table).
Proof.
  intros L F. split; [unfold Pixel; now rewrite map_length|]. unfold Pixel. apply Forall_forall. intros r I.
  apply in_map_iff in I as (b & <- & I). rewrite map_length. rewrite Forall_forall in F. now apply F.
Qed.
Lemma moon_index n m k (table : list (list (list R))) : length table = n -> Forall (fun b => Full m k b) table ->
  forall s a h, (s < n)%nat -> (a < m)%nat -> (h < k)%nat ->
  nth (s * k * m + a * k + h) (concat (map (@concat R) table)) 0 = nth a (nth s (Pixel h table) []) 0.
Proof.
  intros L F s a h Ls La Lh.
  assert (F' : Forall (fun r => length r = (m * k)%nat) (map (@concat R) table)).
  { apply Forall_forall. intros r I. apply in_map_iff in I as (b & <- & I). rewrite Forall_forall in F. destruct (F b I) as [Lb Fb].
    clear -Lb Fb. revert m Lb. induction b as [|r b IH]; intros m Lb; cbn in *; [now subst|]. inversion Fb; subst.
    rewrite app_length, (IH H2 (length b) eq_refl). lia. }
  replace (s * k * m + a * k + h)%nat with (s * (m * k) + (a * k + h))%nat by lia.
  rewrite (nth_concat 0 (m * k) _ F') by nia.
  rewrite (nth_map_at (@concat R) table []) by lia. unfold Pixel. rewrite (nth_map_at _ table []) by lia.
  assert (I : In (nth s table []) table) by (apply nth_In; lia). rewrite Forall_forall in F. destruct (F _ I) as [Lb Fb].
  rewrite (nth_concat 0 k _ Fb) by exact Lh. rewrite (nth_map_at _ (nth s table []) []) by lia. reflexivity.
Qed.

(** the moonlight of one pixel *)
Lemma moon_sum seps alts hpids table nb malt sep : Increasing seps -> Increasing alts -> NoDup hpids ->
  length table = length seps -> Forall (fun b => Full (length alts) (length hpids) b) table ->
  Inside alts malt -> Inside seps sep -> forall kn, kn = filter (fun q => known hpids (fst q)) nb -> rsum (map snd kn) <> 0 ->
  exists cs, Forall2 (fun q c => exists j, nth_error hpids j = Some (fst q) /\ Interp2 seps alts (Pixel j table) sep malt c) kn cs
  /\ moon_weight seps alts hpids (concat (map (@concat R) table)) nb malt sep * rsum (map snd kn)
     = rsum (map (fun qc => snd (fst qc) * snd qc) (combine kn cs)).
Proof.
  intros Is Ia ND L F Ha Hs kn Ekn N.
  assert (Na : alts <> []) by (destruct Ha as (a & _ & I & _); destruct alts; [destruct I|discriminate]).
  assert (Ns : seps <> []) by (destruct Hs as (a & _ & I & _); destruct seps; [destruct I|discriminate]).
  set (idx h := Z.to_nat (hd 0%Z (intid2id [h] hpids (map Z.of_nat (seq 0 (length hpids)))))).
  set (val := fun h : Z => at_weights (indx_and_weights seps sep) (map (at_weights (indx_and_weights alts malt)) (Pixel (idx h) table))).
  exists (map (fun q => val (fst q)) kn). split.
  - assert (K : forall q, In q kn -> In (fst q) hpids) by (intros q I; subst kn; apply filter_In in I as [_ I]; now apply known_spec).
    clear Ekn N. induction kn as [|q kn IH]; [constructor|]. cbn. constructor.
    + assert (I : In (fst q) hpids) by (apply K; now left). apply In_nth_error in I as [j E]. exists j. split; [exact E|].
      unfold val, idx. rewrite (hpindex hpids j (fst q) ND E). apply table_interp2; auto. now apply (full_pixel _ _ (length hpids)).
    + apply IH. intros; apply K; now right.
  - assert (M : moon_weight seps alts hpids (concat (map (@concat R) table)) nb malt sep = rsum (map (fun p => snd p * val (fst p)) (hp_weights hpids nb))).
    { unfold moon_weight. replace (rltb malt (g_min alts)) with false.
      2:{ symmetry. apply rltb_false. unfold g_min. destruct Ha as (a & b & I & _ & Le & _). pose proof (hd_le _ _ Ia I). lra. }
      cbn zeta. f_equal.
      assert (KN : forall p, In p (hp_weights hpids nb) -> snd p = 0 \/ In (fst p) hpids).
      { intros p I. unfold hp_weights in I. set (nb' := map (fun p => (fst p, if known hpids (fst p) then snd p else 0)) nb) in I.
        assert (Z : forall p, In p nb' -> snd p = 0 \/ In (fst p) hpids).
        { intros q J. subst nb'. apply in_map_iff in J as (q' & <- & J). cbn. destruct (known hpids (fst q')) eqn:K; [right; now apply known_spec|now left]. }
        destruct (reqb (rsum (map snd nb')) 0); [now apply Z|]. apply in_map_iff in I as (q & <- & J). cbn.
        destruct (Z q J) as [E|E]; [left; rewrite E; unfold Rdiv; ring|now right]. }
      apply map_ext_in. intros p I. destruct (KN p I) as [E|E].
      - rewrite E. ring.
      - apply In_nth_error in E as [j E]. assert (Lj : (j < length hpids)%nat) by (apply nth_error_Some; congruence).
        fold (idx (fst p)). assert (Ej : idx (fst p) = j) by (unfold idx; now apply hpindex). rewrite Ej.
        destruct (ix_bounds alts malt Na) as [B1 B2]. destruct (ix_bounds seps sep Ns) as [B3 B4].
        rewrite !(moon_index (length seps) (length alts) (length hpids) table L F) by assumption.
        unfold val. rewrite Ej. unfold at_weights.
        rewrite !(nth_map_at _ (Pixel j table) []) by (unfold Pixel; rewrite map_length; lia). ring. }
    rewrite M. rewrite Ekn in N |- *. rewrite weighted_sum by exact N. f_equal. clear.
    induction (filter (fun q => known hpids (fst q)) nb) as [|q t IH]; [reflexivity|]. cbn. now rewrite IH.
Qed.

(** ** Zodiacal light *)
Lemma zodiacal_sum ams n table nb am : Increasing ams -> Full (length ams) n table -> Inside ams am ->
  forall kn, kn = filter (fun q => known (map Z.of_nat (seq 0 n)) (fst q)) nb -> rsum (map snd kn) <> 0 ->
  exists cs, Forall2 (fun q c => exists j, fst q = Z.of_nat j /\ (j < n)%nat /\ Interp ams (map (fun row => nth j row 0) table) am c) kn cs
  /\ zodiacal_weight ams (map Z.of_nat (seq 0 n)) (concat table) nb am * rsum (map snd kn)
     = rsum (map (fun qc => snd (fst qc) * snd qc) (combine kn cs)).
Proof.
  intros Ia [L F] Ha kn Ekn N. set (hpids := map Z.of_nat (seq 0 n)) in *.
  assert (Na : ams <> []) by (destruct Ha as (a & _ & I & _); destruct ams; [destruct I|discriminate]).
  set (val := fun h : Z => at_weights (indx_and_weights ams am) (map (fun row => nth (Z.to_nat h) row 0) table)).
  assert (InH : forall h, In h hpids -> exists j, h = Z.of_nat j /\ (j < n)%nat).
  { intros h I. unfold hpids in I. apply in_map_iff in I as (j & <- & I). apply in_seq in I. exists j. split; [reflexivity|lia]. }
  exists (map (fun q => val (fst q)) kn). split.
  - assert (K : forall q, In q kn -> In (fst q) hpids) by (intros q I; subst kn; apply filter_In in I as [_ I]; now apply known_spec).
    clear Ekn N. induction kn as [|q kn IH]; [constructor|]. cbn. constructor.
    + destruct (InH (fst q)) as (j & E & Lj); [apply K; now left|]. exists j. split; [exact E|]. split; [exact Lj|].
      unfold val. rewrite E, Nat2Z.id. apply weights_interp; auto. now rewrite map_length.
    + apply IH. intros; apply K; now right.
  - assert (M : zodiacal_weight ams hpids (concat table) nb am = rsum (map (fun p => snd p * val (fst p)) (hp_weights hpids nb))).
    { unfold zodiacal_weight. rewrite (proj2 (in_grid_spec ams am Ia Na) Ha). f_equal.
      assert (KN : forall p, In p (hp_weights hpids nb) -> snd p = 0 \/ In (fst p) hpids).
      { intros p I. unfold hp_weights in I. set (nb' := map (fun p => (fst p, if known hpids (fst p) then snd p else 0)) nb) in I.
        assert (Z : forall p, In p nb' -> snd p = 0 \/ In (fst p) hpids).
        { intros q J. subst nb'. apply in_map_iff in J as (q' & <- & J). cbn. destruct (known hpids (fst q')) eqn:K; [right; now apply known_spec|now left]. }
        destruct (reqb (rsum (map snd nb')) 0); [now apply Z|]. apply in_map_iff in I as (q & <- & J). cbn.
        destruct (Z q J) as [E|E]; [left; rewrite E; unfold Rdiv; ring|now right]. }
      apply map_ext_in. intros p I. destruct (KN p I) as [E|E]; [rewrite E; ring|].
      destruct (InH _ E) as (j & Ej & Lj). unfold val. rewrite Ej, Nat2Z.id.
      replace (length hpids) with n by (unfold hpids; now rewrite map_length, seq_length).
      destruct (ix_bounds ams am Na) as [B1 B2].
      rewrite !(nth_concat 0 n _ F) by exact Lj. unfold at_weights. rewrite !(nth_map_at _ table []) by lia. ring. }
    rewrite M. rewrite Ekn in N |- *. rewrite weighted_sum by exact N. f_equal. clear.
    induction (filter (fun q => known hpids (fst q)) nb) as [|q t IH]; [reflexivity|]. cbn. now rewrite IH.
Qed.
