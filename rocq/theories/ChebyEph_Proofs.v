(** Proofs about fitted positions. *)
From Verif Require Import Base Astrom_Model Cheby_Model Cheby_Spec Cheby_Proofs Cheby_Proofs2 Cheby_Proofs3 Cheby_Proofs4 Cheby_Proofs5
  ChebyEph_Model ChebyEph_Spec.
From Coq Require Import Reals Lra Lia.
Open Scope R_scope.

(** * The wrap of right ascensions *)
Lemma below_false b l : some_below b l = false -> forall x, In x l -> b <= x.
Proof.
  unfold some_below. intros H x I. destruct (Rlt_dec x b) as [L|G]; [|lra]. exfalso.
  assert (E : existsb (fun x => if Rlt_dec x b then true else false) l = true).
  { apply existsb_exists. exists x. split; [exact I|]. destruct (Rlt_dec x b); [reflexivity|contradiction]. }
  congruence.
Qed.
Lemma above_false b l : some_above b l = false -> forall x, In x l -> x <= b.
Proof.
  unfold some_above. intros H x I. destruct (Rlt_dec b x) as [L|G]; [|lra]. exfalso.
  assert (E : existsb (fun x => if Rlt_dec b x then true else false) l = true).
  { apply existsb_exists. exists x. split; [exact I|]. destruct (Rlt_dec b x); [reflexivity|contradiction]. }
  congruence.
Qed.
Lemma below_true b l : some_below b l = true -> exists x, In x l /\ x < b.
Proof. unfold some_below. intros H. apply existsb_exists in H as [x [I E]]. exists x. split; [exact I|]. destruct (Rlt_dec x b); [assumption|discriminate]. Qed.
Lemma above_true b l : some_above b l = true -> exists x, In x l /\ b < x.
Proof. unfold some_above. intros H. apply existsb_exists in H as [x [I E]]. exists x. split; [exact I|]. destruct (Rlt_dec b x); [assumption|discriminate]. Qed.
Lemma wrap_length l : length (three_sixty_to_neg l) = length l.
Proof. unfold three_sixty_to_neg. destruct (_ && _)%bool; [apply map_length|reflexivity]. Qed.
Lemma wrap_turn l i : nth i (three_sixty_to_neg l) 0 = nth i l 0 \/ nth i (three_sixty_to_neg l) 0 = nth i l 0 - 360.
Proof.
  unfold three_sixty_to_neg. destruct (_ && _)%bool; [|left; reflexivity].
  set (g := fun x => if Rlt_dec 270 x then x - 360 else x). assert (G0 : g 0 = 0) by (unfold g; destruct (Rlt_dec 270 0); lra).
  rewrite <- G0 at 1 3. rewrite map_nth. unfold g. destruct (Rlt_dec 270 (nth i l 0)); [right|left]; reflexivity.
Qed.
Lemma wrap_arc c us l : length us = length l -> (forall i, (i < length l)%nat -> c <= nth i us 0 < c + 90 /\ wrapped (nth i us 0) (nth i l 0)) ->
  exists k : Z, forall i, (i < length l)%nat -> nth i (three_sixty_to_neg l) 0 = nth i us 0 + 360 * IZR k.
Proof.
  intros HL H. destruct l as [|x0 l0]; [exists 0%Z; intros i Hi; cbn in Hi; lia|]. set (l := x0 :: l0) in *.
  (* bring the arc to [c0, c0 + 90) with 0 <= c0 + 90 ... : the turn of the first angle *)
  assert (G : forall i j, (i < length l)%nat -> (j < length l)%nat -> forall ki kj : Z,
            nth i l 0 = nth i us 0 + 360 * IZR ki -> nth j l 0 = nth j us 0 + 360 * IZR kj -> (ki - kj = 0 \/ ki - kj = 1 \/ ki - kj = -1)%Z).
  { intros i j Hi Hj ki kj Ei Ej. destruct (H i Hi) as [A [A0 _]], (H j Hj) as [B [B0 _]].
    assert (L1 : -450 < 360 * IZR (ki - kj)) by (rewrite minus_IZR; lra). assert (L2 : 360 * IZR (ki - kj) < 450) by (rewrite minus_IZR; lra).
    assert (L3 : (-2 < ki - kj)%Z) by (apply lt_IZR; lra). assert (L4 : (ki - kj < 2)%Z) by (apply lt_IZR; lra). lia. }
  unfold three_sixty_to_neg. destruct (some_below 100 l) eqn:EB; [destruct (some_above 270 l) eqn:EA|]; cbn [andb].
  - (* both: the arc contains the origin *)
    apply below_true in EB as [x [Ix Lx]]. apply above_true in EA as [y [Iy Ly]].
    apply In_nth with (d := 0) in Ix as [i [Hi Ei]]. apply In_nth with (d := 0) in Iy as [j [Hj Ej]].
    destruct (H i Hi) as [Ai [Bi [ki Ki]]], (H j Hj) as [Aj [Bj [kj Kj]]].
    assert (E1 : (kj - ki = 1)%Z).
    { destruct (G j i Hj Hi kj ki Kj Ki) as [E|[E|E]]; [exfalso|exact E|exfalso].
      - assert (kj = ki) by lia. subst kj. lra.
      - assert (kj = (ki - 1)%Z) by lia. subst kj. rewrite minus_IZR in Kj. lra. }
    exists ki. intros n Hn. destruct (H n Hn) as [An [Bn [kn Kn]]].
    set (g := fun x => if Rlt_dec 270 x then x - 360 else x). assert (G0 : g 0 = 0) by (unfold g; destruct (Rlt_dec 270 0); lra).
    rewrite <- G0 at 1. rewrite map_nth. unfold g.
    assert (kj = (ki + 1)%Z) by lia. subst kj. rewrite plus_IZR in Kj.
    destruct (Rlt_dec 270 (nth n l 0)) as [L|L].
    + assert (kn = (ki + 1)%Z).
      { destruct (G n i Hn Hi kn ki Kn Ki) as [E|[E|E]]; [exfalso|lia|exfalso].
        - assert (kn = ki) by lia. subst kn. lra.
        - assert (kn = (ki - 1)%Z) by lia. subst kn. rewrite minus_IZR in Kn. lra. }
      subst kn. rewrite plus_IZR in Kn. lra.
    + assert (kn = ki); [|subst kn; lra].
      destruct (G n i Hn Hi kn ki Kn Ki) as [E|[E|E]]; [lia|exfalso|exfalso].
      * assert (kn = (ki + 1)%Z) by lia. subst kn. rewrite plus_IZR in Kn. lra.
      * assert (kn = (ki - 1)%Z) by lia. subst kn. rewrite minus_IZR in Kn. lra.
  - (* nothing above 270 *)
    pose proof (above_false _ _ EA) as Q. destruct (H 0%nat ltac:(cbn; lia)) as [A0 [B0 [k0 K0]]]. exists k0.
    intros n Hn. destruct (H n Hn) as [An [Bn [kn Kn]]]. rewrite Kn. do 2 f_equal. f_equal.
    pose proof (Q _ (nth_In l 0 Hn)). pose proof (Q _ (nth_In l 0 (n:=0%nat) ltac:(cbn; lia))).
    destruct (G n 0%nat Hn ltac:(cbn; lia) kn k0 Kn K0) as [E|[E|E]]; [lia|exfalso|exfalso].
    + assert (kn = (k0 + 1)%Z) by lia. subst kn. rewrite plus_IZR in Kn. lra.
    + assert (kn = (k0 - 1)%Z) by lia. subst kn. rewrite minus_IZR in Kn. lra.
  - pose proof (below_false _ _ EB) as Q. destruct (H 0%nat ltac:(cbn; lia)) as [A0 [B0 [k0 K0]]]. exists k0.
    intros n Hn. destruct (H n Hn) as [An [Bn [kn Kn]]]. rewrite Kn. do 2 f_equal. f_equal.
    pose proof (Q _ (nth_In l 0 Hn)). pose proof (Q _ (nth_In l 0 (n:=0%nat) ltac:(cbn; lia))).
    destruct (G n 0%nat Hn ltac:(cbn; lia) kn k0 Kn K0) as [E|[E|E]]; [lia|exfalso|exfalso].
    + assert (kn = (k0 + 1)%Z) by lia. subst kn. rewrite plus_IZR in Kn. lra.
    + assert (kn = (k0 - 1)%Z) by lia. subst kn. rewrite minus_IZR in Kn. lra.
Qed.

(** * The segment *)
Lemma max_of_spec l : (forall x, In x l -> x <= max_of l) /\ (l <> [] -> (forall x, In x l -> 0 <= x) -> In (max_of l) l).
Proof.
  unfold max_of. induction l as [|x l [A B]]; cbn [fold_right]; [split; [intros x []|congruence]|]. split.
  - intros y [<-|H]; [apply Rmax_l|]. eapply Rle_trans; [apply A; exact H|apply Rmax_r].
  - intros _ P. destruct l as [|y l].
    + cbn [fold_right]. rewrite Rmax_left by (apply P; left; reflexivity). left. reflexivity.
    + destruct (Rle_dec x (fold_right Rmax 0 (y :: l))) as [L|G].
      * rewrite Rmax_right by exact L. right. apply B; [discriminate|]. intros z Hz. apply P. right. exact Hz.
      * rewrite Rmax_left by lra. left. reflexivity.
Qed.
Lemma scaled_shift t0 t1 t : scaled (t0 - t0) (t1 - t0) (t - t0) = scaled t0 t1 t.
Proof. unfold scaled. f_equal; ring. Qed.
Lemma yv_shift t0 t1 t p : cheb_yv (t0 - t0) (t1 - t0) (t - t0) p = cheb_yv t0 t1 t p.
Proof. unfold cheb_yv. rewrite scaled_shift. reflexivity. Qed.
Lemma eval_is t0 t1 cra cdec t : t0 <> t1 ->
  eval_position t0 t1 cra cdec t false =
  Ok (Some (value_at t0 t1 cra t), Some (slope_at t0 t1 cra t * cos (radians (value_at t0 t1 cdec t))),
      Some (value_at t0 t1 cdec t), Some (slope_at t0 t1 cdec t)).
Proof.
  intros HT.
  assert (Y : forall p, fst (cheb_yv t0 t1 t p) = value_at t0 t1 p t).
  { intros p. rewrite value_ser, cheb_yv_ser. reflexivity. }
  unfold eval_position, chebeval. cbn [bind masked andb option_map fst snd]. rewrite !yv_shift, !Y.
  replace (t1 - t0 - (t0 - t0)) with (t1 - t0) by ring.
  unfold slope_at, chebeval. cbn [masked andb option_map fst snd]. reflexivity.
Qed.
Lemma open_position inv xm dxm m e cra cdec r : get_coeffs_position inv xm dxm m e = Ok (cra, cdec, r) ->
  exists rra rmsr mxr rdec rmsd mxd,
    chebfit inv (map p_time e) (three_sixty_to_neg (map p_ra e)) (Some (map (fun p => p_dradt p / cos (radians (p_dec p))) e)) xm dxm m = Ok (cra, rra, rmsr, mxr) /\
    chebfit inv (map p_time e) (map p_dec e) (Some (map p_ddecdt e)) xm dxm m = Ok (cdec, rdec, rmsd, mxd) /\
    r = max_of (map (fun q => sqrt (fst (fst q) ^ 2 + (snd (fst q) * cos (radians (snd q))) ^ 2)) (combine (combine rdec rra) (map p_dec e))) * (3600 * 1000).
Proof.
  unfold get_coeffs_position. intros H.
  destruct (chebfit inv (map p_time e) (three_sixty_to_neg _) _ xm dxm m) as [[[[cr rr] ar] br]|] eqn:E1; [|discriminate]. cbn [bind] in H.
  destruct (chebfit inv (map p_time e) (map p_dec e) _ xm dxm m) as [[[[cd rd] ad] bd]|] eqn:E2; [|discriminate]. cbn [bind] in H.
  injection H as <- <- <-. exists rr, ar, br, rd, ad, bd. repeat split.
Qed.
Lemma nth_col {A} (f : eph -> A) e i d : (i < length e)%nat -> nth i (map f e) d = f (nth i e p0).
Proof. intros H. rewrite (nth_indep _ d (f p0)) by (rewrite map_length; exact H). apply map_nth. Qed.
Lemma ends_position inv xm dxm m w e cra cdec r i : inverts inv -> from_matrix inv (length e) m w xm dxm ->
  let first := nth 0 e p0 in let final := nth (length e - 1) e p0 in
  p_time first <> p_time final -> (i = 0 \/ i = length e - 1)%nat ->
  get_coeffs_position inv xm dxm m e = Ok (cra, cdec, r) ->
  let s := nth i e p0 in exists ra v, ra = nth i (three_sixty_to_neg (map p_ra e)) 0 /\ (ra = p_ra s \/ ra = p_ra s - 360) /\
    eval_position (p_time first) (p_time final) cra cdec (p_time s) false = Ok (Some ra, Some v, Some (p_dec s), Some (p_ddecdt s)) /\
    (cos (radians (p_dec s)) <> 0 -> v = p_dradt s).
Proof.
  intros HI HF first final HT Hi H s. destruct (open_position _ _ _ _ _ _ _ _ H) as [rra [a1 [b1 [rdec [a2 [b2 [F1 [F2 _]]]]]]]].
  assert (L0 : (0 < length e)%nat) by (destruct e; [elim HT; reflexivity|cbn; lia]).
  assert (ET : t_first (map p_time e) = p_time first) by (unfold t_first; apply nth_col; exact L0).
  assert (EL : t_last (map p_time e) = p_time final) by (unfold t_last; rewrite map_length; apply nth_col; lia).
  assert (HF' : from_matrix inv (length (map p_time e)) m w xm dxm) by (rewrite map_length; exact HF).
  assert (HT' : t_first (map p_time e) <> t_last (map p_time e)) by (rewrite ET, EL; exact HT).
  destruct (ends_exact_v _ _ _ _ _ _ _ _ _ _ _ _ HI HF' HT' F1) as [_ [A1 [A2 [A3 A4]]]].
  destruct (ends_exact_v _ _ _ _ _ _ _ _ _ _ _ _ HI HF' HT' F2) as [_ [B1 [B2 [B3 B4]]]].
  rewrite ET, EL in *. rewrite map_length in *.
  set (wr := three_sixty_to_neg (map p_ra e)) in *.
  assert (W : forall j, (j < length e)%nat -> nth j wr 0 = p_ra (nth j e p0) \/ nth j wr 0 = p_ra (nth j e p0) - 360).
  { intros j Hj. unfold wr. rewrite <- (nth_col p_ra e j 0 Hj). apply wrap_turn. }
  rewrite eval_is by exact HT.
  assert (Hi' : (i < length e)%nat) by lia.
  assert (V1 : value_at (p_time first) (p_time final) cra (p_time s) = nth i wr 0) by (destruct Hi as [-> | ->]; assumption).
  assert (V2 : slope_at (p_time first) (p_time final) cra (p_time s) = p_dradt s / cos (radians (p_dec s))).
  { destruct Hi as [-> | ->]; [unfold s; fold first; rewrite A2|unfold s; fold final; rewrite A4]; apply (nth_col (fun p => p_dradt p / cos (radians (p_dec p)))); lia. }
  assert (V3 : value_at (p_time first) (p_time final) cdec (p_time s) = p_dec s).
  { destruct Hi as [-> | ->]; [unfold s; fold first; rewrite B1|unfold s; fold final; rewrite B3]; apply (nth_col p_dec); lia. }
  assert (V4 : slope_at (p_time first) (p_time final) cdec (p_time s) = p_ddecdt s).
  { destruct Hi as [-> | ->]; [unfold s; fold first; rewrite B2|unfold s; fold final; rewrite B4]; apply (nth_col p_ddecdt); lia. }
  rewrite V1, V2, V3, V4. eexists _, _. split; [reflexivity|]. split; [apply W; exact Hi'|]. split; [reflexivity|]. intros NC. field. exact NC.
Qed.
Lemma within inv xm dxm m e cra cdec r : 
  let first := nth 0 e p0 in let final := nth (length e - 1) e p0 in p_time first <> p_time final ->
  get_coeffs_position inv xm dxm m e = Ok (cra, cdec, r) ->
  let dist i := fun d => exists ra v dec v' k, (k = 0 \/ k = 360) /\
    eval_position (p_time first) (p_time final) cra cdec (p_time (nth i e p0)) false = Ok (Some ra, Some v, Some dec, Some v') /\
    d = offset (nth i e p0) (ra + k) dec in
  (forall i, (i < length e)%nat -> exists d, dist i d /\ d <= r) /\ (exists i, (i < length e)%nat /\ dist i r).
Proof.
  intros first final HT H dist. destruct (open_position _ _ _ _ _ _ _ _ H) as [rra [a1 [b1 [rdec [a2 [b2 [F1 [F2 ->]]]]]]]].
  assert (L0 : (0 < length e)%nat) by (destruct e; [elim HT; reflexivity|cbn; lia]).
  assert (ET : t_first (map p_time e) = p_time first) by (unfold t_first; apply nth_col; exact L0).
  assert (EL : t_last (map p_time e) = p_time final) by (unfold t_last; rewrite map_length; apply nth_col; lia).
  destruct (residuals_ok _ _ _ _ _ _ _ _ _ _ _ F1) as [A1 [A2 _]]. destruct (residuals_ok _ _ _ _ _ _ _ _ _ _ _ F2) as [B1 [B2 _]].
  rewrite ET, EL, map_length in *.
  set (g := fun q : R * R * R => sqrt (fst (fst q) ^ 2 + (snd (fst q) * cos (radians (snd q))) ^ 2)).
  set (L := map g (combine (combine rdec rra) (map p_dec e))).
  assert (LL : length L = length e) by (unfold L; rewrite map_length, !combine_length, map_length, A1, B1; lia).
  assert (D : forall i, (i < length e)%nat -> dist i (nth i L 0 * (3600 * 1000))).
  { intros i Hi. unfold L. rewrite (nth_indep _ 0 (g (0, 0, 0))) by (fold L; lia). rewrite map_nth, !combine_nth by (rewrite ?combine_length, ?map_length, ?A1, ?B1; lia).
    unfold g. cbn [fst snd]. rewrite A2, B2 by exact Hi. rewrite !nth_col by exact Hi.
    unfold dist. rewrite eval_is by exact HT.
    set (ra := value_at (p_time first) (p_time final) cra (p_time (nth i e p0))).
    set (dec := value_at (p_time first) (p_time final) cdec (p_time (nth i e p0))).
    pose proof (wrap_turn (map p_ra e) i) as W. rewrite (nth_col p_ra e i 0 Hi) in W.
    destruct W as [W|W]; rewrite W; [exists ra, (slope_at (p_time first) (p_time final) cra (p_time (nth i e p0)) * cos (radians dec)), dec, (slope_at (p_time first) (p_time final) cdec (p_time (nth i e p0))), 0
      |exists ra, (slope_at (p_time first) (p_time final) cra (p_time (nth i e p0)) * cos (radians dec)), dec, (slope_at (p_time first) (p_time final) cdec (p_time (nth i e p0))), 360];
      (split; [auto|]; split; [reflexivity|]; unfold offset; do 2 f_equal; f_equal; f_equal; f_equal; ring). }
  destruct (max_of_spec L) as [M1 M2]. split.
  - intros i Hi. eexists. split; [apply D; exact Hi|]. apply Rmult_le_compat_r; [lra|]. apply M1. apply nth_In. lia.
  - assert (I : In (max_of L) L).
    { apply M2; [intros X; rewrite X in LL; cbn in LL; lia|]. intros x Hx. unfold L in Hx. apply in_map_iff in Hx as [q [<- _]]. apply sqrt_pos. }
    apply In_nth with (d := 0) in I as [i [Hi E]]. exists i. split; [lia|]. rewrite <- E. apply D. lia.
Qed.
