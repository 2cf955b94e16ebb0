(** Satellite maps and the basis function. *)
From Coq Require Import Reals Lia Lra Psatz.
From Verif Require Import Base SatConst_Model SatConst_Spec.
Open Scope R_scope.

Lemma ceiling_spec : forall x i, (i < - Int_part (- x))%Z <-> IZR i < x.
Proof.
  intros x i. destruct (base_Int_part (- x)) as [B1 B2]. split; intros H.
  - assert (IZR (i + 1) <= IZR (- Int_part (- x))) by (apply IZR_le; lia). rewrite plus_IZR, opp_IZR in H0. lra.
  - apply lt_IZR. rewrite opp_IZR. lra.
Qed.
Lemma arange_length : forall a b dt i, 0 < dt -> (i < length (arange a b dt))%nat <-> a + INR i * dt < b.
Proof.
  intros a b dt i D. unfold arange. rewrite map_length, seq_length. rewrite INR_IZR_INZ.
  assert (H := ceiling_spec ((b - a) / dt) (Z.of_nat i)).
  assert (E : IZR (Z.of_nat i) < (b - a) / dt <-> a + IZR (Z.of_nat i) * dt < b).
  { assert (Q : (b - a) / dt * dt = b - a) by (field; lra). split; intros L.
    - apply (Rmult_lt_compat_r dt) in L; [|exact D]. rewrite Q in L. lra.
    - apply (Rmult_lt_reg_r dt); [exact D|]. rewrite Q. lra. }
  rewrite <- E, <- H. lia.
Qed.
Lemma arange_nth : forall a b dt i, (i < length (arange a b dt))%nat -> nth_error (arange a b dt) i = Some (a + INR i * dt).
Proof.
  intros a b dt i L. unfold arange in *. rewrite map_length, seq_length in L. rewrite nth_error_map.
  rewrite (nth_error_nth' _ 0%nat) by (rewrite seq_length; exact L). rewrite seq_nth by exact L. reflexivity.
Qed.

Lemma healbin_nth : forall npix l p, (p < npix)%nat -> nth p (healbin npix l) 0%Z = fold_right Z.add 0%Z (map snd (filter (fun q => Nat.eqb (fst q) p) l)).
Proof.
  intros npix l p L. unfold healbin.
  rewrite (nth_indep _ 0%Z (fold_right Z.add 0%Z (map snd (filter (fun q => Nat.eqb (fst q) 0%nat) l)))) by (rewrite map_length, seq_length; exact L).
  rewrite (map_nth (fun p => fold_right Z.add 0%Z (map snd (filter (fun q => Nat.eqb (fst q) p) l)))). rewrite seq_nth by exact L. reflexivity.
Qed.

Section Watch.
  Context {sat : Type} (sunlit : sat -> R -> bool) (radec : sat -> R -> R * R) (altitude : sat -> R -> R) (pixel : R * R -> nat) (npix : nat).
  Lemma spot_nth : forall limit sats t p, (p < npix)%nat -> nth p (spot_map pixel npix limit (map (fun s => path sunlit radec altitude s t) sats)) 0%Z = lit_in sunlit radec altitude pixel limit sats t p.
  Proof.
    intros limit sats t p L. unfold spot_map. rewrite healbin_nth by exact L. unfold lit_in.
    induction sats as [|s sats IH]; [reflexivity|]. cbn [map filter]. unfold path at 1. cbn [snd]. destruct (sunlit s t) eqn:SL; cbn [andb]; [|exact IH].
    cbn [map]. unfold path at 1. cbn [filter fst]. destruct (Nat.eqb (pixel (radec s t)) p); [|rewrite Bool.andb_false_r; exact IH].
    cbn [map snd fold_right]. rewrite IH. destruct (Rlt_dec (altitude s t) limit); cbn [negb andb]; [lia|]. cbn [length]. rewrite Nat2Z.inj_succ, SL. lia.
  Qed.
  Lemma spot_length : forall limit col, length (spot_map pixel npix limit col) = npix.
  Proof. intros limit col. unfold spot_map, healbin. rewrite map_length, seq_length. reflexivity. Qed.
End Watch.

(** ** searchsorted in sorted times *)
Lemma below_firstn : forall {A} (f : A -> R) l x, increasing (map f l) ->
  firstn (searchsorted (map f l) x) l = filter (fun q => if Rlt_dec (f q) x then true else false) l /\
  skipn (searchsorted (map f l) x) l = filter (fun q => if Rlt_dec (f q) x then false else true) l.
Proof.
  intros A f l x. unfold searchsorted. induction l as [|a l IH]; intros H; [split; reflexivity|]. cbn [map] in *. destruct H as [H1 H2]. specialize (IH H2). destruct IH as [IH1 IH2]. cbn [filter].
  destruct (Rlt_dec (f a) x) as [L|L].
  - cbn [length firstn skipn]. rewrite IH1. split; [reflexivity|exact IH2].
  - assert (N : filter (fun y => if Rlt_dec y x then true else false) (map f l) = []).
    { clear - H1 L. induction l as [|b l IH]; [reflexivity|]. cbn [map] in *. inversion H1; subst. cbn [filter]. destruct (Rlt_dec (f b) x); [lra|]. apply IH. assumption. }
    rewrite N in *. cbn [length firstn skipn] in *. rewrite <- IH1, <- IH2. split; reflexivity.
Qed.
Lemma filter_map_comm : forall {A B} (f : A -> B) (P : B -> bool) l, filter P (map f l) = map f (filter (fun a => P (f a)) l).
Proof. induction l as [|a l IH]; [reflexivity|]. cbn [map filter]. destruct (P (f a)); cbn [map]; rewrite IH; reflexivity. Qed.
Lemma searchsorted_map : forall {A} (f : A -> R) l x, searchsorted (map f l) x = length (filter (fun q => if Rlt_dec (f q) x then true else false) l).
Proof. intros A f l x. unfold searchsorted. rewrite filter_map_comm, map_length. reflexivity. Qed.
Lemma window_slice : forall {A} (f : A -> R) l a b, increasing (map f l) ->
  let lo := searchsorted (map f l) a in let hi := searchsorted (map f l) b in
  firstn (hi - lo) (skipn lo l) = filter (fun q => in_window a b (f q)) l /\ (Nat.ltb lo hi = true <-> filter (fun q => in_window a b (f q)) l <> []).
Proof.
  intros A f l a b S lo hi. destruct (below_firstn f l a S) as [_ B]. fold lo in B. rewrite B.
  assert (C : increasing (map f (filter (fun q => if Rlt_dec (f q) a then false else true) l))).
  { clear B. clearbody lo hi. induction l as [|x l IH]; [exact I|]. cbn [map] in S. destruct S as [S1 S2]. cbn [filter]. destruct (Rlt_dec (f x) a); [apply IH; exact S2|]. cbn [map]. split; [|apply IH; exact S2].
    apply Forall_forall. intros y Y. apply in_map_iff in Y. destruct Y as [z [<- Z]]. apply filter_In in Z. destruct Z as [Z _]. rewrite Forall_forall in S1. apply S1. apply in_map. exact Z. }
  destruct (below_firstn f _ b C) as [D _].
  assert (FF : filter (fun q => if Rlt_dec (f q) b then true else false) (filter (fun q => if Rlt_dec (f q) a then false else true) l) = filter (fun q => in_window a b (f q)) l).
  { clear. induction l as [|x l IH]; [reflexivity|]. cbn [filter]. unfold in_window at 1. destruct (Rlt_dec (f x) a) as [L|L]; destruct (Rle_dec a (f x)) as [M|M]; try lra; [exact IH|]. cbn [filter]. destruct (Rlt_dec (f x) b); rewrite IH; reflexivity. }
  rewrite FF in D. rewrite searchsorted_map, FF in D.
  assert (SPLIT : a <= b -> hi = (lo + length (filter (fun q => in_window a b (f q)) l))%nat).
  { intros AB. unfold lo, hi. rewrite !searchsorted_map. clear - AB. induction l as [|x l IH]; [reflexivity|]. cbn [filter]. unfold in_window at 1.
    destruct (Rlt_dec (f x) a); destruct (Rlt_dec (f x) b); destruct (Rle_dec a (f x)); try lra; cbn [length]; rewrite IH; lia. }
  assert (EMPTY : b <= a -> filter (fun q => in_window a b (f q)) l = [] /\ (hi <= lo)%nat).
  { intros BA. split.
    - clear - BA. induction l as [|x l IH]; [reflexivity|]. cbn [filter]. unfold in_window at 1. destruct (Rle_dec a (f x)); [destruct (Rlt_dec (f x) b); [lra|]|]; exact IH.
    - unfold lo, hi. rewrite !searchsorted_map. clear - BA. induction l as [|x l IH]; [apply Nat.le_refl|]. cbn [filter]. destruct (Rlt_dec (f x) b); destruct (Rlt_dec (f x) a); try lra; cbn [length]; lia. }
  destruct (Rle_dec a b) as [AB|AB].
  - specialize (SPLIT AB). rewrite SPLIT. replace (lo + length (filter (fun q => in_window a b (f q)) l) - lo)%nat with (length (filter (fun q => in_window a b (f q)) l)) by lia.
    split; [exact D|]. rewrite Nat.ltb_lt. destruct (filter (fun q => in_window a b (f q)) l) as [|q r]; cbn [length]; split; intros H; try discriminate; try lia. exfalso. apply H. reflexivity.
  - destruct EMPTY as [E HL]; [lra|]. rewrite E. replace (hi - lo)%nat with 0%nat by lia. split; [reflexivity|]. rewrite Nat.ltb_lt. split; [lia|]. intros H. exfalso. apply H. reflexivity.
Qed.

(** ** sums of maps *)
Lemma add_nth : forall a b p, length a = length b -> length (add_maps a b) = length a /\ nth p (add_maps a b) 0%Z = (nth p a 0 + nth p b 0)%Z.
Proof.
  unfold add_maps. induction a as [|x a IH]; intros [|y b] p L; try discriminate L; [split; [reflexivity|destruct p; reflexivity]|]. injection L as L. cbn [combine map length]. destruct (IH b (pred p) L) as [I1 I2].
  rewrite I1. split; [reflexivity|]. destruct p as [|p]; [reflexivity|]. exact I2.
Qed.
Lemma sum_nth : forall r m p, Forall (fun x => length x = length m) r -> length (fold_left add_maps r m) = length m /\ nth p (fold_left add_maps r m) 0%Z = column_sum (m :: r) p.
Proof.
  induction r as [|x r IH]; intros m p F; [split; [reflexivity|]; cbn; lia|]. inversion F as [|? ? X Y]; subst. cbn [fold_left]. destruct (add_nth m x p (eq_sym X)) as [A1 A2].
  destruct (IH (add_maps m x) p) as [B1 B2]; [rewrite A1; exact Y|]. rewrite B1, B2, A1. split; [reflexivity|]. unfold column_sum. cbn [map fold_right]. rewrite A2. lia.
Qed.
