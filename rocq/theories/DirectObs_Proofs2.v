(** Proofs: the rows that run finds. *)
From Coq Require Import Reals Lra Lia Sorted.
From Verif Require Import Base Orbits_Model OrbitsIO_Model DirectObs_Model DirectObs_Spec DirectObs_Proofs.
Open Scope R_scope.

(** * Lists *)
Lemma all_ok_forall2 : forall {A B} (f : A -> result B) l r, all_ok (map f l) = Ok r -> Forall2 (fun x y => f x = Ok y) l r.
Proof.
  intros A B f. induction l as [|x l IH]; intros r H; cbn [map all_ok] in H.
  - injection H as <-. constructor.
  - destruct (f x) as [y|] eqn:E; cbn [bind] in H; [|discriminate]. destruct (all_ok (map f l)) as [z|]; cbn [bind] in H; [|discriminate].
    injection H as <-. constructor; [assumption | apply IH; reflexivity].
Qed.
Lemma all_ok_of : forall {A B} (f : A -> result B) (g : A -> B) l, (forall x, In x l -> f x = Ok (g x)) -> all_ok (map f l) = Ok (map g l).
Proof.
  intros A B f g. induction l as [|x l IH]; intros H; cbn [map all_ok]; [reflexivity|].
  rewrite H by (left; reflexivity). cbn [bind]. rewrite IH by (intros y I; apply H; right; assumption). reflexivity.
Qed.
Lemma forall2_map_eq : forall {A B} (g : A -> B) l r, Forall2 (fun x y => g x = y) l r -> r = map g l.
Proof. intros A B g l r H. induction H; [reflexivity|]. cbn. subst. reflexivity. Qed.
Lemma nth_seq_id : forall {A} (d : A) l, map (fun k => nth k l d) (seq 0 (length l)) = l.
Proof.
  intros A d l. induction l as [|x l IH]; [reflexivity|]. cbn [length seq map]. f_equal.
  rewrite <- seq_shift, map_map. exact IH.
Qed.
Lemma pick : forall {A B C} (g : A -> B) (h : A -> C) (t : C -> bool) l,
  all_ok (map (arr_get (map g l)) (where_ t (map h l))) = Ok (map g (filter (fun k => t (h k)) l)).
Proof.
  intros A B C g h t l. unfold where_. rewrite map_length.
  cut (forall pre, all_ok (map (arr_get (map g (pre ++ l))) (map fst (filter (fun p => t (snd p)) (combine (seq (length pre) (length l)) (map h l)))))
               = Ok (map g (filter (fun k => t (h k)) l))).
  { intro H. exact (H []). }
  induction l as [|x l IH]; intro pre; [reflexivity|]. cbn [length seq map combine filter snd].
  assert (R : all_ok (map (arr_get (map g (pre ++ x :: l))) (map fst (filter (fun p => t (snd p)) (combine (seq (S (length pre)) (length l)) (map h l)))))
              = Ok (map g (filter (fun k => t (h k)) l))).
  { specialize (IH (pre ++ [x])). rewrite <- app_assoc in IH. cbn [app] in IH. rewrite app_length in IH. cbn [length] in IH.
    rewrite Nat.add_1_r in IH. exact IH. }
  destruct (t (h x)); [|exact R]. cbn [map all_ok fst]. rewrite R.
  unfold arr_get at 1. rewrite nth_error_map, nth_error_app2, Nat.sub_diag by lia. reflexivity.
Qed.
Lemma where_seq : forall {C} (h : nat -> C) (t : C -> bool) n, where_ t (map h (seq 0 n)) = filter (fun k => t (h k)) (seq 0 n).
Proof.
  intros C h t n. unfold where_. rewrite map_length, seq_length.
  generalize 0%nat. induction n as [|n IH]; intro a; [reflexivity|]. cbn [seq map combine filter snd].
  rewrite <- IH. destruct (t (h a)); reflexivity.
Qed.
Lemma combine_map2 : forall {A B C} (f : A -> B) (g : A -> C) l, combine (map f l) (map g l) = map (fun x => (f x, g x)) l.
Proof. intros A B C f g l. induction l as [|x l IH]; [reflexivity|]. cbn. f_equal. exact IH. Qed.
Lemma filter_filter : forall {A} (f g : A -> bool) l, filter f (filter g l) = filter (fun x => g x && f x) l.
Proof. intros A f g l. induction l as [|x l IH]; [reflexivity|]. cbn. destruct (g x); cbn; [destruct (f x)|]; rewrite IH; reflexivity. Qed.
Lemma seq_sorted : forall n a, StronglySorted lt (seq a n).
Proof.
  induction n as [|n IH]; intro a; constructor; [apply IH|]. apply Forall_forall. intros x I. apply in_seq in I. lia.
Qed.
Lemma filter_sorted : forall {A} (R : A -> A -> Prop) f l, StronglySorted R l -> StronglySorted R (filter f l).
Proof.
  intros A R f l H. induction H as [|x l H IH F]; [constructor|]. cbn. destruct (f x); [|assumption]. constructor; [assumption|].
  apply Forall_forall. intros y I. apply filter_In in I. rewrite Forall_forall in F. apply F, I.
Qed.

Section Run.
  Context (sep : R -> R -> R -> R -> R) (camera : R -> R -> R -> R -> R -> bool) (ephem : nat -> string -> R -> eph)
          (int_of : string -> option Z) (color : string -> string -> result R).
  Definition dv : visit := {| v_id := 0; v_time := 0; v_ra := 0; v_dec := 0; v_rot := 0; v_seeing := 0; v_exp := 0; v_m5 := 0; v_night := 0; v_band := "" |}.
  (** the test of sso_in_fov for one visit *)
  Definition fov (s : settings) (p : place) (v : visit) : bool :=
    if String.eqb (s_footprint s) "camera" then in_camera camera s p v
    else if String.eqb (s_footprint s) "rectangle" then in_rectangle s p v
    else in_circle sep s p v (s_r_fov s).
  Definition settled (s : settings) : settings :=
    if String.eqb (s_footprint s) "camera" || String.eqb (s_footprint s) "rectangle" || String.eqb (s_footprint s) "circle" then s else set_circle s.
  Lemma in_fov_eq : forall s l, sso_in_fov sep camera s l = (where_ (fun q => fov s (fst q) (snd q)) l, settled s).
  Proof.
    intros s l. unfold sso_in_fov, fov, settled. destruct (String.eqb (s_footprint s) "camera"); [reflexivity|].
    destruct (String.eqb (s_footprint s) "rectangle"); [reflexivity|]. destruct (String.eqb (s_footprint s) "circle"); reflexivity.
  Qed.
  Definition alike (s0 s : settings) : Prop := s = s0 \/ s = settled s0.
  Lemma alike_settled : forall s0 s, alike s0 s -> alike s0 (settled s).
  Proof.
    intros s0 s [-> | ->]; [right; reflexivity|]. right. unfold settled at 2 3. 
    destruct (String.eqb (s_footprint s0) "camera" || String.eqb (s_footprint s0) "rectangle" || String.eqb (s_footprint s0) "circle") eqn:E.
    - unfold settled. rewrite E. reflexivity.
    - reflexivity.
  Qed.
  Lemma settled_fov : forall s p v, fov (settled s) p v = fov s p v.
  Proof.
    intros s p v. unfold settled.
    destruct (String.eqb (s_footprint s) "camera") eqn:A; cbn [Datatypes.orb]; [reflexivity|].
    destruct (String.eqb (s_footprint s) "rectangle") eqn:B; cbn [Datatypes.orb]; [reflexivity|].
    destruct (String.eqb (s_footprint s) "circle") eqn:C; cbn [Datatypes.orb]; [reflexivity|].
    unfold fov. rewrite A, B. reflexivity.
  Qed.
  Lemma settled_mode : forall s, s_mode (settled s) = s_mode s.
  Proof. intro s. unfold settled. destruct (_ || _); reflexivity. Qed.
  Lemma settled_type : forall s, s_type (settled s) = s_type s.
  Proof. intro s. unfold settled. destruct (_ || _); reflexivity. Qed.

  (** the rows of one object *)
  Lemma precise_ok : forall s obs i obj (b : nat -> bool) m l s',
    dynamics (s_mode s) = Ok m ->
    precise sep camera ephem int_of s obs i obj (filter b (seq 0 (length obs))) = Ok (l, s') ->
    (s' = s \/ s' = settled s) /\
    exists id, (to_int int_of (fst obj) = Ok id \/ l = []) /\
    l = map (fun k => (id, to_u40 (snd obj), ephem i m (v_time (nth k obs dv)), k))
          (filter (fun k => b k && fov s (place_of (ephem i m (v_time (nth k obs dv)))) (nth k obs dv)) (seq 0 (length obs))).
  Proof.
    intros s obs i obj b m l s' M H. unfold precise in H.
    set (rough := filter b (seq 0 (length obs))) in *.
    assert (RK : forall k, In k rough -> (k < length obs)%nat).
    { intros k I. apply filter_In in I. destruct I as [I _]. apply in_seq in I. lia. }
    rewrite <- filter_filter. fold rough.
    destruct rough as [|k0 rest] eqn:ER.
    { injection H as <- <-. split; [left; reflexivity|]. exists 0%Z. split; [right|]; reflexivity. }
    rewrite <- ER in H, RK |- *.
    rewrite (all_ok_of (arr_get obs) (fun k => nth k obs dv)) in H.
    2: { intros k I. unfold arr_get. rewrite (nth_error_nth' obs dv) by (apply RK; assumption). reflexivity. }
    cbn [bind] in H. unfold ephemerides in H.
    destruct (map v_time (map (fun k => nth k obs dv) rough)) as [|t0 ts] eqn:ET; [discriminate|]. rewrite <- ET in H. clear ET t0 ts.
    rewrite M in H. cbn [bind] in H.
    destruct (String.eqb (lower (s_type s)) "basic" || String.eqb (lower (s_type s)) "full"); [|discriminate]. cbn [bind] in H.
    rewrite in_fov_eq in H. rewrite !map_map, combine_map2 in H.
    destruct (to_int int_of (fst obj)) as [id|] eqn:EI; cbn [bind] in H; [|discriminate].
    destruct (String.eqb (lower (s_type s)) "full"); [discriminate|].
    rewrite pick in H. cbn [bind] in H.
    pose proof (pick (fun k : nat => k) (fun k => (place_of (ephem i m (v_time (nth k obs dv))), nth k obs dv)) (fun q => fov s (fst q) (snd q)) rough) as P.
    rewrite map_id in P. rewrite P in H. cbn [bind] in H. injection H as <- <-.
    split; [right; reflexivity|]. exists id. split; [left; reflexivity|]. cbn [fst snd].
    rewrite combine_map2, !map_map. reflexivity.
  Qed.

  Definition keep (rb : nat -> nat -> bool) (s : settings) (m : string) (obs : list visit) (i k : nat) : bool :=
    rb i k && fov s (place_of (ephem i m (v_time (nth k obs dv)))) (nth k obs dv).
  Definition pairs (rb : nat -> nat -> bool) (s : settings) (m : string) (obs : list visit) (a n : nat) : list (nat * nat) :=
    flat_map (fun i => map (pair i) (filter (keep rb s m obs i) (seq 0 (length obs)))) (seq a n).
  Definition found (m : string) (obs : list visit) (all : list (cell * string)) (p : nat * nat) (q : Z * string * eph * nat) : Prop :=
    exists o id, nth_error all (fst p) = Some o /\ to_int int_of (fst o) = Ok id /\
      q = (id, to_u40 (snd o), ephem (fst p) m (v_time (nth (snd p) obs dv)), snd p).
  Lemma loop_ok : forall rough rb s0 m obs all,
    dynamics (s_mode s0) = Ok m -> (forall i ks, rough i = Ok ks -> ks = filter (rb i) (seq 0 (length obs))) ->
    forall objs i s l s', alike s0 s -> (forall j, nth_error objs j = nth_error all (i + j)) ->
    loop sep camera ephem int_of rough s obs i objs = Ok (l, s') ->
    alike s0 s' /\ Forall2 (found m obs all) (pairs rb s0 m obs i (length objs)) l.
  Proof.
    intros rough rb s0 m obs all M HR objs. induction objs as [|o objs IH]; intros i s l s' A N H; cbn [loop] in H.
    - injection H as <- <-. split; [assumption | constructor].
    - destruct (rough i) as [ks|] eqn:EK; cbn [bind] in H; [|discriminate]. apply HR in EK. subst ks.
      destruct (precise sep camera ephem int_of s obs i o (filter (rb i) (seq 0 (length obs)))) as [[lp sp]|] eqn:EP; cbn [bind] in H; [|discriminate].
      cbn [fst snd] in H.
      destruct (loop sep camera ephem int_of rough sp obs (S i) objs) as [[lq sq]|] eqn:EL; cbn [bind] in H; [|discriminate].
      cbn [fst snd] in H. injection H as <- <-.
      apply (precise_ok s obs i o (rb i) m) in EP. 2: { destruct A as [-> | ->]; [|rewrite settled_mode]; assumption. }
      destruct EP as [S' [id [EI ->]]].
      assert (A' : alike s0 sp) by (destruct S' as [-> | ->]; [assumption | apply alike_settled; assumption]).
      apply IH in EL; [|assumption|].
      2: { intro j. specialize (N (S j)). cbn [nth_error] in N. rewrite N. f_equal. lia. }
      destruct EL as [B F]. split; [assumption|]. cbn [length]. unfold pairs. cbn [seq flat_map]. apply Forall2_app; [|exact F].
      assert (EF : forall k, (rb i k && fov s (place_of (ephem i m (v_time (nth k obs dv)))) (nth k obs dv))%bool = keep rb s0 m obs i k).
      { intro k. unfold keep. destruct A as [-> | ->]; [|rewrite settled_fov]; reflexivity. }
      rewrite (filter_ext _ _ EF) in EI |- *.
      destruct (filter (keep rb s0 m obs i) (seq 0 (length obs))) as [|k0 ks] eqn:EK; [constructor|]. rewrite <- EK.
      destruct EI as [EI | EI]; [|discriminate].
      specialize (N 0%nat). rewrite Nat.add_0_r in N. cbn [nth_error] in N.
      clear -EI N. induction (filter (keep rb s0 m obs i) (seq 0 (length obs))) as [|k ks IH]; cbn [map]; constructor; [|assumption].
      exists o, id. cbn [fst snd]. split; [symmetry; assumption|]. split; [assumption | reflexivity].
  Qed.

  Lemma pairs_in : forall rb s m obs n a i k,
    In (i, k) (pairs rb s m obs a n) <-> (a <= i < a + n)%nat /\ (k < length obs)%nat /\ keep rb s m obs i k = true.
  Proof.
    intros rb s m obs n a i k. unfold pairs. rewrite in_flat_map. split.
    - intros [j [J I]]. apply in_seq in J. apply in_map_iff in I. destruct I as [k' [E I]]. injection E as -> ->.
      apply filter_In in I. destruct I as [I K]. apply in_seq in I. repeat split; try lia. assumption.
    - intros [I [K T]]. exists i. split; [apply in_seq; lia|]. apply in_map. apply filter_In. split; [apply in_seq; lia | assumption].
  Qed.
  Lemma pairs_sorted : forall rb s m obs n a, StronglySorted before (pairs rb s m obs a n).
  Proof.
    intros rb s m obs n. induction n as [|n IH]; intro a; [constructor|]. unfold pairs. cbn [seq flat_map].
    fold (pairs rb s m obs (S a) n).
    assert (SS : StronglySorted lt (filter (keep rb s m obs a) (seq 0 (length obs)))) by (apply filter_sorted, seq_sorted).
    assert (T : Forall (fun p => (a < fst p)%nat) (pairs rb s m obs (S a) n)).
    { apply Forall_forall. intros [i k] I. apply pairs_in in I. cbn. lia. }
    induction SS as [|k ks SS IHk F]; [apply IH|]. cbn [map app]. constructor; [assumption|].
    apply Forall_app. split.
    - apply Forall_forall. intros p I. apply in_map_iff in I. destruct I as [k' [<- I]]. right. cbn. split; [reflexivity|].
      rewrite Forall_forall in F. apply F. assumption.
    - apply Forall_forall. intros p I. rewrite Forall_forall in T. left. cbn. apply T. assumption.
  Qed.

  Lemma to_u40_short : forall t, (String.length t <= 40)%nat -> to_u40 t = t.
  Proof.
    unfold to_u40. generalize 40%nat. intros n t. revert n. induction t as [|a t IH]; intros n H.
    - destruct n; reflexivity.
    - destruct n as [|n]; cbn [String.length] in H; [lia|]. cbn [first_chars]. f_equal. apply IH. lia.
  Qed.
  Lemma int_part_IZR : forall z, Int_part (IZR z) = z.
  Proof.
    intro z. unfold Int_part. rewrite <- (tech_up (IZR z) (z + 1)).
    - lia.
    - rewrite plus_IZR. lra.
    - rewrite plus_IZR. lra.
  Qed.
  Lemma to_int_Z : forall z, to_int int_of (Num (IZR z)) = Ok z.
  Proof.
    intro z. cbn [to_int]. destruct (Rle_dec 0 (IZR z)); f_equal; [apply int_part_IZR|].
    rewrite <- opp_IZR, int_part_IZR. lia.
  Qed.

  (** everything run says, for a rough selection [rb] *)
  Lemma run_rows : forall s m obs objs rough rb l s',
    dynamics (s_mode s) = Ok m -> (forall i ks, rough i = Ok ks -> ks = filter (rb i) (seq 0 (length obs))) ->
    (do p <- loop sep camera ephem int_of rough s obs 0 objs; do rows <- all_ok (map (add_info color obs) (fst p)); Ok (rows, snd p)) = Ok (l, s') ->
    alike s s' /\
    rows_for (fun i k => (i < length objs)%nat /\ (k < length obs)%nat /\ keep rb s m obs i k = true) (right_row ephem color m obs objs) l.
  Proof.
    intros s m obs objs rough rb l s' M HR H.
    destruct (loop sep camera ephem int_of rough s obs 0 objs) as [[q sq]|] eqn:EL; cbn [bind fst snd] in H; [|discriminate].
    destruct (all_ok (map (add_info color obs) q)) as [rows|] eqn:EA; cbn [bind] in H; [|discriminate]. injection H as <- <-.
    apply (loop_ok rough rb s m obs objs M HR objs 0 s) in EL; [|left; reflexivity | reflexivity].
    destruct EL as [A F]. split; [assumption|].
    exists (pairs rb s m obs 0 (length objs)). split; [apply pairs_sorted|]. split.
    2: { intros i k. rewrite pairs_in. split; intros [I K]; (split; [lia|exact K]). }
    apply all_ok_forall2 in EA.
    assert (PV : forall p, In p (pairs rb s m obs 0 (length objs)) -> (snd p < length obs)%nat).
    { intros [i k] I. apply pairs_in in I. cbn. lia. }
    revert PV. generalize (pairs rb s m obs 0 (length objs)) F. clear F A.
    revert rows EA. induction q as [|x q IH]; intros rows EA ps F PV.
    { inversion EA. inversion F. constructor. }
    inversion EA as [|x' y' l' r' H4 EA']. inversion F as [|x0 y0 l0 r0 H2 F']. subst. clear EA F.
    constructor; [|apply IH; [assumption | assumption | intros p I; apply PV; right; assumption]].
    destruct H2 as [o [id [EO [EI EX]]]]. clear IH EA' F'.
    specialize (PV x0 (or_introl eq_refl)). destruct x0 as [i k]. cbn [fst snd] in *. destruct o as [c sed]. cbn [fst snd] in *.
    subst x. unfold add_info in H4. unfold arr_get in H4. rewrite (nth_error_nth' obs dv) in H4 by assumption. cbn [bind] in H4.
    destruct (color (to_u40 sed) (v_band (nth k obs dv))) as [cl|] eqn:EC; cbn [bind] in H4; [|discriminate]. injection H4 as <-.
    exists (nth k obs dv), c, sed. split; [apply nth_error_nth'; assumption|]. split; [assumption|].
    cbn. repeat split.
    - intros z ->. rewrite to_int_Z in EI. injection EI as <-. reflexivity.
    - apply to_u40_short.
    - apply to_u40_short.
    - assumption.
    - apply trail_is_loss.
    - apply detect_is_loss.
  Qed.
End Run.
