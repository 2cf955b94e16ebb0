(** C377: settings of bundles in one plot agree. *)
From Coq Require Import Ascii String Permutation Lia.
From Verif Require Import Base Maps_Model Handler_Model Handler_Spec Handler_Proofs Handler_Proofs2 Handler_Props.
Import List. Import ListNotations.
Open Scope string_scope.

Definition Limits : list string := ["xlim"; "ylim"; "color_min"; "color_max"].
Definition Scalar (v : val) : Prop := match v with VStr _ | VNum _ => True | _ => False end.
(** at most one subplot is asked for *)
Definition OneSubplot (ds : list dict) : Prop := forall d e v w, In d ds -> In e ds -> get d "subplot" = Some v -> get e "subplot" = Some w -> v = w.

Lemma one_subplot : forall t bs pre ds, length pre = length bs -> check_dicts t bs pre = Ok ds -> OneSubplot ds -> check_keys t keys2_check [] pre = Ok ds.
Proof.
  intros t bs pre ds L E O. unfold check_dicts in E. rewrite L, Nat.eqb_refl in E. cbn [negb] in E. destruct (Nat.leb_spec (length (nodup val_dec (values_of "subplot" pre))) 1) as [H|H]; [exact E|].
  exfalso. injection E as <-. destruct (nodup val_dec (values_of "subplot" pre)) as [|v [|w l]] eqn:Q; cbn in H; try lia.
  assert (D : v <> w). { pose proof (NoDup_nodup val_dec (values_of "subplot" pre)) as N. rewrite Q in N. inversion N; subst. intros ->. apply H2. now left. }
  assert (Iv : In v (values_of "subplot" pre)) by (apply (nodup_In val_dec); rewrite Q; now left).
  assert (Iw : In w (values_of "subplot" pre)) by (apply (nodup_In val_dec); rewrite Q; right; now left).
  apply values_in in Iv, Iw. destruct Iv as (d & Id & Gd), Iw as (e & Ie & Ge). apply D. now apply (O d e).
Qed.
Lemma too_many_false : forall ds k, too_many ds k = false -> forall x y, In x (values_of k ds) -> In y (values_of k ds) -> x = y.
Proof.
  intros ds k T. unfold too_many in T. destruct (unique_len (values_of k ds)) as [n|] eqn:E; [|discriminate]. apply Nat.ltb_ge in T. exact (unique_one _ _ E T).
Qed.
Lemma scalars_one : forall l v, Scalar v -> (forall x, In x l -> x = v) -> exists n, unique_len l = Ok n /\ n <= 1.
Proof.
  intros l v Sv H. destruct l as [|a t]; [exists 0; split; [reflexivity | lia]|].
  assert (P : forallb is_pair (a :: t) = false) by (cbn; rewrite (H a) by (now left); destruct v; easy).
  assert (Q : existsb is_pair (a :: t) = false). { apply not_true_iff_false. rewrite existsb_exists. intros (x & I & X). rewrite (H x I) in X. destruct v; easy. }
  assert (R : existsb is_none (a :: t) = false). { apply not_true_iff_false. rewrite existsb_exists. intros (x & I & X). rewrite (H x I) in X. destruct v; easy. }
  exists (length (nodup val_dec (a :: t))). split.
  - unfold unique_len. rewrite P, Q, R. destruct a, t; try reflexivity; exfalso; rewrite (H VNone) in * by (now left); destruct v; (easy || (specialize (H VNone (or_introl eq_refl)); now subst)).
  - destruct (nodup val_dec (a :: t)) as [|x [|y r]] eqn:N; cbn; try lia. exfalso.
    pose proof (NoDup_nodup val_dec (a :: t)) as D. rewrite N in D. inversion D; subst. apply H2. left.
    assert (In x (a :: t)) by (apply (nodup_In val_dec); rewrite N; now left). assert (In y (a :: t)) by (apply (nodup_In val_dec); rewrite N; right; now left).
    now rewrite (H x), (H y).
Qed.
Lemma pairs_many : forall l a b, a <> b -> (forall x, In x l -> exists p q, x = VPair p q) -> In (VPair a b) l -> exists n, unique_len l = Ok n /\ 1 < n.
Proof.
  intros l a b N H I. destruct l as [|x t]; [easy|].
  assert (P : forallb is_pair (x :: t) = true). { apply forallb_forall. intros y Iy. now destruct (H y Iy) as (p & q & ->). }
  eexists. split.
  - unfold unique_len. rewrite P. destruct (H x (or_introl eq_refl)) as (p & q & ->). destruct t; reflexivity.
  - set (fl := flat_map _ (x :: t)).
    assert (Ia : In a (nodup Z.eq_dec fl)) by (apply nodup_In, in_flat_map; exists (VPair a b); split; [exact I | now left]).
    assert (Ib : In b (nodup Z.eq_dec fl)) by (apply nodup_In, in_flat_map; exists (VPair a b); split; [exact I | right; now left]).
    destruct (nodup Z.eq_dec fl) as [|y [|z r]]; cbn in *; [easy | intuition congruence | lia].
Qed.

(** After the dictionaries are set, if there is at most one subplot, the limits and titles that are set are the same for all bundles.  A setting
    that is a number or a text and the same for all bundles that have it is kept.  If two bundles have different limits, all have None.  *)
Theorem C377_agree_partial : forall iter random bs pf, exists auto, forall before g ds, WellFormed bs before g pf ->
  set_plot_dicts iter random bs before g pf false = Ok ds -> OneSubplot ds ->
  (forall d e k v w, In d ds -> In e ds -> In k ("title" :: Limits) -> get d k = Some v -> get e k = Some w -> v = w) /\
  (forall k v, In k ("title" :: Limits) -> Scalar v -> (forall i, i < length bs -> Resolved auto bs before g pf i k (Some v) \/ Resolved auto bs before g pf i k None) ->
     forall i d, nth_error ds i = Some d -> Resolved auto bs before g pf i k (get d k)) /\
  (forall k i j v w, In k Limits -> Resolved auto bs before g pf i k (Some v) -> Resolved auto bs before g pf j k (Some w) -> v <> w -> i < length bs -> j < length bs ->
     forall d, In d ds -> get d k = Some VNone) /\
  (forall i v w j, Resolved auto bs before g pf i "title" (Some v) -> Resolved auto bs before g pf j "title" (Some w) -> v <> w -> i < length bs -> j < length bs ->
     exists t, title iter bs = Ok t /\ forall d, In d ds -> get d "title" = Some (VStr t)).
Proof.
  intros iter random bs pf. exists (autos iter random bs pf). intros before g ds W E O.
  destruct (set_resolves _ _ _ _ _ _ _ W E) as (pre & t & Et & L & C & R). pose proof (one_subplot _ _ _ _ L C O) as K.
  assert (Fu : forall i k o o', Resolved (autos iter random bs pf) bs before g pf i k o -> Resolved (autos iter random bs pf) bs before g pf i k o' -> o = o').
  { intros i k o o' (b & d & Eb & Ed & F1 & F2) (b' & d' & Eb' & Ed' & F1' & F2'). rewrite Eb in Eb'. rewrite Ed in Ed'. injection Eb' as <-. injection Ed' as <-.
    assert (U : forall l (p q : option val), FirstOf l p -> FirstOf l q -> p = q).
    { induction l as [|x l IH]; intros p q A B; inversion A; inversion B; subst; try congruence. now apply IH. }
    assert (D : IsLabel pf k \/ ~ IsLabel pf k).
    { unfold IsLabel. destruct pf; [|right; now intros [Q _]]. destruct (string_dec k "xlabel"); [left; split; [easy | auto]|]. destruct (string_dec k "ylabel"); [left; split; [easy | auto]|]. right. intros [_ [Q|Q]]; contradiction. }
    destruct D as [D|D]; eapply U; eauto. }
  assert (Ln : length ds = length pre).
  { apply check_spec in K. destruct K as [_ ->]. rewrite reset_len. destruct (too_many _ _); [apply map_length | reflexivity]. }
  assert (N : forall d, In d ds -> exists i e, nth_error ds i = Some d /\ nth_error pre i = Some e /\
     (forall k, In k Limits -> get d k = if too_many pre k then Some VNone else get e k) /\ get d "title" = if too_many pre "title" then Some (VStr t) else get e "title").
  { intros d I. apply In_nth_error in I. destruct I as [i Hi]. destruct (nth_error pre i) as [e|] eqn:He.
    - destruct (check_nth _ _ _ _ _ K He) as (d' & Hd' & _ & A & B). rewrite Hi in Hd'. injection Hd' as <-. exists i, e. auto.
    - apply nth_error_None in He. assert (nth_error ds i <> None) by congruence. apply nth_error_Some in H. lia. }
  assert (Val : forall i k v, i < length bs -> Resolved (autos iter random bs pf) bs before g pf i k (Some v) -> In v (values_of k pre)).
  { intros i k v Li Rv. destruct (nth_error pre i) as [e|] eqn:He; [|apply nth_error_None in He; lia].
    apply values_in. exists e. split; [now apply nth_error_In in He | exact (Fu _ _ _ _ (R i e He k) Rv)]. }
  split; [|split; [|split]].
  - intros d e k v w Id Ie Ik Gd Ge. destruct (N d Id) as (i & d1 & Hi & Hd1 & A1 & B1). destruct (N e Ie) as (j & e1 & Hj & He1 & A2 & B2).
    destruct Ik as [<- | Ik]; [rewrite B1 in Gd; rewrite B2 in Ge | rewrite (A1 k Ik) in Gd; rewrite (A2 k Ik) in Ge].
    + destruct (too_many pre "title") eqn:T; [congruence|]. apply (too_many_false _ _ T); apply values_in; [exists d1 | exists e1]; split; eauto using nth_error_In.
    + destruct (too_many pre k) eqn:T; [congruence|]. apply (too_many_false _ _ T); apply values_in; [exists d1 | exists e1]; split; eauto using nth_error_In.
  - intros k v Ik Sv All i d Hi. destruct (N d (nth_error_In _ _ Hi)) as (j & e & Hj & He & A & B).
    assert (i = j \/ True) by auto. clear H.
    destruct (nth_error pre i) as [e'|] eqn:He'; [|apply nth_error_None in He'; assert (nth_error ds i <> None) by congruence; apply nth_error_Some in H; lia].
    destruct (check_nth _ _ _ _ _ K He') as (d' & Hd' & _ & A' & B'). rewrite Hi in Hd'. injection Hd' as <-.
    assert (T : too_many pre k = false).
    { assert (V : forall x, In x (values_of k pre) -> x = v).
      { intros x Ix. apply values_in in Ix. destruct Ix as (y & Iy & Gy). apply In_nth_error in Iy. destruct Iy as [m Hm]. pose proof (R m y Hm k) as Rm. rewrite Gy in Rm.
        assert (Lm : m < length bs) by (rewrite <- L; apply nth_error_Some; congruence). destruct (All m Lm) as [Q|Q]; pose proof (Fu _ _ _ _ Rm Q); congruence. }
      destruct (scalars_one _ _ Sv V) as (n & U & Ln1). unfold too_many. rewrite U. now apply Nat.ltb_ge. }
    destruct Ik as [<- | Ik]; [rewrite B' | rewrite (A' k Ik)]; rewrite T; now apply R.
  - intros k i j v w Ik Ri Rj D Li Lj d Id. destruct (N d Id) as (m & e & Hm & He & A & _). rewrite (A k Ik). destruct (too_many pre k) eqn:T; [reflexivity|].
    exfalso. apply D. exact (too_many_false _ _ T _ _ (Val _ _ _ Li Ri) (Val _ _ _ Lj Rj)).
  - intros i v w j Ri Rj D Li Lj. exists t. split; [exact Et|]. intros d Id. destruct (N d Id) as (m & e & Hm & He & _ & B). rewrite B. destruct (too_many pre "title") eqn:T; [reflexivity|].
    exfalso. apply D. exact (too_many_false _ _ T _ _ (Val _ _ _ Li Ri) (Val _ _ _ Lj Rj)).
Qed.
Print Assumptions C377_agree_partial.
Definition two : list bundle := [demo "a_u" "a" "i" "m"; demo "b_g" "b" "i" "m"].
Definition rnd (n : nat) : val := VNum (Z.of_nat n).
Example C377_case : exists d e, set_plot_dicts (fun l => l) rnd two [[]; []] (Many [[("color_min", VNum 1)]; [("color_min", VNum 1); ("title", VStr "x")]]) None false = Ok [d; e] /\
  OneSubplot [d; e] /\ get d "color_min" = Some (VNum 1) /\ get d "title" = Some (VStr " i: m") /\ get e "title" = Some (VStr " i: m").
Proof. eexists; eexists. split; [vm_compute; reflexivity|]. split; [intros d e v w [<- | [<- | []]] [<- | [<- | []]]; vm_compute; congruence | now repeat split]. Qed.
(** The limits of an axis are a pair.  Even of a single bundle they are not kept, unless the two are equal. *)
Theorem C377_pair_refuted : forall iter random b pf, exists auto, forall before g ds k x y, WellFormed [b] before g pf ->
  set_plot_dicts iter random [b] before g pf false = Ok ds -> In k Limits -> Resolved auto [b] before g pf 0 k (Some (VPair x y)) -> x <> y ->
  exists d, ds = [d] /\ get d k = Some VNone.
Proof.
  intros iter random b pf. exists (autos iter random [b] pf). intros before g ds k x y W E Ik Rk N.
  destruct (set_resolves _ _ _ _ _ _ _ W E) as (pre & t & Et & L & C & R). destruct pre as [|e [|? ?]]; try discriminate.
  assert (K : check_keys (VStr t) keys2_check [] [e] = Ok ds).
  { unfold check_dicts in C. cbn [length Nat.eqb negb] in C. destruct (Nat.leb_spec (length (nodup val_dec (values_of "subplot" [e]))) 1) as [|H]; [exact C|].
    exfalso. unfold values_of in H. cbn [some_all] in H. destruct (get e "subplot"); cbn in H; lia. }
  destruct (check_nth _ _ _ 0 e K eq_refl) as (d & Hd & _ & A & _). exists d. split.
  - apply check_spec in K. destruct K as [_ K]. assert (length ds = 1) as L1 by (rewrite K, reset_len; destruct (too_many _ _); reflexivity).
    destruct ds as [|d' [|? ?]]; try discriminate. cbn in Hd. congruence.
  - rewrite (A k Ik). replace (too_many [e] k) with true; [reflexivity|]. symmetry.
    assert (G : get e k = Some (VPair x y)).
    { pose proof (R 0 e eq_refl k) as R0. destruct R0 as (b0 & d0 & Eb & Ed & F1 & F2), Rk as (b1 & d1 & Eb1 & Ed1 & G1 & G2).
      rewrite Eb in Eb1. rewrite Ed in Ed1. injection Eb1 as <-. injection Ed1 as <-.
      assert (NL : ~ IsLabel pf k) by (intros [_ [->| ->]]; cbn in Ik; intuition discriminate).
      assert (U : forall l (p q : option val), FirstOf l p -> FirstOf l q -> p = q).
      { induction l as [|z l IH]; intros p q A' B'; inversion A'; inversion B'; subst; try congruence. now apply IH. }
      eapply U; eauto. }
    unfold too_many, values_of. cbn [some_all]. rewrite G.
    destruct (pairs_many [VPair x y] x y N) as (n & -> & Ln); [intros z [<- | []]; eauto | now left | now apply Nat.ltb_lt].
Qed.
Print Assumptions C377_pair_refuted.
Example C377_pair_case : exists d, set_plot_dicts (fun l => l) rnd [demo "a" "a" "i" "m"] [[]] (Single [("xlim", VPair 0 20)]) None false = Ok [d] /\ get d "xlim" = Some VNone.
Proof. eexists. split; vm_compute; reflexivity. Qed.
(** Limits of the colours that differ are not replaced by the widest, as the code means to, but lost. *)
Theorem C377_colour_refuted : exists bs ds d e, set_plot_dicts (fun l => l) rnd bs [[]; []] (Many [[("color_min", VNum 1); ("color_max", VNum 5)]; [("color_min", VNum 2); ("color_max", VNum 7)]]) None false = Ok ds /\
  ds = [d; e] /\ get d "color_min" = Some VNone /\ get e "color_max" = Some VNone.
Proof. exists two. eexists. eexists. eexists. split; [vm_compute; reflexivity|]. now repeat split. Qed.
Print Assumptions C377_colour_refuted.
(** After this the handler cannot be used for another plot without giving the limits again. *)
Theorem C377_again_refuted : forall iter random bs ds k b0 b1 rest, bs = b0 :: b1 :: rest -> In k Limits -> length ds = length bs ->
  WellFormed bs ds Nothing None -> (forall d, In d ds -> get d k = Some VNone) -> (forall b, In b bs -> get (b_dict b) k = None) ->
  (forall d, In d ds -> get d "subplot" = None) -> (forall b, In b bs -> get (b_dict b) "subplot" = None) ->
  forall ds', set_plot_dicts iter random bs ds Nothing None false <> Ok ds'.
Proof.
  intros iter random bs ds k b0 b1 rest Eb Ik L W D B S T ds' E. destruct (set_resolves _ _ _ _ _ _ _ W E) as (pre & t & Et & Lp & C & R).
  assert (NL : forall k, ~ IsLabel None k) by (intros k' [Q _]; now apply Q).
  assert (G : forall e, In e pre -> get e k = Some VNone /\ get e "subplot" = None).
  { intros e Ie. apply In_nth_error in Ie. destruct Ie as [i Hi]. split.
    - destruct (R i e Hi k) as (b & d & Hb & Hd & F & _). specialize (F (NL k)). rewrite (B b), (D d) in F by eauto using nth_error_In. cbn in F.
      inversion F as [| |l o F1]; subst. inversion F1 as [| |l o F2]; subst. inversion F2 as [| |l o F3]; subst. now inversion F3.
    - destruct (R i e Hi "subplot") as (b & d & Hb & Hd & F & _). specialize (F (NL _)). rewrite (T b), (S d) in F by eauto using nth_error_In. cbn in F.
      inversion F as [| |l o F1]; subst. inversion F1 as [| |l o F2]; subst. inversion F2 as [| |l o F3]; subst. inversion F3 as [| |l o F4]; subst. inversion F4 as [| |l o F5]; subst. now inversion F5. }
  assert (K : check_keys (VStr t) keys2_check [] pre = Ok ds').
  { unfold check_dicts in C. rewrite Lp, Nat.eqb_refl in C. cbn [negb] in C. replace (values_of "subplot" pre) with (@nil val) in C; [exact C|].
    destruct (values_of "subplot" pre) as [|v l] eqn:V; [reflexivity|]. assert (I : In v (values_of "subplot" pre)) by (rewrite V; now left).
    apply values_in in I. destruct I as (e & Ie & Ge). destruct (G e Ie). congruence. }
  apply check_spec in K. destruct K as [K _]. destruct (K k) as [n U]; [cbn in Ik |- *; tauto|].
  subst bs. destruct pre as [|e0 [|e1 pre]]; try discriminate. unfold values_of in U. cbn [some_all] in U.
  destruct (G e0 (or_introl eq_refl)) as [Q0 _]. destruct (G e1 (or_intror (or_introl eq_refl))) as [Q1 _]. rewrite Q0, Q1 in U.
  unfold unique_len in U. cbn [forallb is_pair andb] in U. destruct (existsb is_pair _); [discriminate|]. cbn [existsb is_none orb] in U. discriminate.
Qed.
Print Assumptions C377_again_refuted.
Example C377_again_case : exists ds, set_plot_dicts (fun l => l) rnd two [[]; []] (Many [[("color_min", VNum 1)]; [("color_min", VNum 2)]]) None false = Ok ds /\
  (forall d, In d ds -> get d "color_min" = Some VNone) /\ set_plot_dicts (fun l => l) rnd two ds Nothing None false = Err TypeError.
Proof. eexists. split; [vm_compute; reflexivity|]. split; [intros d [<- | [<- | []]]; reflexivity | vm_compute; reflexivity]. Qed.
