(** The check of the dictionaries. *)
From Coq Require Import Ascii String Permutation Lia.
From Verif Require Import Base Maps_Model Handler_Model Handler_Spec Handler_Proofs.
Import List. Import ListNotations.
Open Scope string_scope.

Definition reset_all (reset : list string) (ds : list dict) : list dict := fold_left (fun acc k => map (put k VNone) acc) reset ds.
Lemma reset_nth : forall reset ds i d, nth_error ds i = Some d ->
  nth_error (reset_all reset ds) i = Some (fold_left (fun acc k => put k VNone acc) reset d).
Proof.
  unfold reset_all. induction reset as [|k t IH]; intros ds i d E; cbn [fold_left]; [exact E|]. apply IH. now apply map_nth_error.
Qed.
Lemma get_resets : forall reset d k, get (fold_left (fun acc k => put k VNone acc) reset d) k = if in_dec string_dec k reset then Some VNone else get d k.
Proof.
  induction reset as [|r t IH]; intros d k; cbn [fold_left]; [reflexivity|]. rewrite IH, get_put.
  destruct (in_dec string_dec k t) as [I|I], (in_dec string_dec k (r :: t)) as [J|J]; cbn in J; try reflexivity; try tauto;
    destruct (String.eqb_spec k r); subst; try reflexivity; exfalso; intuition congruence.
Qed.
Lemma no_end : forall k, In k keys2_check -> ends_with k "Max" = false /\ ends_with k "Min" = false.
Proof. intros k I. cbn in I. decompose [or] I; subst; try easy; split; reflexivity. Qed.

(* the keys to reset: those with more than one value, but for the title *)
Definition too_many (ds : list dict) (k : string) : bool := match unique_len (values_of k ds) with Ok n => Nat.ltb 1 n | Err _ => true end.
Lemma values_map_put : forall t k ds, k <> "title" -> values_of k (map (put "title" t) ds) = values_of k ds.
Proof.
  intros t k ds N. unfold values_of. induction ds as [|d ds IH]; [reflexivity|]. cbn [map some_all]. rewrite get_put.
  destruct (String.eqb_spec k "title"); [contradiction|]. now rewrite IH.
Qed.
Lemma too_many_title : forall t k ds, k <> "title" -> too_many (map (put "title" t) ds) k = too_many ds k.
Proof. intros. unfold too_many. now rewrite values_map_put. Qed.
Lemma check_gen : forall t keys, (forall k, In k keys -> ends_with k "Max" = false /\ ends_with k "Min" = false) -> NoDup keys -> forall reset ds ds',
  check_keys t keys reset ds = Ok ds' ->
  (forall k, In k keys -> exists n, unique_len (values_of k ds) = Ok n) /\
  ds' = reset_all (reset ++ filter (fun k => too_many ds k && negb (String.eqb k "title")) keys) (if existsb (String.eqb "title") keys && too_many ds "title" then map (put "title" t) ds else ds).
Proof.
  intros t. induction keys as [|k keys IH]; intros Hk D reset ds ds' E.
  - cbn in E. injection E as <-. split; [easy|]. cbn [filter existsb andb]. now rewrite app_nil_r.
  - destruct (Hk k (or_introl eq_refl)) as [H1 H2]. assert (Hr : forall k', In k' keys -> ends_with k' "Max" = false /\ ends_with k' "Min" = false) by (intros; apply Hk; now right).
    inversion D as [|? ? Nk Dk]; subst. cbn [check_keys] in E. destruct (unique_len (values_of k ds)) as [n|] eqn:En; [|discriminate]. cbn [bind] in E. rewrite H1, H2 in E.
    assert (T : too_many ds k = Nat.ltb 1 n) by (unfold too_many; now rewrite En). cbn [filter existsb]. rewrite T, (String.eqb_sym "title" k).
    destruct (Nat.ltb 1 n) eqn:L.
    + destruct (String.eqb_spec k "title") as [->|Nt].
      * cbn [andb negb orb]. rewrite T. destruct (IH Hr Dk _ _ _ E) as [A ->].
        assert (X : forall k', In k' keys -> k' <> "title") by (intros k' I ->; contradiction).
        split; [intros k' [<-|I]; [eauto | destruct (A k' I) as [m Am]; rewrite values_map_put in Am by auto; eauto]|].
        replace (existsb (String.eqb "title") keys) with false by (symmetry; apply not_true_iff_false; rewrite existsb_exists; intros (y & I & Y); apply String.eqb_eq in Y; subst; contradiction).
        cbn [andb]. f_equal. f_equal. apply filter_ext_in. intros k' I. rewrite too_many_title by auto. reflexivity.
      * cbn [andb negb orb]. destruct (IH Hr Dk _ _ _ E) as [A ->]. split; [intros k' [<-|I]; eauto|]. f_equal. now rewrite <- app_assoc.
    + destruct (IH Hr Dk _ _ _ E) as [A ->]. split; [intros k' [<-|I]; eauto|]. cbn [andb]. f_equal. destruct (String.eqb_spec k "title") as [->|Nt]; [|reflexivity].
      cbn [orb andb]. rewrite T. now rewrite andb_false_r.
Qed.
Lemma check_spec : forall t ds ds', check_keys t keys2_check [] ds = Ok ds' ->
  (forall k, In k keys2_check -> exists n, unique_len (values_of k ds) = Ok n) /\
  ds' = reset_all (filter (too_many ds) ["xlim"; "ylim"; "color_min"; "color_max"])
                  (if too_many ds "title" then map (put "title" t) ds else ds).
Proof.
  intros t ds ds' E. apply check_gen in E.
  - destruct E as [A ->]. split; [exact A|]. replace (existsb (String.eqb "title") keys2_check) with true by reflexivity. cbn [andb app]. f_equal.
    unfold keys2_check. cbn [filter].
    replace (String.eqb "xlim" "title") with false by reflexivity. replace (String.eqb "ylim" "title") with false by reflexivity. replace (String.eqb "color_min" "title") with false by reflexivity.
    replace (String.eqb "color_max" "title") with false by reflexivity. replace (String.eqb "title" "title") with true by reflexivity. cbn [negb]. now rewrite !andb_true_r, andb_false_r.
  - exact no_end.
  - unfold keys2_check. repeat constructor; cbn; intuition discriminate.
Qed.
(* one value only *)
Lemma nodup_one : forall {A} (dec : forall x y : A, {x = y} + {x <> y}) l, length (nodup dec l) <= 1 -> forall x y, In x l -> In y l -> x = y.
Proof.
  intros A dec l L x y Ix Iy. apply (nodup_In dec) in Ix, Iy. destruct (nodup dec l) as [|a [|b t]]; cbn in *; [easy | | lia]. destruct Ix, Iy; subst; easy || congruence.
Qed.
Lemma unique_one : forall l n, unique_len l = Ok n -> n <= 1 -> forall x y, In x l -> In y l -> x = y.
Proof.
  intros l n E L x y Ix Iy. destruct l as [|a t]; [easy|].
  assert (D : (a = VNone /\ t = []) \/ unique_len (a :: t) =
     if forallb is_pair (a :: t) then Ok (length (nodup Z.eq_dec (flat_map (fun v => match v with VPair a b => [a; b] | _ => [] end) (a :: t))))
     else if existsb is_pair (a :: t) then Err ValueError else if existsb is_none (a :: t) then Err TypeError else Ok (length (nodup val_dec (a :: t)))).
  { destruct a, t; auto. }
  destruct D as [[-> ->] | D]; [cbn in Ix, Iy; intuition congruence|]. rewrite D in E. clear D.
  destruct (forallb is_pair (a :: t)) eqn:P.
  - injection E as <-. rewrite forallb_forall in P. pose proof (nodup_one _ _ L) as U.
    pose proof (P x Ix) as Px. pose proof (P y Iy) as Py. destruct x as [| | |x1 x2]; try discriminate. destruct y as [| | |y1 y2]; try discriminate.
    assert (K : forall z1 z2 z, In (VPair z1 z2) (a :: t) -> z = z1 \/ z = z2 -> In z (flat_map (fun v => match v with VPair a b => [a; b] | _ => [] end) (a :: t))).
    { intros z1 z2 z I O. apply in_flat_map. eexists; split; [exact I|]. cbn. intuition. }
    f_equal; apply U; eauto.
  - destruct (existsb is_pair _); [discriminate|]. destruct (existsb is_none _); [discriminate|]. injection E as <-. now apply (nodup_one val_dec (a :: t)).
Qed.
Lemma values_in : forall k ds v, In v (values_of k ds) <-> exists d, In d ds /\ get d k = Some v.
Proof.
  intros k ds v. unfold values_of. induction ds as [|d ds IH]; cbn; [split; [easy | now intros (? & [] & _)]|]. destruct (get d k) as [w|] eqn:E; cbn; rewrite ?IH.
  - split.
    + intros [<- | (d' & I & G)]; [exists d; auto | exists d'; auto].
    + intros (d' & [<- | I] & G); [left; congruence | right; eauto].
  - split; [intros (d' & I & G); eauto | intros (d' & [<- | I] & G); [congruence | eauto]].
Qed.
Lemma reset_len : forall reset ds, length (reset_all reset ds) = length ds.
Proof. unfold reset_all. induction reset as [|k t IH]; intro ds; cbn [fold_left]; [reflexivity|]. now rewrite IH, map_length. Qed.
Lemma check_nth : forall t ds ds' i d, check_keys t keys2_check [] ds = Ok ds' -> nth_error ds i = Some d ->
  exists d', nth_error ds' i = Some d' /\
    (forall k, ~ In k keys2_check -> get d' k = get d k) /\
    (forall k, In k ["xlim"; "ylim"; "color_min"; "color_max"] -> get d' k = if too_many ds k then Some VNone else get d k) /\
    (get d' "title" = if too_many ds "title" then Some t else get d "title").
Proof.
  intros t ds ds' i d E Hd. apply check_spec in E. destruct E as [_ ->].
  set (R := filter (too_many ds) _).
  assert (HR : forall k, In k R <-> In k ["xlim"; "ylim"; "color_min"; "color_max"] /\ too_many ds k = true) by (intro k; apply filter_In).
  exists (fold_left (fun acc k => put k VNone acc) R (if too_many ds "title" then put "title" t d else d)). split.
  { apply reset_nth. destruct (too_many ds "title"); [now apply map_nth_error | exact Hd]. }
  assert (T : forall k, k <> "title" -> get (if too_many ds "title" then put "title" t d else d) k = get d k).
  { intros k N. destruct (too_many ds "title"); [|reflexivity]. rewrite get_put. destruct (String.eqb_spec k "title"); [contradiction | reflexivity]. }
  split; [|split].
  - intros k N. rewrite get_resets. destruct (in_dec string_dec k R) as [I|_].
    + apply HR in I. exfalso. apply N. destruct I as [I _]. cbn in I |- *. tauto.
    + apply T. intros ->. apply N. cbn. tauto.
  - intros k I. rewrite get_resets. assert (k <> "title") by (cbn in I; intuition (subst; discriminate)).
    destruct (in_dec string_dec k R) as [J|J]; rewrite HR in J.
    + destruct J as [_ ->]. reflexivity.
    + destruct (too_many ds k); [tauto | now apply T].
  - rewrite get_resets. destruct (in_dec string_dec "title" R) as [J|J]; rewrite ?HR in J.
    + destruct J as [J _]. cbn in J. intuition discriminate.
    + destruct (too_many ds "title"); [|reflexivity]. now rewrite get_put.
Qed.
