(** Proofs about segments, continued: looking up. *)
From Verif Require Import Base ChebySeg_Model ChebySeg_Spec ChebySeg_Proofs.
From Coq Require Import Lia.
Open Scope Z_scope.

Lemma fold_min_spec l : forall d, (forall x, In x (d :: l) -> fold_min l d <= x) /\ In (fold_min l d) (d :: l).
Proof.
  unfold fold_min. induction l as [|y l IH]; intros d; cbn [fold_left].
  - split; [intros x [->|[]]; lia|left; reflexivity].
  - destruct (IH (Z.min d y)) as [A B]. split.
    + intros x [->|[->|H]]; [specialize (A _ (or_introl eq_refl)); lia|specialize (A _ (or_introl eq_refl)); lia|apply A; right; exact H].
    + destruct B as [B|B]; [|right; right; exact B]. destruct (Z.min_spec d y) as [[_ E]|[_ E]]; [left|right; left]; rewrite <- B; symmetry; exact E.
Qed.
Lemma fold_max_spec l : forall d, (forall x, In x (d :: l) -> x <= fold_max l d) /\ In (fold_max l d) (d :: l).
Proof.
  unfold fold_max. induction l as [|y l IH]; intros d; cbn [fold_left].
  - split; [intros x [->|[]]; lia|left; reflexivity].
  - destruct (IH (Z.max d y)) as [A B]. split.
    + intros x [->|[->|H]]; [specialize (A _ (or_introl eq_refl)); lia|specialize (A _ (or_introl eq_refl)); lia|apply A; right; exact H].
    + destruct B as [B|B]; [|right; right; exact B]. destruct (Z.max_spec d y) as [[_ E]|[_ E]]; [right; left|left]; rewrite <- B; symmetry; exact E.
Qed.
Lemma min_is l s a : In s l -> (forall x, In x l -> a <= s_t0 x) -> (exists x, In x l /\ s_t0 x = a) -> fold_min (map s_t0 l) (s_t0 s) = a.
Proof.
  intros H A [x [Hx E]]. destruct (fold_min_spec (map s_t0 l) (s_t0 s)) as [P Q].
  assert (fold_min (map s_t0 l) (s_t0 s) <= a) by (rewrite <- E; apply P; right; apply in_map; exact Hx).
  destruct Q as [Q|Q]; [rewrite <- Q in *; specialize (A _ H); lia|].
  apply in_map_iff in Q as [y [Q Hy]]. specialize (A _ Hy). lia.
Qed.
Lemma max_is l s b : In s l -> (forall x, In x l -> s_t1 x <= b) -> (exists x, In x l /\ s_t1 x = b) -> fold_max (map s_t1 l) (s_t1 s) = b.
Proof.
  intros H A [x [Hx E]]. destruct (fold_max_spec (map s_t1 l) (s_t1 s)) as [P Q].
  assert (b <= fold_max (map s_t1 l) (s_t1 s)) by (rewrite <- E; apply P; right; apply in_map; exact Hx).
  destruct Q as [Q|Q]; [rewrite <- Q in *; specialize (A _ H); lia|].
  apply in_map_iff in Q as [y [Q Hy]]. specialize (A _ Hy). lia.
Qed.
Lemma filter_flat {A} (p : A -> bool) (t : list (Z * list A)) : filter p (flat_map snd t) = flat_map (fun g => filter p (snd g)) t.
Proof. induction t as [|g t IH]; [reflexivity|]. cbn [flat_map]. rewrite filter_app, IH. reflexivity. Qed.
Lemma pick_in tb a b ex t : tb <> [] -> spans tb a b -> covered tb a b t -> (ex = true \/ a <= t <= b) ->
  pick (rows_of tb) ex t = Ok (Some (filter (answers a b t) (rows_of tb))).
Proof.
  intros NE [S1 [S2 S3]] C R. unfold pick.
  destruct S2 as [s0 [I0 E0]]. pose proof S3 as [s1 [I1 E1]].
  assert (AB : a < b) by (specialize (S1 _ I0); lia).
  destruct (Z.ltb_spec t a) as [Lo|Lo]; [|destruct (Z.leb_spec b t) as [Hi|Hi]].
  3:{ assert (EQ : filter (fun s => (s_t0 s <=? t) && (t <? s_t1 s)) (rows_of tb) = filter (answers a b t) (rows_of tb)).
      { apply filter_ext. intros s. unfold answers. replace (b <=? t) with false by (symmetry; apply Z.leb_gt; lia).
        replace (t <? a) with false by (symmetry; apply Z.ltb_ge; lia). reflexivity. }
      rewrite EQ. destruct (filter (answers a b t) (rows_of tb)) eqn:EF; [|reflexivity]. exfalso.
      destruct tb as [|g tb]; [congruence|]. destruct (C g (or_introl eq_refl)) as [s Hs].
      unfold rows_of in EF. cbn [flat_map] in EF. rewrite filter_app, Hs in EF. discriminate. }
  - rewrite filter_none.
    2:{ intros s H. specialize (S1 _ H). apply andb_false_iff. left. apply Z.leb_gt. lia. }
    destruct (rows_of tb) as [|s r] eqn:ER; [destruct I0|]. rewrite <- ER in *.
    rewrite (min_is _ s a), (max_is _ s b); try (rewrite ER; left; reflexivity); try (intros x Hx; specialize (S1 _ Hx); lia); eauto.
    replace (t <? a) with true by (symmetry; apply Z.ltb_lt; lia). cbn [orb]. destruct R as [->|R]; [|lia].
    replace (b <? t) with false by (symmetry; apply Z.ltb_ge; lia). do 2 f_equal. apply filter_ext. intros x. unfold answers.
    replace (b <=? t) with false by (symmetry; apply Z.leb_gt; lia). replace (t <? a) with true by (symmetry; apply Z.ltb_lt; lia). reflexivity.
  - rewrite filter_none.
    2:{ intros s H. specialize (S1 _ H). apply andb_false_iff. right. apply Z.ltb_ge. lia. }
    destruct (rows_of tb) as [|s r] eqn:ER; [destruct I0|]. rewrite <- ER in *.
    rewrite (min_is _ s a), (max_is _ s b); try (rewrite ER; left; reflexivity); try (intros x Hx; specialize (S1 _ Hx); lia); eauto.
    replace (t <? a) with false by (symmetry; apply Z.ltb_ge; lia). cbn [orb].
    assert (EQ : filter (fun s => s_t1 s =? b) (rows_of tb) = filter (answers a b t) (rows_of tb)).
    { apply filter_ext. intros x. unfold answers. replace (b <=? t) with true by (symmetry; apply Z.leb_le; lia). reflexivity. }
    destruct (Z.ltb_spec b t) as [L|G].
    + destruct R as [->|R]; [|lia]. rewrite EQ. reflexivity.
    + replace (b =? t) with true by (symmetry; apply Z.eqb_eq; lia). rewrite EQ. reflexivity.
Qed.
Lemma pick_out tb a b t : spans tb a b -> (t < a \/ b < t) -> pick (rows_of tb) false t = Ok None.
Proof.
  intros [S1 [S2 S3]] R. unfold pick. rewrite filter_none.
  2:{ intros s H. specialize (S1 _ H). apply andb_false_iff. rewrite Z.leb_gt, Z.ltb_ge. lia. }
  pose proof S2 as [s0 [I0 E0]].
  destruct (rows_of tb) as [|s r] eqn:ER; [destruct I0|]. rewrite <- ER in *.
  rewrite (min_is _ s a), (max_is _ s b); try (rewrite ER; left; reflexivity); try (intros x Hx; specialize (S1 _ Hx); lia); eauto.
  replace ((t <? a) || (b <? t)) with true; [reflexivity|]. symmetry. apply orb_true_iff. rewrite !Z.ltb_lt. exact R.
Qed.
Lemma set_nth_app {A} (d : list A) y r x : set_nth (d ++ y :: r) (length d) x = d ++ x :: r.
Proof. induction d as [|z d IH]; [reflexivity|]. cbn [app length set_nth]. rewrite IH. reflexivity. Qed.
Lemma arr_set_app {A} (d : list A) y r x : arr_set (d ++ y :: r) (length d) x = Ok (d ++ x :: r).
Proof.
  unfold arr_set. rewrite app_length. cbn [length].
  replace (Nat.ltb (length d) (length d + S (length r))) with true by (symmetry; apply Nat.ltb_lt; lia). rewrite set_nth_app. reflexivity.
Qed.
Lemma write_all t l : forall di dc ri rc, length di = length dc -> length ri = length l -> length rc = length l ->
  write_rows t (length di) l (di ++ ri) (dc ++ rc) = Ok (di ++ map s_obj l, dc ++ map (fun s => Value s t) l).
Proof.
  induction l as [|s l IH]; intros di dc ri rc HD HI HC.
  - destruct ri; [|discriminate]. destruct rc; [|discriminate]. reflexivity.
  - destruct ri as [|i ri]; [discriminate|]. destruct rc as [|c rc]; [discriminate|]. cbn [write_rows].
    rewrite HD at 1. rewrite arr_set_app. cbn [bind]. rewrite arr_set_app. cbn [bind map].
    replace (di ++ s_obj s :: ri) with ((di ++ [s_obj s]) ++ ri) by (rewrite <- app_assoc; reflexivity).
    replace (dc ++ Value s t :: rc) with ((dc ++ [Value s t]) ++ rc) by (rewrite <- app_assoc; reflexivity).
    replace (S (length di)) with (length (di ++ [s_obj s])) by (rewrite app_length; cbn; lia).
    rewrite IH; [rewrite <- !app_assoc; reflexivity|rewrite !app_length; cbn; lia|cbn in HI; lia|cbn in HC; lia].
Qed.
Lemma answering tb a b t : proper tb -> covered tb a b t ->
  map s_obj (filter (answers a b t) (rows_of tb)) = map fst tb /\
  map (fun s => Value s t) (filter (answers a b t) (rows_of tb)) = map (answer a b t) tb /\
  length (filter (answers a b t) (rows_of tb)) = length tb.
Proof.
  intros [_ P] C. unfold rows_of. rewrite filter_flat. induction tb as [|g tb IH]; [repeat split|].
  cbn [flat_map map length]. destruct (C g (or_introl eq_refl)) as [s Hs].
  destruct IH as [A [B D]]; [intros g' s' H; apply P; right; exact H|intros g' H; apply C; right; exact H|].
  unfold answer at 1. rewrite Hs. cbn [app map length]. rewrite A, B, D. repeat split. f_equal.
  apply (P g s (or_introl eq_refl)). assert (I : In s (filter (answers a b t) (snd g))) by (rewrite Hs; left; reflexivity).
  apply filter_In in I. apply I.
Qed.
Lemma columns_are tb a b ex : tb <> [] -> proper tb -> spans tb a b -> forall times ids,
  (forall t, In t times -> inside a b ex t = true -> covered tb a b t) -> length ids = length tb ->
  columns (rows_of tb) ex times ids = Ok (if existsb (inside a b ex) times then map fst tb else ids, map (column a b ex tb) times).
Proof.
  intros NE P S. induction times as [|t r IH]; intros ids C L; [reflexivity|]. cbn [columns map existsb].
  destruct (inside a b ex t) eqn:EI.
  - pose proof (C t (or_introl eq_refl) EI) as Ct. destruct (answering tb a b t P Ct) as [A [B D]].
    rewrite (pick_in tb a b ex t NE S Ct).
    2:{ unfold inside in EI. apply orb_true_iff in EI as [EI|EI]; [right|left; exact EI].
        apply negb_true_iff, orb_false_iff in EI as [E1 E2]. apply Z.ltb_ge in E1, E2. lia. }
    cbn [bind]. pose proof (write_all t (filter (answers a b t) (rows_of tb)) [] [] ids (repeat Zero (length ids)) eq_refl
      ltac:(rewrite L, D; reflexivity) ltac:(rewrite repeat_length, L, D; reflexivity)) as W.
    cbn [app length] in W. rewrite W. cbn [bind fst snd]. rewrite A, B.
    rewrite IH; [|intros t' H; apply C; right; exact H|apply map_length]. cbn [bind fst snd orb].
    replace (if existsb (inside a b ex) r then map fst tb else map fst tb) with (map fst tb) by (destruct (existsb _ r); reflexivity).
    do 3 f_equal. unfold column. replace (((t <? a) || (b <? t)) && negb ex) with false; [reflexivity|].
    unfold inside in EI. destruct ((t <? a) || (b <? t)), ex; try reflexivity; discriminate EI.
  - assert (O : (t < a \/ b < t) /\ ex = false).
    { unfold inside in EI. apply orb_false_iff in EI as [E1 E2]. apply negb_false_iff, orb_true_iff in E1. rewrite !Z.ltb_lt in E1. auto. }
    destruct O as [O ->]. rewrite (pick_out tb a b t S O). cbn [bind fst snd].
    rewrite IH; [|intros t' H; apply C; right; exact H|exact L]. cbn [bind fst snd orb]. do 3 f_equal.
    unfold column. replace ((t <? a) || (b <? t)) with true; [rewrite L; reflexivity|].
    symmetry. apply orb_true_iff. rewrite !Z.ltb_lt. exact O.
Qed.

(** ** The rows of the objects asked for *)
Lemma mem_In x l : mem x l = true <-> In x l.
Proof. unfold mem. rewrite existsb_exists. split; [intros [y [H E]]; apply Z.eqb_eq in E; subst; exact H|intros H; exists x; split; [exact H|apply Z.eqb_refl]]. Qed.
Lemma rows_asked tb ids : proper tb -> filter (fun s => mem (s_obj s) ids) (rows_of tb) = rows_of (asked ids tb).
Proof.
  intros [_ P]. unfold rows_of, asked. induction tb as [|g tb IH]; [reflexivity|]. cbn [flat_map filter].
  rewrite filter_app, IH by (intros g' s H; apply P; right; exact H).
  change (existsb (Z.eqb (fst g)) ids) with (mem (fst g) ids). destruct (mem (fst g) ids) eqn:E.
  - rewrite filter_all; [reflexivity|]. intros s H. rewrite (P g s (or_introl eq_refl) H). exact E.
  - rewrite filter_none; [reflexivity|]. intros s H. rewrite (P g s (or_introl eq_refl) H). exact E.
Qed.
Lemma NoDup_map_filter {A} (f : A -> Z) p l : NoDup (map f l) -> NoDup (map f (filter p l)).
Proof.
  induction l as [|x l IH]; intros H; [constructor|]. cbn [map] in H. inversion H as [|? ? N D]; subst. cbn [filter].
  destruct (p x); [|apply IH; exact D]. cbn [map]. constructor; [|apply IH; exact D].
  intros I. apply N. apply in_map_iff in I as [y [E I]]. apply filter_In in I. apply in_map_iff. exists y. split; [exact E|apply I].
Qed.
Lemma proper_asked tb ids : proper tb -> proper (asked ids tb).
Proof.
  intros [N P]. split; [apply NoDup_map_filter; exact N|]. intros g s H. apply filter_In in H. apply P. apply H.
Qed.
Lemma asked_length tb ids : proper tb -> NoDup ids -> (forall x, In x ids -> In x (map fst tb)) -> length ids = length (asked ids tb).
Proof.
  intros P D H. rewrite <- (map_length fst (asked ids tb)). apply Nat.le_antisymm; apply NoDup_incl_length.
  - exact D.
  - intros x I. specialize (H x I). apply in_map_iff in H as [g [E G]]. apply in_map_iff. exists g. split; [exact E|].
    apply filter_In. split; [exact G|]. apply existsb_exists. exists x. split; [exact I|]. apply Z.eqb_eq. exact E.
  - apply proper_asked. exact P.
  - intros x I. apply in_map_iff in I as [g [E G]]. apply filter_In in G as [_ G]. apply existsb_exists in G as [y [I E']].
    apply Z.eqb_eq in E'. rewrite <- E, E'. exact I.
Qed.
Lemma get_asked tb ids a b ex times : let sel := asked ids tb in
  proper tb -> NoDup ids -> ids <> [] -> (forall x, In x ids -> In x (map fst tb)) -> spans sel a b ->
  (forall t, In t times -> inside a b ex t = true -> covered sel a b t) ->
  get_ephemerides (rows_of tb) times (Some ids) ex =
  Ok (if existsb (inside a b ex) times then map fst sel else ids, map (column a b ex sel) times).
Proof.
  intros sel P D NE I S C. unfold get_ephemerides. rewrite rows_asked by exact P. fold sel.
  pose proof (asked_length tb ids P D I) as L. fold sel in L.
  assert (NS : sel <> []) by (intros X; rewrite X in L; destruct ids; [congruence|discriminate]).
  rewrite (columns_are sel a b ex NS (proper_asked tb ids P) S times ids C L).
  cbn [bind fst]. set (out := if existsb (inside a b ex) times then map fst sel else ids).
  replace (forallb (fun x => mem x out) out) with true; [reflexivity|]. symmetry. apply forallb_forall. intros x H. apply mem_In. exact H.
Qed.
(** ** All objects *)
Lemma insert_In x y l : In y (insert x l) <-> y = x \/ In y l.
Proof.
  induction l as [|z l IH]; cbn [insert]; [cbn; intuition|]. destruct (x <? z); [cbn; intuition|].
  destruct (Z.eqb_spec x z) as [->|N]; [cbn; intuition|]. cbn [In]. rewrite IH. intuition.
Qed.
Fixpoint sorted_lt (l : list Z) : Prop := match l with [] => True | x :: r => (forall y, In y r -> x < y) /\ sorted_lt r end.
Lemma insert_sorted x l : sorted_lt l -> sorted_lt (insert x l).
Proof.
  induction l as [|z l IH]; cbn [insert]; [cbn; intuition|]. intros [A B].
  destruct (Z.ltb_spec x z) as [L|G]; [cbn; split; [|split; [exact A|exact B]]; intros y [<-|H]; [exact L|specialize (A _ H); lia]|].
  destruct (Z.eqb_spec x z) as [->|N]; [split; [exact A|exact B]|]. cbn [sorted_lt]. split; [|apply IH; exact B].
  intros y H. apply insert_In in H as [->|H]; [lia|apply A; exact H].
Qed.
Lemma unique_spec l : sorted_lt (unique l) /\ forall x, In x (unique l) <-> In x l.
Proof.
  induction l as [|y l [A B]]; [split; [exact I|reflexivity]|]. cbn [unique fold_right]. fold (unique l). split; [apply insert_sorted; exact A|].
  intros x. rewrite insert_In, B. cbn [In]. intuition.
Qed.
Lemma sorted_NoDup l : sorted_lt l -> NoDup l.
Proof. induction l as [|x l IH]; intros H; [constructor|]. destruct H as [A B]. constructor; [|apply IH; exact B]. intros I. specialize (A _ I). lia. Qed.
Lemma unique_length tb : proper tb -> (forall g, In g tb -> snd g <> []) -> length (unique (map s_obj (rows_of tb))) = length tb.
Proof.
  intros [N P] NE. destruct (unique_spec (map s_obj (rows_of tb))) as [A B]. rewrite <- (map_length fst tb).
  apply Nat.le_antisymm; apply NoDup_incl_length.
  - apply sorted_NoDup. exact A.
  - intros x H. apply B in H. apply in_map_iff in H as [s [<- H]]. apply in_flat_map in H as [g [G H]]. rewrite (P g s G H). apply in_map. exact G.
  - exact N.
  - intros x H. apply B. apply in_map_iff in H as [g [<- G]]. specialize (NE g G). destruct (snd g) as [|s r] eqn:E; [congruence|].
    apply in_map_iff. exists s. split; [apply (P g s G); rewrite E; left; reflexivity|]. apply in_flat_map. exists g. split; [exact G|rewrite E; left; reflexivity].
Qed.
Lemma get_all tb a b ex times : tb <> [] -> proper tb -> (forall g, In g tb -> snd g <> []) -> spans tb a b ->
  (forall t, In t times -> inside a b ex t = true -> covered tb a b t) ->
  exists ids, get_ephemerides (rows_of tb) times None ex = Ok (ids, map (column a b ex tb) times) /\
    (existsb (inside a b ex) times = true -> ids = map fst tb) /\ length ids = length tb.
Proof.
  intros NE P NB S C. unfold get_ephemerides. pose proof (unique_length tb P NB) as L.
  rewrite (columns_are tb a b ex NE P S times _ C L). eexists. split; [reflexivity|]. split; [intros ->; reflexivity|].
  destruct (existsb _ times); [apply map_length|exact L].
Qed.
