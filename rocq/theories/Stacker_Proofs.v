(** Lemmas about the stacker model. *)
From Verif Require Import Base Stacker_Model Stacker_Spec Archive_Proofs.
From Coq Require Import Lia QArith Lqa Reals Lra Permutation Ascii.
Open Scope Z_scope.

(** * Columns *)
Lemma register_cols : forall cols (c : nat) d col k,
  dget String.eqb (fold_left (fun d col => dset String.eqb d col c) cols d) col = Some k ->
  (In col cols /\ k = c) \/ (~ In col cols /\ dget String.eqb d col = Some k).
Proof.
  induction cols as [|x t IH]; intros c d col k H; cbn [fold_left] in H; [right; split; [intros [] | exact H]|].
  destruct (IH _ _ _ _ H) as [[Hi ->]|[Hn Hd]]; [left; split; [right; exact Hi | reflexivity]|].
  rewrite (dget_dset String.eqb String.eqb_eq) in Hd. destruct (String.eqb col x) eqn:E.
  - apply String.eqb_eq in E. subst. injection Hd as <-. left. split; [left; reflexivity | reflexivity].
  - right. split; [|exact Hd]. intros [->|Hi]; [rewrite String.eqb_refl in E; discriminate | exact (Hn Hi)].
Qed.
Lemma register_cols_none : forall cols (c : nat) d col,
  dget String.eqb (fold_left (fun d col => dset String.eqb d col c) cols d) col = None ->
  ~ In col cols /\ dget String.eqb d col = None.
Proof.
  induction cols as [|x t IH]; intros c d col H; cbn [fold_left] in H; [split; [intros [] | exact H]|].
  destruct (IH _ _ _ H) as [Hn Hd]. rewrite (dget_dset String.eqb String.eqb_eq) in Hd.
  destruct (String.eqb col x) eqn:E; [discriminate|]. split; [|exact Hd].
  intros [->|Hi]; [rewrite String.eqb_refl in E; discriminate | exact (Hn Hi)].
Qed.
Lemma firstn_In : forall {A} n (l : list A) x, In x (firstn n l) -> In x l.
Proof. intros A n. induction n; intros [|a l] x H; cbn in *; try contradiction. destruct H; auto. Qed.
Lemma register_all : forall w reg d col k,
  dget String.eqb (fold_left (register_class w) reg d) col = Some k ->
  (In k reg /\ In col (w_added w k)) \/ dget String.eqb d col = Some k.
Proof.
  intros w reg. induction reg as [|c t IH]; intros d col k H; cbn [fold_left] in H; [right; exact H|].
  destruct (IH _ _ _ H) as [[Hi Ha]|Hd]; [left; split; [right|]; assumption|].
  unfold register_class in Hd. destruct (register_cols _ _ _ _ _ Hd) as [[Hi ->]|[_ Hd']].
  - left. split; [left; reflexivity | exact (firstn_In _ _ _ Hi)].
  - right. exact Hd'.
Qed.
Lemma source_made : forall w col k, data_source w col = Some k -> In k (w_reg w) /\ In col (w_added w k).
Proof.
  intros w col k H. destruct (register_all w (w_reg w) [] col k H) as [H'|H']; [exact H' | discriminate].
Qed.
Lemma register_none : forall w reg d col,
  dget String.eqb (fold_left (register_class w) reg d) col = None ->
  forall k, In k reg -> ~ In col (firstn (w_units w k) (w_added w k)).
Proof.
  intros w reg. induction reg as [|c t IH]; intros d col H k Hk; cbn [fold_left] in H; [destruct Hk|].
  destruct Hk as [<-|Hk]; [|exact (IH _ _ H k Hk)]. clear IH. intros Hc.
  assert (forall l d, dget String.eqb (fold_left (register_class w) l d) col = None -> dget String.eqb d col = None) as Hl.
  { induction l as [|a l IHl]; intros d' H'; [exact H'|]. cbn [fold_left] in H'. specialize (IHl _ H').
    unfold register_class in IHl. exact (proj2 (register_cols_none _ _ _ _ IHl)). }
  specialize (Hl _ _ H). unfold register_class in Hl. exact (proj1 (register_cols_none _ _ _ _ Hl) Hc).
Qed.
Lemma source_none : forall w col, data_source w col = None ->
  forall k, In k (w_reg w) -> ~ In col (firstn (w_units w k) (w_added w k)).
Proof. intros w col H. exact (register_none w (w_reg w) [] col H). Qed.

Lemma in_from_db : forall w cols c, In c (from_db w cols) <-> In c cols /\ data_source w c = None.
Proof.
  intros. unfold from_db. rewrite filter_In. destruct (data_source w c); split; intros [? ?]; split; auto; discriminate.
Qed.
Lemma in_source_classes : forall w cols k,
  In k (source_classes w cols) <-> exists c, In c cols /\ data_source w c = Some k.
Proof.
  intros. unfold source_classes. rewrite nodup_In, in_flat_map. split; intros (c & Hc & Hk); exists c; split; auto.
  - destruct (data_source w c); [destruct Hk as [->|[]]; reflexivity | destruct Hk].
  - rewrite Hk. left. reflexivity.
Qed.
Lemma in_not_listed : forall l ks k,
  In k (not_listed l ks) <-> In k ks /\ forall s, In s l -> i_class s <> k.
Proof.
  intros. unfold not_listed. rewrite filter_In, negb_true_iff. split; intros [Hk H]; split; auto.
  - intros s Hs E. assert (existsb (fun s => Nat.eqb (i_class s) k) l = true) as Hx.
    { apply existsb_exists. exists s. split; [exact Hs | apply Nat.eqb_eq; exact E]. }
    rewrite Hx in H. discriminate.
  - destruct (existsb _ l) eqn:E; [|reflexivity]. apply existsb_exists in E. destruct E as (s & Hs & E).
    apply Nat.eqb_eq in E. destruct (H s Hs E).
Qed.

(** how many classes of the registry have no stacker in the list yet *)
Definition missing (w : world) (l : list sinst) : nat := length (not_listed l (nodup Nat.eq_dec (w_reg w))).
Lemma filter_length_lt : forall {A} (p q : A -> bool) l x,
  (forall y, q y = true -> p y = true) -> In x l -> p x = true -> q x = false ->
  (length (filter q l) < length (filter p l))%nat.
Proof.
  intros A p q l x Hqp Hx Hp Hq.
  assert (forall m, (length (filter q m) <= length (filter p m))%nat) as Hle.
  { induction m as [|a m IH]; [apply le_n|]. cbn [filter]. destruct (q a) eqn:Eq; [rewrite (Hqp _ Eq); cbn; lia|].
    destruct (p a); cbn; lia. }
  induction l as [|a l IH]; [destruct Hx|]. cbn [filter]. destruct Hx as [->|Hx].
  - rewrite Hp, Hq. cbn. specialize (Hle l). lia.
  - specialize (IH Hx). destruct (q a) eqn:Eq; [rewrite (Hqp _ Eq); cbn; lia|]. destruct (p a); cbn; lia.
Qed.
Lemma missing_step : forall w l insts k, In k (w_reg w) -> (forall s, In s l -> i_class s <> k) ->
  (exists s, In s insts /\ i_class s = k) -> (missing w (l ++ insts) < missing w l)%nat.
Proof.
  intros w l insts k Hk Hl (s & Hs & Ek). unfold missing, not_listed. apply filter_length_lt with (x := k).
  - intros y. rewrite existsb_app. destruct (existsb _ l); [discriminate | reflexivity].
  - apply nodup_In. exact Hk.
  - apply negb_true_iff. destruct (existsb _ l) eqn:E; [|reflexivity]. apply existsb_exists in E.
    destruct E as (s' & Hs' & E'). apply Nat.eqb_eq in E'. destruct (Hl s' Hs' E').
  - rewrite existsb_app. apply negb_false_iff. apply orb_true_iff. right. apply existsb_exists. exists s.
    split; [exact Hs | apply Nat.eqb_eq; exact Ek].
Qed.

(** the invariant of the loop *)
Definition covered (w : world) (stackers : list sinst) (db : list string) (new : list nat) (col : string) : Prop :=
  In col db \/ exists k, data_source w col = Some k /\ (In k new \/ exists s, In s stackers /\ i_class s = k).

Lemma loop_ends : forall fuel w order l db new,
  (forall m, Permutation (order m) m) -> incl new (w_reg w) -> (forall k, In k new -> forall s, In s l -> i_class s <> k) ->
  (missing w l < fuel)%nat ->
  exists final db', default_loop fuel w order l db new = Some (final, db').
Proof.
  induction fuel as [|f IH]; intros w order l db new Hp Hr Hn Hm; [lia|].
  destruct new as [|k0 new0]; [exists l, db; reflexivity|]. set (new := k0 :: new0) in *. cbn [default_loop].
  change (match new with [] => Some (l, db) | _ => ?x end) with x.
  unfold new at 1. cbv iota. fold new. apply IH; [exact Hp | | |].
  - intros k Hk. apply in_not_listed in Hk. destruct Hk as [Hk _]. apply in_source_classes in Hk.
    destruct Hk as (c & _ & Hc). exact (proj1 (source_made _ _ _ Hc)).
  - intros k Hk. apply in_not_listed in Hk. exact (proj2 Hk).
  - assert (missing w (l ++ map (fun k => {| i_class := k; i_req := w_req w k |}) (order new)) < missing w l)%nat; [|lia].
    apply missing_step with (k := k0).
    + apply Hr. left. reflexivity.
    + apply Hn. left. reflexivity.
    + exists {| i_class := k0; i_req := w_req w k0 |}. split; [|reflexivity]. apply in_map_iff. exists k0. split; [reflexivity|].
      apply Permutation_in with (l := new); [apply Permutation_sym, Hp | left; reflexivity].
Qed.

Lemma loop_step : forall f w order l db k0 new0,
  default_loop (S f) w order l db (k0 :: new0) =
  let insts := map (fun k => {| i_class := k; i_req := w_req w k |}) (order (k0 :: new0)) in
  let l' := l ++ insts in
  let cols := nodup string_dec (flat_map i_req insts) in
  default_loop f w order l' (db ++ from_db w cols) (not_listed l' (source_classes w cols)).
Proof. reflexivity. Qed.

Lemma loop_spec : forall fuel w order l db new final db',
  (forall m, Permutation (order m) m) ->
  default_loop fuel w order l db new = Some (final, db') ->
  (forall s col, In s l -> In col (i_req s) -> covered w l db new col) ->
  (exists ext, final = l ++ ext /\ (forall s, In s ext -> i_req s = w_req w (i_class s) /\ (exists c, data_source w c = Some (i_class s) \/ In (i_class s) new))) /\
  incl db db' /\
  (forall col, covered w l db new col -> covered w final db' [] col) /\
  (forall s col, In s final -> In col (i_req s) -> covered w final db' [] col) /\
  (forall c, In c db' -> In c db \/ (data_source w c = None /\ exists s, In s final /\ In c (i_req s))).
Proof.
  induction fuel as [|f IH]; intros w order l db new final db' Hp H Hl.
  { destruct new; [|discriminate]. injection H as <- <-. split; [exists []; split; [rewrite app_nil_r; reflexivity | intros s []]|].
    split; [intros x Hx; exact Hx|]. split; [auto|]. split; [exact Hl|]. auto. }
  destruct new as [|k0 new0].
  { injection H as <- <-. split; [exists []; split; [rewrite app_nil_r; reflexivity | intros s []]|].
    split; [intros x Hx; exact Hx|]. split; [auto|]. split; [exact Hl|]. auto. }
  rewrite loop_step in H. cbv zeta in H. set (new := k0 :: new0) in *.
  set (insts := map (fun k => {| i_class := k; i_req := w_req w k |}) (order new)) in *.
  set (cols := nodup string_dec (flat_map i_req insts)) in *.
  assert (forall k, In k new -> exists s, In s (l ++ insts) /\ i_class s = k) as Hnew.
  { intros k Hk. exists {| i_class := k; i_req := w_req w k |}. split; [|reflexivity]. apply in_or_app. right.
    apply in_map_iff. exists k. split; [reflexivity|]. apply Permutation_in with (l := new); [apply Permutation_sym, Hp | exact Hk]. }
  assert (forall col, covered w l db new col ->
    covered w (l ++ insts) (db ++ from_db w cols) (not_listed (l ++ insts) (source_classes w cols)) col) as Hmono.
  { intros col [Hd|(k & Hk & Hs)]; [left; apply in_or_app; left; exact Hd|]. right. exists k. split; [exact Hk|]. right.
    destruct Hs as [Hk'|(s & Hs & E)]; [exact (Hnew k Hk')|]. exists s. split; [apply in_or_app; left; exact Hs | exact E]. }
  assert (forall s col, In s (l ++ insts) -> In col (i_req s) ->
    covered w (l ++ insts) (db ++ from_db w cols) (not_listed (l ++ insts) (source_classes w cols)) col) as Hl'.
  { intros s col Hs Hc. apply in_app_or in Hs. destruct Hs as [Hs|Hs]; [apply Hmono; exact (Hl s col Hs Hc)|].
    assert (In col cols) as Hcc. { unfold cols. apply nodup_In. apply in_flat_map. exists s. split; assumption. }
    destruct (data_source w col) as [k|] eqn:E.
    - right. exists k. split; [exact E|].
      destruct (in_dec Nat.eq_dec k (map i_class (l ++ insts))) as [Hi|Hi].
      + right. apply in_map_iff in Hi. destruct Hi as (s' & E' & Hs'). exists s'. split; assumption.
      + left. apply in_not_listed. split; [apply in_source_classes; exists col; split; assumption|].
        intros s' Hs' E'. apply Hi. apply in_map_iff. exists s'. split; assumption.
    - left. apply in_or_app. right. apply in_from_db. split; assumption. }
  destruct (IH w order _ _ _ final db' Hp H Hl') as ((ext & -> & Hext) & Hinc & Hcov & Hreq & Hdb).
  split; [|split; [|split; [|split]]].
  - exists (insts ++ ext). split; [rewrite app_assoc; reflexivity|]. intros s Hs. apply in_app_or in Hs. destruct Hs as [Hs|Hs].
    + apply in_map_iff in Hs. destruct Hs as (k & <- & Hk). split; [reflexivity|]. exists EmptyString. right. change (In k new).
      apply Permutation_in with (l := order new); [apply Hp | exact Hk].
    + destruct (Hext s Hs) as [E (c & Hc)]. split; [exact E|]. destruct Hc as [Hc|Hc]; [exists c; left; exact Hc|].
      apply in_not_listed in Hc. destruct Hc as [Hc _]. apply in_source_classes in Hc. destruct Hc as (c' & _ & Hc').
      exists c'. left. exact Hc'.
  - intros x Hx. apply Hinc. apply in_or_app. left. exact Hx.
  - intros col Hc. apply Hcov. apply Hmono. exact Hc.
  - exact Hreq.
  - intros c Hc. destruct (Hdb c Hc) as [Hc'|Hc']; [|right; exact Hc']. apply in_app_or in Hc'. destruct Hc' as [Hc'|Hc']; [left; exact Hc'|].
    apply in_from_db in Hc'. destruct Hc' as [Hc1 Hc2]. right. split; [exact Hc2|]. unfold cols in Hc1. apply nodup_In in Hc1.
    apply in_flat_map in Hc1. destruct Hc1 as (s & Hs & Hi). exists s. split; [|exact Hi].
    apply in_or_app. left. apply in_or_app. right. exact Hs.
Qed.

(** the result of _find_req_cols *)
Lemma find_req_cols_spec : forall w order sc mc l, (forall m, Permutation (order m) m) ->
  exists ext db, find_req_cols w order sc mc l = Some (l ++ ext, db) /\
  (forall s, In s ext -> i_req s = w_req w (i_class s) /\ exists c, data_source w c = Some (i_class s)) /\
  (forall col, needed sc mc (l ++ ext) col ->
     (data_source w col = None /\ (In col db \/ col = "metricdata"%string \/ col = "None"%string)) \/
     (exists k, data_source w col = Some k /\ exists s, In s (l ++ ext) /\ i_class s = k)) /\
  (forall c, In c db -> data_source w c = None /\ needed sc mc (l ++ ext) c /\ c <> "metricdata"%string /\ c <> "None"%string).
Proof.
  intros w order sc mc l Hp. unfold find_req_cols.
  set (known := nodup string_dec (sc ++ mc ++ flat_map i_req l)).
  set (new := not_listed l (source_classes w known)).
  assert (incl new (w_reg w)) as Hr.
  { intros k Hk. apply in_not_listed in Hk. destruct Hk as [Hk _]. apply in_source_classes in Hk.
    destruct Hk as (c & _ & Hc). exact (proj1 (source_made _ _ _ Hc)). }
  assert (missing w l < S (length (w_reg w)))%nat as Hm.
  { unfold missing, not_listed.
    assert (forall A (p : A -> bool) m, (length (filter p m) <= length m)%nat) as Hf.
    { intros A p m. induction m as [|a m IH]; [apply le_n|]. cbn. destruct (p a); cbn; lia. }
    pose proof (Hf _ (fun k => negb (existsb (fun s => Nat.eqb (i_class s) k) l)) (nodup Nat.eq_dec (w_reg w))).
    assert (length (nodup Nat.eq_dec (w_reg w)) <= length (w_reg w))%nat; [|lia].
    apply NoDup_incl_length; [apply NoDup_nodup|]. intros x Hx. apply nodup_In in Hx. exact Hx. }
  destruct (loop_ends (S (length (w_reg w))) w order l (from_db w known) new Hp Hr) as (final & db & E).
  { intros k Hk. apply in_not_listed in Hk. exact (proj2 Hk). }
  { exact Hm. }
  rewrite E. assert (forall col, In col known -> covered w l (from_db w known) new col) as Hk.
  { intros col Hc. destruct (data_source w col) as [k|] eqn:Ek.
    - right. exists k. split; [exact Ek|].
      destruct (in_dec Nat.eq_dec k (map i_class l)) as [Hi|Hi].
      + right. apply in_map_iff in Hi. destruct Hi as (s' & E' & Hs'). exists s'. split; assumption.
      + left. apply in_not_listed. split; [apply in_source_classes; exists col; split; assumption|].
        intros s' Hs' E'. apply Hi. apply in_map_iff. exists s'. split; assumption.
    - left. apply in_from_db. split; assumption. }
  assert (forall col, In col known <-> In col sc \/ In col mc \/ exists s, In s l /\ In col (i_req s)) as Hkn.
  { intros col. unfold known. rewrite nodup_In, !in_app_iff, in_flat_map. tauto. }
  destruct (loop_spec _ w order l _ new final db Hp E) as ((ext & -> & Hext) & Hinc & Hcov & Hreq & Hdb).
  { intros s col Hs Hc. apply Hk, Hkn. right. right. exists s. split; assumption. }
  assert (forall c, In c db -> data_source w c = None /\ needed sc mc (l ++ ext) c) as Hdb'.
  { intros c Hc. destruct (Hdb c Hc) as [Hc'|[Hn Hs]].
    - apply in_from_db in Hc'. destruct Hc' as [Hc1 Hc2]. split; [exact Hc2|]. apply Hkn in Hc1.
      destruct Hc1 as [Hc1|[Hc1|(s & Hs & Hi)]]; [left; exact Hc1 | right; left; exact Hc1|].
      right. right. exists s. split; [apply in_or_app; left; exact Hs | exact Hi].
    - split; [exact Hn|]. right. right. exact Hs. }
  exists ext, (filter (fun c => negb (String.eqb c "metricdata" || String.eqb c "None")) db). split; [reflexivity|].
  split; [|split].
  - intros s Hs. destruct (Hext s Hs) as [E1 (c & [Hc|Hc])]; (split; [exact E1|]); [exists c; exact Hc|].
    unfold new in Hc. apply in_not_listed in Hc. destruct Hc as [Hc _]. apply in_source_classes in Hc.
    destruct Hc as (c' & _ & Hc'). exists c'. exact Hc'.
  - intros col Hn. assert (covered w (l ++ ext) db [] col) as Hc.
    { destruct Hn as [Hn|[Hn|(s & Hs & Hi)]].
      - apply Hcov, Hk, Hkn. left. exact Hn.
      - apply Hcov, Hk, Hkn. right. left. exact Hn.
      - exact (Hreq s col Hs Hi). }
    destruct Hc as [Hc|(k & Hk' & [[]|Hs])].
    + left. split; [exact (proj1 (Hdb' col Hc))|].
      destruct (string_dec col "metricdata") as [->|N1]; [right; left; reflexivity|].
      destruct (string_dec col "None") as [->|N2]; [right; right; reflexivity|]. left. apply filter_In. split; [exact Hc|].
      apply negb_true_iff, orb_false_iff. split; apply String.eqb_neq; assumption.
    + right. exists k. split; [exact Hk'|]. exact Hs.
  - intros c Hc. apply filter_In in Hc. destruct Hc as [Hc E']. apply negb_true_iff, orb_false_iff in E'.
    destruct E' as [E1 E2]. apply String.eqb_neq in E1, E2. destruct (Hdb' c Hc). auto.
Qed.

(** * Saturation *)
Lemma nth_set_nth : forall {A} (l : list A) i j x,
  nth_error (set_nth l i x) j = if Nat.eqb i j then (if Nat.ltb j (length l) then Some x else None) else nth_error l j.
Proof.
  induction l as [|a l IH]; intros i j x.
  { cbn. destruct (Nat.eqb i j); [|reflexivity]. destruct j; reflexivity. }
  destruct i, j; cbn; try reflexivity. rewrite IH. reflexivity.
Qed.
Lemma fold_set_length : forall {A B} (f : B -> nat) (g : B -> A) ps (col : list A),
  length (fold_left (fun c p => set_nth c (f p) (g p)) ps col) = length col.
Proof. intros A B f g. induction ps as [|p t IH]; intros col; cbn; [reflexivity|]. rewrite IH. apply set_nth_length. Qed.
Lemma fold_set_in : forall {A B} (f : B -> nat) (g : B -> A) ps (col : list A) i p,
  (forall p q, In p ps -> In q ps -> f p = f q -> p = q) -> (i < length col)%nat -> In p ps -> f p = i ->
  nth_error (fold_left (fun c p => set_nth c (f p) (g p)) ps col) i = Some (g p).
Proof.
  intros A B f g. induction ps as [|q t IH]; intros col i p Hinj Hi Hp E; [destruct Hp|]. cbn [fold_left].
  assert (forall t' col', (forall r, In r t' -> f r = i -> g r = g p) ->
    nth_error col' i = Some (g p) -> (i < length col')%nat ->
    nth_error (fold_left (fun c p => set_nth c (f p) (g p)) t' col') i = Some (g p)) as Hkeep.
  { induction t' as [|r t' IHt]; intros col' Hr Hn Hl; [exact Hn|]. cbn [fold_left]. apply IHt.
    - intros r' Hr'. apply Hr. right. exact Hr'.
    - rewrite nth_set_nth. destruct (Nat.eqb_spec (f r) i) as [Er|_]; [|exact Hn]. rewrite (proj2 (Nat.ltb_lt _ _) Hl).
      rewrite (Hr r (or_introl eq_refl) Er). reflexivity.
    - rewrite set_nth_length. exact Hl. }
  destruct Hp as [->|Hp].
  - apply Hkeep.
    + intros r Hr Er. f_equal. apply Hinj; [right; exact Hr | left; reflexivity | congruence].
    + rewrite nth_set_nth, E, Nat.eqb_refl, (proj2 (Nat.ltb_lt _ _) Hi). reflexivity.
    + rewrite set_nth_length. exact Hi.
  - apply IH; [|rewrite set_nth_length; exact Hi | exact Hp | exact E]. intros a b Ha Hb. apply Hinj; right; assumption.
Qed.
Lemma fold_set_out : forall {A B} (f : B -> nat) (g : B -> A) ps (col : list A) i,
  (forall p, In p ps -> f p <> i) ->
  nth_error (fold_left (fun c p => set_nth c (f p) (g p)) ps col) i = nth_error col i.
Proof.
  intros A B f g. induction ps as [|q t IH]; intros col i Hn; [reflexivity|]. cbn [fold_left]. rewrite IH.
  - rewrite nth_set_nth. destruct (Nat.eqb_spec (f q) i) as [E|_]; [destruct (Hn q (or_introl eq_refl) E) | reflexivity].
  - intros p Hp. apply Hn. right. exact Hp.
Qed.
Lemma where_filter_in : forall f vs i0 i v,
  In (i, v) (where_filter f vs i0) <-> exists k, i = (i0 + k)%nat /\ nth_error vs k = Some v /\ sv_filter v = f.
Proof.
  intros f. induction vs as [|a t IH]; intros i0 i v.
  { cbn. split; [intros [] | intros ([|k] & _ & H & _); discriminate]. }
  cbn [where_filter]. assert (forall P : Prop, (P \/ In (i, v) (where_filter f t (S i0))) <->
    (P \/ exists k, i = (S i0 + k)%nat /\ nth_error t k = Some v /\ sv_filter v = f)) as Ht by (intros P; rewrite IH; tauto).
  destruct (String.eqb_spec (sv_filter a) f) as [E|E].
  - cbn [In]. rewrite Ht. split.
    + intros [H|(k & -> & H)]; [injection H as <- <-; exists 0%nat; split; [lia | split; [reflexivity | exact E]]|].
      exists (S k). split; [lia | exact H].
    + intros ([|k] & -> & H & Hf); [left; injection H as <-; f_equal; lia|]. right. exists k. split; [lia | split; assumption].
  - rewrite IH. split.
    + intros (k & -> & H). exists (S k). split; [lia | exact H].
    + intros ([|k] & -> & H & Hf); [injection H as <-; contradiction|]. exists k. split; [lia | split; assumption].
Qed.
Lemma where_saturated_in : forall vs i0 i,
  In i (where_saturated vs i0) <-> exists k v, i = (i0 + k)%nat /\ nth_error vs k = Some v /\ sv_remaining v < 0.
Proof.
  induction vs as [|a t IH]; intros i0 i.
  { cbn. split; [intros [] | intros ([|k] & v & _ & H & _); discriminate]. }
  cbn [where_saturated]. destruct (Z.ltb_spec (sv_remaining a) 0) as [E|E].
  - cbn [In]. rewrite IH. split.
    + intros [<-|(k & v & -> & H)]; [exists 0%nat, a; split; [lia | split; [reflexivity | exact E]]|].
      exists (S k), v. split; [lia | exact H].
    + intros ([|k] & v & -> & H & Hf); [left; lia|]. right. exists k, v. split; [lia | split; assumption].
  - rewrite IH. split.
    + intros (k & v & -> & H). exists (S k), v. split; [lia | exact H].
    + intros ([|k] & v & -> & H & Hf); [injection H as <-; lia|]. exists k, v. split; [lia | split; assumption].
Qed.
Lemma sat_round_length : forall vs col f, length (sat_round vs col f) = length col.
Proof.
  intros. unfold sat_round. rewrite (fold_set_length (fun k : nat => k) (fun _ => None)).
  apply (fold_set_length fst (fun p => sat_formula (snd p))).
Qed.
(** what one round does to a position of the column *)
Lemma sat_round_at : forall vs col f i v, length col = length vs -> nth_error vs i = Some v ->
  nth_error (sat_round vs col f) i =
    if in_dec Nat.eq_dec i (where_saturated (map snd (where_filter f vs 0)) 0) then Some None
    else if string_dec (sv_filter v) f then Some (sat_formula v) else nth_error col i.
Proof.
  intros vs col f i v Hl Hv. unfold sat_round.
  assert (i < length col)%nat as Hi by (rewrite Hl; apply nth_error_Some; rewrite Hv; discriminate).
  destruct (in_dec Nat.eq_dec i _) as [Hin|Hout].
  - apply (fold_set_in (fun k : nat => k) (fun _ => None) _ _ i i); [intros; assumption | | exact Hin | reflexivity].
    rewrite (fold_set_length fst (fun p => sat_formula (snd p))). exact Hi.
  - rewrite (fold_set_out (fun k : nat => k) (fun _ => None)); [|intros p Hp ->; exact (Hout Hp)].
    destruct (string_dec (sv_filter v) f) as [E|E].
    + apply (fold_set_in fst (fun p => sat_formula (snd p)) _ _ i (i, v)); [|exact Hi| |reflexivity].
      * intros [a x] [b y] Ha Hb E'. cbn in E'. subst b. apply where_filter_in in Ha, Hb.
        destruct Ha as (k & -> & Hx & _), Hb as (k' & E' & Hy & _). assert (k' = k) by lia. subst k'. congruence.
      * apply where_filter_in. exists i. split; [lia | split; assumption].
    + apply (fold_set_out fst (fun p => sat_formula (snd p))). intros [a x] Ha Ea. cbn in Ea. subst a.
      apply where_filter_in in Ha. destruct Ha as (k & -> & Hx & Hf). cbn [Nat.add] in Hv. rewrite Hv in Hx. injection Hx as ->.
      exact (E Hf).
Qed.
Lemma sat_run_length : forall filters vs col, length (sat_run filters vs col) = length col.
Proof.
  induction filters as [|f t IH]; intros vs col; [reflexivity|]. unfold sat_run in *. cbn [fold_left].
  rewrite IH. apply sat_round_length.
Qed.
(** a saturated visit ends up NaN *)
Lemma saturated_nan : forall filters vs col i v, length col = length vs -> nth_error vs i = Some v ->
  (In (sv_filter v) filters \/ nth_error col i = Some None) -> saturated v ->
  nth_error (sat_run filters vs col) i = Some None.
Proof.
  induction filters as [|f t IH]; intros vs col i v Hl Hv Hf Hs; [destruct Hf as [[]|Hf]; exact Hf|].
  unfold sat_run in *. cbn [fold_left]. apply IH with (v := v); [rewrite sat_round_length; exact Hl | exact Hv | | exact Hs].
  rewrite (sat_round_at vs col f i v Hl Hv). destruct (in_dec Nat.eq_dec i _); [right; reflexivity|].
  destruct (string_dec (sv_filter v) f) as [E|E].
  - right. unfold sat_formula. unfold saturated in Hs. rewrite (proj2 (Z.ltb_lt _ _) Hs). reflexivity.
  - destruct Hf as [[Ef|Hf]|Hf]; [destruct (E (eq_sym Ef)) | left; exact Hf | right; exact Hf].
Qed.
(** when no round hits position i, an unsaturated visit keeps its magnitude *)
Lemma unsaturated_mag : forall filters vs col i v, length col = length vs -> nth_error vs i = Some v ->
  (In (sv_filter v) filters \/ nth_error col i = Some (Some (sv_mag v))) -> ~ saturated v ->
  (forall f, In f filters -> ~ In i (where_saturated (map snd (where_filter f vs 0)) 0)) ->
  nth_error (sat_run filters vs col) i = Some (Some (sv_mag v)).
Proof.
  induction filters as [|f t IH]; intros vs col i v Hl Hv Hf Hs Hn; [destruct Hf as [[]|Hf]; exact Hf|].
  unfold sat_run in *. cbn [fold_left].
  apply IH with (v := v); [rewrite sat_round_length; exact Hl | exact Hv | | exact Hs | intros f' Hf'; apply Hn; right; exact Hf'].
  rewrite (sat_round_at vs col f i v Hl Hv).
  destruct (in_dec Nat.eq_dec i _) as [Hi|_]; [destruct (Hn f (or_introl eq_refl) Hi)|].
  destruct (string_dec (sv_filter v) f) as [E|E].
  - right. unfold sat_formula. unfold saturated in Hs. destruct (Z.ltb_spec (sv_remaining v) 0) as [Hlt|_]; [contradiction | reflexivity].
  - destruct Hf as [[Ef|Hf]|Hf]; [destruct (E (eq_sym Ef)) | left; exact Hf | right; exact Hf].
Qed.
Lemma where_filter_all : forall f vs i0, (forall v, In v vs -> sv_filter v = f) -> map snd (where_filter f vs i0) = vs.
Proof.
  intros f. induction vs as [|a t IH]; intros i0 H; [reflexivity|]. cbn [where_filter].
  rewrite (H a (or_introl eq_refl)), String.eqb_refl. cbn. f_equal. apply IH. intros v Hv. apply H. right. exact Hv.
Qed.

(** * Number of observatories *)
Lemma obs_got_it_iff : forall {T V S} (airmass : T -> S -> V -> Q) limit steps scope v,
  obs_got_it airmass limit steps scope v =
  if existsb (fun s => (Qle_bool (airmass scope s v) limit && Qle_bool 1 (airmass scope s v))%bool) steps then 1 else 0.
Proof.
  intros T V S airmass limit steps scope v. unfold obs_got_it.
  set (p := fun s => (Qle_bool (airmass scope s v) limit && Qle_bool 1 (airmass scope s v))%bool).
  assert (forall l a, a = 0 \/ a = 1 -> fold_left (fun got s => if p s then 1 else got) l a = if existsb p l then 1 else a) as H.
  { induction l as [|s l IH]; intros a Ha; [reflexivity|]. cbn [fold_left existsb]. destruct (p s); cbn [orb].
    - rewrite IH by (right; reflexivity). destruct (existsb p l); reflexivity.
    - apply IH. exact Ha. }
  rewrite H by (left; reflexivity). reflexivity.
Qed.
Lemma n_observatories_count : forall {T V S} (airmass : T -> S -> V -> Q) limit steps scopes v,
  n_observatories airmass limit steps scopes v =
  Z.of_nat (length (filter (fun scope => existsb (fun s => (Qle_bool (airmass scope s v) limit && Qle_bool 1 (airmass scope s v))%bool) steps) scopes)).
Proof.
  intros T V S airmass limit steps scopes v. unfold n_observatories.
  assert (forall l a, fold_left (fun n scope => n + obs_got_it airmass limit steps scope v) l a =
    a + Z.of_nat (length (filter (fun scope => existsb (fun s => (Qle_bool (airmass scope s v) limit && Qle_bool 1 (airmass scope s v))%bool) steps) l))) as H.
  { induction l as [|s l IH]; intros a; [cbn; lia|]. cbn [fold_left filter]. rewrite IH, obs_got_it_iff.
    destruct (existsb _ steps); cbn [length]; lia. }
  rewrite H. lia.
Qed.

(** * Note roots *)
Lemma note_root_spec : forall s, exists rest, s = (note_root s ++ rest)%string /\
  (rest = EmptyString \/ exists tail, rest = String "," tail) /\ forall i, String.get i (note_root s) <> Some ","%char.
Proof.
  induction s as [|a s IH]; [exists EmptyString; repeat split; [left; reflexivity | intros [|i]; discriminate]|].
  cbn [note_root]. destruct (Ascii.eqb_spec a ",") as [->|Ha].
  - exists (String "," s). repeat split; [right; exists s; reflexivity | intros [|i]; discriminate].
  - destruct IH as (rest & E & Hr & Hg). exists rest. split; [cbn [append]; rewrite <- E; reflexivity|].
    split; [exact Hr|]. intros [|i]; [cbn; congruence | apply Hg].
Qed.
Lemma substring_all : forall s n, (String.length s <= n)%nat -> substring 0 n s = s.
Proof.
  induction s as [|a s IH]; intros [|n] H; cbn in *; try reflexivity; [lia|]. rewrite IH by lia. reflexivity.
Qed.
Lemma substring_length : forall s n, (String.length (substring 0 n s) <= n)%nat.
Proof. induction s as [|a s IH]; intros [|n]; cbn; try lia. specialize (IH n). lia. Qed.

(** * Co-added visits *)
Lemma insert_uniq_in : forall {A} (ltb : A -> A -> bool) (x : A) l,
  (forall a b, ltb a b = false -> ltb b a = false -> a = b) ->
  forall y, In y (insert_uniq ltb x l) <-> y = x \/ In y l.
Proof.
  intros A ltb x l Htri y. induction l as [|a t IH]; [cbn; intuition congruence|]. cbn [insert_uniq].
  destruct (ltb x a) eqn:E1; [cbn; intuition congruence|]. destruct (ltb a x) eqn:E2; [cbn [In]; rewrite IH; intuition congruence|].
  rewrite (Htri _ _ E1 E2). cbn [In]. intuition congruence.
Qed.
Lemma np_unique_in : forall {A} (ltb : A -> A -> bool) l,
  (forall a b, ltb a b = false -> ltb b a = false -> a = b) -> forall y, In y (np_unique ltb l) <-> In y l.
Proof.
  intros A ltb l Htri y. induction l as [|a t IH]; [reflexivity|]. unfold np_unique in *. cbn [fold_right].
  rewrite (insert_uniq_in _ _ _ Htri), IH. cbn [In]. intuition congruence.
Qed.
Lemma np_unique_nodup : forall {A} (ltb : A -> A -> bool) l,
  (forall a b, ltb a b = false -> ltb b a = false -> a = b) -> (forall a, ltb a a = false) ->
  (forall a b c, ltb a b = true -> ltb b c = true -> ltb a c = true) -> NoDup (np_unique ltb l).
Proof.
  intros A ltb l Htri Hirr Htr.
  assert (forall m, Sorted.StronglySorted (fun a b => ltb a b = true) m -> forall x,
    Sorted.StronglySorted (fun a b => ltb a b = true) (insert_uniq ltb x m)) as Hins.
  { induction m as [|a t IH]; intros Hs x; [repeat constructor|]. inversion Hs as [|? ? Hst Hf]; subst. cbn [insert_uniq].
    destruct (ltb x a) eqn:E1.
    - constructor; [exact Hs|]. constructor; [exact E1|]. rewrite Forall_forall in *. intros y Hy. exact (Htr _ _ _ E1 (Hf y Hy)).
    - destruct (ltb a x) eqn:E2; [|exact Hs]. constructor; [apply IH; exact Hst|]. rewrite Forall_forall in *.
      intros y Hy. apply (insert_uniq_in ltb x t Htri) in Hy. destruct Hy as [->|Hy]; [exact E2 | exact (Hf y Hy)]. }
  assert (Sorted.StronglySorted (fun a b => ltb a b = true) (np_unique ltb l)) as Hs.
  { induction l as [|a t IH]; [constructor|]. unfold np_unique in *. cbn [fold_right]. apply Hins. exact IH. }
  clear Hins. induction (np_unique ltb l) as [|a t IH]; [constructor|]. inversion Hs as [|? ? Hst Hf]; subst. constructor.
  - intros Hi. rewrite Forall_forall in Hf. specialize (Hf a Hi). rewrite Hirr in Hf. discriminate.
  - apply IH. exact Hst.
Qed.
Lemma zltb_tri : forall a b, (a <? b) = false -> (b <? a) = false -> a = b.
Proof. intros. apply Z.ltb_ge in H, H0. lia. Qed.
Lemma zltb_tr : forall a b c, (a <? b) = true -> (b <? c) = true -> (a <? c) = true.
Proof. intros a b c H1 H2. apply Z.ltb_lt in H1, H2. apply Z.ltb_lt. lia. Qed.
Lemma key_ltb_iff : forall a b c a' b' c', key_ltb (a, b, c) (a', b', c') = true <->
  a < a' \/ (a = a' /\ (b < b' \/ (b = b' /\ c < c'))).
Proof.
  intros. unfold key_ltb. rewrite !orb_true_iff, !andb_true_iff, !orb_true_iff, !andb_true_iff, !Z.ltb_lt, !Z.eqb_eq. tauto.
Qed.
Lemma key_tri : forall a b, key_ltb a b = false -> key_ltb b a = false -> a = b.
Proof.
  intros [[a b] c] [[a' b'] c'] H1 H2.
  assert (~ (a < a' \/ (a = a' /\ (b < b' \/ (b = b' /\ c < c'))))) as N1 by (rewrite <- key_ltb_iff, H1; discriminate).
  assert (~ (a' < a \/ (a' = a /\ (b' < b \/ (b' = b /\ c' < c))))) as N2 by (rewrite <- key_ltb_iff, H2; discriminate).
  assert (a = a') by lia. assert (b = b') by lia. assert (c = c') by lia. congruence.
Qed.
Lemma key_irr : forall a, key_ltb a a = false.
Proof. intros [[a b] c]. destruct (key_ltb (a, b, c) (a, b, c)) eqn:E; [apply key_ltb_iff in E; lia | reflexivity]. Qed.
Lemma key_tr : forall a b c, key_ltb a b = true -> key_ltb b c = true -> key_ltb a c = true.
Proof. intros [[a b] c] [[a' b'] c'] [[a2 b2] c2] H1 H2. apply key_ltb_iff in H1, H2. apply key_ltb_iff. lia. Qed.

(** adding up over groups *)
Lemma sum_by_app : forall {A} (f : A -> Z) a b, sum_by f (a ++ b) = sum_by f a + sum_by f b.
Proof. intros. unfold sum_by. induction a as [|x t IH]; cbn in *; [reflexivity | lia]. Qed.
Lemma sum_groups : forall {A K} (f : A -> Z) (p : K -> A -> bool) ks l, NoDup ks ->
  (forall x, In x l -> exists k, In k ks /\ p k x = true /\ forall k', In k' ks -> p k' x = true -> k' = k) ->
  fold_right Z.add 0 (map (fun k => sum_by f (filter (p k) l)) ks) = sum_by f l.
Proof.
  intros A K f p ks l Hn H. induction l as [|x t IH].
  { unfold sum_by. cbn. clear. induction ks as [|k ks IH]; cbn in *; [reflexivity | exact IH]. }
  assert (fold_right Z.add 0 (map (fun k => sum_by f (filter (p k) (x :: t))) ks) =
    fold_right Z.add 0 (map (fun k => if p k x then f x else 0) ks) +
    fold_right Z.add 0 (map (fun k => sum_by f (filter (p k) t)) ks)) as E.
  { clear. induction ks as [|k ks IH]; [reflexivity|]. cbn [map fold_right]. rewrite IH. cbn [filter].
    destruct (p k x); unfold sum_by; cbn [map fold_right]; lia. }
  rewrite E, IH by (intros y Hy; apply H; right; exact Hy). clear IH E.
  assert (fold_right Z.add 0 (map (fun k => if p k x then f x else 0) ks) = f x) as Ex.
  { destruct (H x (or_introl eq_refl)) as (k & Hk & Hpk & Hu). clear H.
    assert (forall m, (forall k', In k' m -> p k' x = false) -> fold_right Z.add 0 (map (fun k => if p k x then f x else 0) m) = 0) as H0.
    { induction m as [|a m IH]; intros Hm; [reflexivity|]. cbn [map fold_right]. rewrite (Hm a (or_introl eq_refl)), IH; [reflexivity|].
      intros k' Hk'. apply Hm. right. exact Hk'. }
    induction ks as [|a ks IH]; [destruct Hk|]. inversion Hn as [|? ? Ha Hn']; subst. cbn [map fold_right].
    destruct Hk as [->|Hk].
    - rewrite Hpk, H0; [lia|]. intros k' Hk'. destruct (p k' x) eqn:Ek; [|reflexivity].
      assert (k' = k) by (apply Hu; [right; exact Hk' | exact Ek]). subst. contradiction.
    - destruct (p a x) eqn:Ea.
      + assert (a = k) by (apply Hu; [left; reflexivity | exact Ea]). subst. contradiction.
      + rewrite IH; [lia | exact Hn' | exact Hk|]. intros k' Hk'. apply Hu. right. exact Hk'. }
  rewrite Ex. reflexivity.
Qed.
Lemma sum_flat_map : forall {A B} (f : B -> Z) (g : A -> list B) l,
  sum_by f (flat_map g l) = fold_right Z.add 0 (map (fun a => sum_by f (g a)) l).
Proof.
  intros A B f g. induction l as [|a t IH]; [reflexivity|]. cbn [flat_map map fold_right]. rewrite sum_by_app, IH. reflexivity.
Qed.
Lemma coadd_total : forall tol vs (f : cvisit -> Z), 0 < tol ->
  (forall k n l, f (coadd_row k n l) = sum_by f l) ->
  (forall v v', In v vs -> In v' vs -> near tol (key_of v') v = true -> key_of v = key_of v') ->
  sum_by f (coadd_run tol vs) = sum_by f vs.
Proof.
  intros tol vs f Ht Hf Hsep. unfold coadd_run. rewrite sum_flat_map.
  transitivity (fold_right Z.add 0 (map (fun k => sum_by f (filter (near tol k) vs)) (np_unique key_ltb (map key_of vs)))).
  { f_equal. apply map_ext. intros k. set (sel := filter (near tol k) vs).
    unfold sum_by at 1. rewrite map_map.
    rewrite (map_ext _ (fun n => sum_by f (filter (fun v => cv_night v =? n) sel))) by (intros n; apply Hf).
    apply sum_groups with (p := fun n v => cv_night v =? n).
    - apply np_unique_nodup; [exact zltb_tri | exact Z.ltb_irrefl | exact zltb_tr].
    - intros v Hv. exists (cv_night v). split; [apply (np_unique_in _ _ zltb_tri); apply in_map; exact Hv|].
      split; [apply Z.eqb_refl|]. intros n _ E. apply Z.eqb_eq in E. symmetry. exact E. }
  apply sum_groups; [apply np_unique_nodup; [exact key_tri | exact key_irr | exact key_tr]|].
  intros v Hv. exists (key_of v). split; [apply (np_unique_in _ _ key_tri); apply in_map; exact Hv|]. split.
  - unfold near, key_of. rewrite !Z.sub_diag. cbn [Z.abs]. rewrite (proj2 (Z.ltb_lt _ _) Ht), Z.eqb_refl. reflexivity.
  - intros k' Hk' E. apply (proj1 (np_unique_in _ _ key_tri _)) in Hk'. apply in_map_iff in Hk'. destruct Hk' as (v' & <- & Hv').
    symmetry. exact (Hsep v v' Hv Hv' E).
Qed.
