From Verif Require Import Base MoGroup_Model MoGroup_Spec.
From Coq Require Import Lia Permutation.
Open Scope Z_scope.

Lemma ostr_eqb_eq a b : ostr_eqb a b = true <-> a = b.
Proof. destruct a as [x|], b as [y|]; cbn; rewrite ?String.eqb_eq; split; intros H; congruence. Qed.
Lemma stk_eq_spec a b : stk_eq a b = true <-> ms_name a = ms_name b /\ ms_conf a = ms_conf b.
Proof. unfold stk_eq. rewrite andb_true_iff, String.eqb_eq, Z.eqb_eq. reflexivity. Qed.
Lemma compatible_spec a b : mo_compatible a b = true <-> no_conflict a b.
Proof.
  unfold mo_compatible, no_conflict. rewrite andb_true_iff, ostr_eqb_eq, negb_true_iff. split.
  - intros [H1 H2]. split; [exact H1|]. intros s s' Hs Hs' En. destruct (Z.eq_dec (ms_conf s) (ms_conf s')) as [E|N]; [exact E|]. exfalso.
    assert (existsb (fun s => existsb (fun s' => String.eqb (ms_name s) (ms_name s') && negb (stk_eq s s')) (mb_stackers b)) (mb_stackers a) = true) as C; [|congruence].
    apply existsb_exists. exists s. split; [exact Hs|]. apply existsb_exists. exists s'. split; [exact Hs'|]. rewrite En, String.eqb_refl. cbn [andb]. apply negb_true_iff.
    destruct (stk_eq s s') eqn:E; [apply stk_eq_spec in E; tauto|reflexivity].
  - intros [H1 H2]. split; [exact H1|]. match goal with |- ?x = false => destruct x eqn:C; [|reflexivity] end. exfalso. apply existsb_exists in C. destruct C as (s & Hs & C). apply existsb_exists in C. destruct C as (s' & Hs' & C).
    apply andb_true_iff in C. destruct C as [C1 C2]. apply String.eqb_eq in C1. apply negb_true_iff in C2. assert (stk_eq s s' = true) as E by (apply stk_eq_spec; split; [exact C1|apply H2; assumption]). congruence.
Qed.
Lemma no_conflict_sym a b : no_conflict a b -> no_conflict b a.
Proof. intros [H1 H2]. split; [congruence|]. intros s s' Hs Hs' E. symmetry. apply H2; [assumption|assumption|congruence]. Qed.

(** * Lists of compatible keys *)
Lemma append_last_snoc {A} (l : list (list A)) y x : append_last (l ++ [y]) x = l ++ [y ++ [x]].
Proof. induction l as [|z l IH]; [reflexivity|]. cbn [app append_last]. destruct (l ++ [y]) eqn:E; [destruct l; discriminate|]. rewrite IH. reflexivity. Qed.
Lemma last_accepts_snoc d ls l b : last_accepts d (ls ++ [l]) b = forallb (fun k => match dget String.eqb d k with Some c => mo_compatible c b | None => true end) l.
Proof. unfold last_accepts. rewrite fold_left_app. reflexivity. Qed.
(** the state of the loop after some keys *)
Record placed (d : list (key * mo_bundle)) (keys : list key) (ls : list (list key)) : Prop := {
  pl_concat : concat ls = keys;
  pl_nonempty : forall l, In l ls -> l <> [];
  pl_pair : forall pre l post i j a b, ls = pre ++ l :: post -> (i < j)%nat -> nth_error l i = Some a -> nth_error l j = Some b ->
    forall ba bb, bundle_of d a ba -> bundle_of d b bb -> no_conflict ba bb;
  pl_first : forall pre l l' post k b, ls = pre ++ l :: l' :: post -> nth_error l' 0 = Some k -> bundle_of d k b -> exists k' b', In k' l /\ bundle_of d k' b' /\ ~ no_conflict b' b }.
Lemma snoc_split {A} (ls : list A) x pre y post : ls ++ [x] = pre ++ y :: post -> (post = [] /\ pre = ls /\ y = x) \/ (exists post', post = post' ++ [x] /\ ls = pre ++ y :: post').
Proof.
  intros E. destruct post as [|p post] using rev_ind.
  - left. apply app_inj_tail in E. destruct E. subst. auto.
  - right. clear IHpost. exists post. rewrite app_comm_cons, app_assoc in E. apply app_inj_tail in E. destruct E. subst. auto.
Qed.
Lemma placed_step d keys ls k b : placed d keys ls -> bundle_of d k b -> placed d (keys ++ [k]) (place_key d ls k).
Proof.
  intros [P1 P2 P3 P4] Hb. unfold place_key. unfold bundle_of in Hb. rewrite Hb. destruct ls as [|l ls _] using rev_ind.
  - unfold last_accepts. cbn [fold_left]. cbn in P1. subst keys. split.
    + reflexivity.
    + intros l [<-|[]]. discriminate.
    + intros pre l post i j a c E Hij Hi Hj. destruct pre as [|? [|? ?]]; [|discriminate|discriminate]. injection E as <- <-. destruct i as [|[|i]], j as [|[|j]]; cbn in *; try lia; discriminate.
    + intros [|p1 [|p2 pre]] l l' post k' b' E; discriminate E.
  - rewrite last_accepts_snoc. match goal with |- context [if ?x then _ else _] => destruct x eqn:F end.
    + rewrite append_last_snoc. split.
      * rewrite concat_app in *. cbn [concat] in *. rewrite app_nil_r in *. rewrite app_assoc, P1. reflexivity.
      * intros l0 H. apply in_app_or in H. destruct H as [H|[<-|[]]]; [apply P2, in_or_app; left; exact H|destruct l; discriminate].
      * intros pre l0 post i j a c E Hij Hi Hj ba bb Ba Bb. apply snoc_split in E. destruct E as [(-> & -> & ->)|(post' & -> & ->)].
        -- destruct (Nat.lt_ge_cases j (length l)) as [Hl|Hl].
           ++ rewrite nth_error_app1 in Hi, Hj by lia. apply (P3 ls l [] i j a c eq_refl Hij Hi Hj ba bb Ba Bb).
           ++ assert (j = length l) as -> by (pose proof (proj1 (nth_error_Some (l ++ [k]) j)) as H; rewrite Hj in H; specialize (H ltac:(discriminate)); rewrite app_length in H; cbn in H; lia).
              rewrite nth_error_app2, Nat.sub_diag in Hj by lia. injection Hj as <-. rewrite nth_error_app1 in Hi by lia. unfold bundle_of in Bb. rewrite Hb in Bb. injection Bb as <-.
              rewrite forallb_forall in F. specialize (F a (nth_error_In _ _ Hi)). unfold bundle_of in Ba. rewrite Ba in F. apply compatible_spec, F.
        -- apply (P3 pre l0 (post' ++ [l]) i j a c ltac:(rewrite <- app_assoc; reflexivity) Hij Hi Hj ba bb Ba Bb).
      * intros pre l0 l' post k' b' E Hk Hb'. change (l0 :: l' :: post) with ([l0] ++ l' :: post) in E. rewrite app_assoc in E. apply snoc_split in E. destruct E as [(-> & <- & ->)|(post' & -> & ->)].
        -- assert (nth_error l 0 = Some k') as Hk'. { destruct l as [|x l]; [|exact Hk]. exfalso. apply (P2 []); [apply in_or_app; right; left; reflexivity|reflexivity]. }
           apply (P4 pre l0 l [] k' b'); [rewrite <- app_assoc; reflexivity|exact Hk'|exact Hb'].
        -- apply (P4 pre l0 l' (post' ++ [l]) k' b'); [rewrite <- !app_assoc; reflexivity|exact Hk|exact Hb'].
    + split.
      * rewrite concat_app, P1. reflexivity.
      * intros l0 H. apply in_app_or in H. destruct H as [H|[<-|[]]]; [apply P2, H|discriminate].
      * intros pre l0 post i j a c E Hij Hi Hj. apply snoc_split in E. destruct E as [(-> & -> & ->)|(post' & -> & E)].
        -- destruct i as [|[|i]], j as [|[|j]]; cbn in *; try lia; discriminate.
        -- apply (P3 pre l0 post' i j a c E Hij Hi Hj).
      * intros pre l0 l' post k' b' E Hk Hb'. change (l0 :: l' :: post) with ([l0] ++ l' :: post) in E. rewrite app_assoc in E. apply snoc_split in E. destruct E as [(-> & E & ->)|(post' & -> & E)].
        -- apply app_inj_tail in E. destruct E as [-> ->]. cbn in Hk. injection Hk as <-. unfold bundle_of in Hb'. rewrite Hb in Hb'. injection Hb' as <-.
           assert (exists x, In x l /\ match dget String.eqb d x with Some c => mo_compatible c b | None => true end = false) as (x & Hx & Ex).
           { clear - F. induction l as [|x l IH]; [discriminate|]. cbn [forallb] in F. destruct (match dget String.eqb d x with Some c => mo_compatible c b | None => true end) eqn:E; [|exists x; split; [left; reflexivity|exact E]].
             destruct (IH F) as (y & Hy & Ey). exists y. split; [right; exact Hy|exact Ey]. }
           destruct (dget String.eqb d x) as [c|] eqn:Ec; [|discriminate]. exists x, c. split; [exact Hx|]. split; [exact Ec|]. intros C. apply compatible_spec in C. congruence.
        -- apply (P4 pre l0 l' post' k' b'); [rewrite E, <- app_assoc; reflexivity|exact Hk|exact Hb'].
Qed.
Lemma find_placed d keys : (forall k, In k keys -> exists b, bundle_of d k b) -> placed d keys (find_compatible d keys).
Proof.
  unfold find_compatible. induction keys as [|k keys IH] using rev_ind; intros H.
  - split; [reflexivity|intros l []|intros [|? ?] ? ? ? ? ? ? E; discriminate E|intros [|? ?] ? ? ? ? ? E; discriminate E].
  - rewrite fold_left_app. cbn [fold_left]. destruct (H k) as (b & Hb); [apply in_or_app; right; left; reflexivity|]. apply (placed_step _ _ _ _ b); [apply IH; intros k' Hk'; apply H, in_or_app; left; exact Hk'|exact Hb].
Qed.

(** * Running stackers *)
Lemma in_names_iff c l : in_names c l = true <-> In c l.
Proof. unfold in_names. rewrite existsb_exists. split; [intros (x & H & E); apply String.eqb_eq in E; subst; exact H|intros H; exists c; split; [exact H|apply String.eqb_refl]]. Qed.
Lemma stk_run_rows s href h t : d_rows (stk_run s href h t) = d_rows t.
Proof. unfold stk_run. destruct (Nat.eqb (d_rows t) 0); reflexivity. Qed.
Lemma run_stackers_rows l href h : forall t, d_rows (run_stackers l href h t) = d_rows t.
Proof. induction l as [|s l IH]; intros t; [reflexivity|]. cbn [run_stackers fold_left]. fold (run_stackers l href h (stk_run s href h t)). rewrite IH. apply stk_run_rows. Qed.
Lemma run_stackers_snoc l s href h t : run_stackers (l ++ [s]) href h t = stk_run s href h (run_stackers l href h t).
Proof. unfold run_stackers. rewrite fold_left_app. reflexivity. Qed.
(** the columns after running stackers from a larger set that satisfy the conditions *)
Lemma run_stackers_cols S l href h t0 : read_base S -> one_setter S -> (forall s, In s l -> In s S) -> forall t, d_rows t <> 0%nat -> agree (fun c => ~ set_by S c) t t0 ->
  agree (fun c => ~ set_by S c) (run_stackers l href h t) t0 /\
  (forall s c, In s l -> In c (ms_cols s) -> d_col (run_stackers l href h t) c = ms_fun s t0 href h c).
Proof.
  intros RB OS. induction l as [|s l IH] using rev_ind; intros I t Hr A.
  - split; [exact A|intros s c []].
  - destruct (IH ltac:(intros x Hx; apply I, in_or_app; left; exact Hx) t Hr A) as [B1 B2]. rewrite run_stackers_snoc. set (u := run_stackers l href h t) in *.
    assert (d_rows u <> 0%nat) as Hu by (unfold u; rewrite run_stackers_rows; exact Hr). assert (In s S) as Hs by (apply I, in_or_app; right; left; reflexivity).
    unfold stk_run. destruct (Nat.eqb_spec (d_rows u) 0) as [E|_]; [contradiction|]. split.
    + split; [cbn; apply B1|]. intros c Hc. cbn [d_col]. destruct (in_names c (ms_cols s)) eqn:E; [|apply B1, Hc]. exfalso. apply Hc. exists s. split; [exact Hs|apply in_names_iff, E].
    + intros s' c Hs' Hc. cbn [d_col]. destruct (in_names c (ms_cols s)) eqn:E.
      * apply in_names_iff in E. assert (s' = s) as ->. { apply OS; [apply I, Hs'|exact Hs|]. left. exists c. split; assumption. } apply RB; [exact Hs|exact B1].
      * apply in_app_or in Hs'. destruct Hs' as [Hs'|[<-|[]]]; [apply B2; assumption|]. apply in_names_iff in Hc. congruence.
Qed.
Lemma uniq_stk_spec l : (forall s, In s (uniq_stk l) -> In s l) /\ (forall s, In s l -> exists s', In s' (uniq_stk l) /\ stk_eq s s' = true).
Proof.
  unfold uniq_stk. induction l as [|x l IH] using rev_ind; [split; intros s []|]. rewrite fold_left_app. cbn [fold_left]. destruct IH as [I1 I2]. set (u := fold_left _ l []) in *.
  assert (stk_eq x x = true) as Rx by (apply stk_eq_spec; split; reflexivity). destruct (existsb (fun t => stk_eq x t) u) eqn:E.
  - split; [intros s H; apply in_or_app; left; apply I1, H|]. intros s H. apply in_app_or in H. destruct H as [H|[<-|[]]]; [apply I2, H|]. apply existsb_exists in E. destruct E as (s' & H & E). exists s'. split; assumption.
  - split.
    + intros s H. apply in_app_or in H. apply in_or_app. destruct H as [H|H]; [left; apply I1, H|right; exact H].
    + intros s H. apply in_app_or in H. destruct H as [H|[<-|[]]]; [destruct (I2 s H) as (s' & H' & E'); exists s'; split; [apply in_or_app; left; exact H'|exact E']|exists x; split; [apply in_or_app; right; left; reflexivity|exact Rx]].
Qed.
Definition all_stackers (d : list (key * mo_bundle)) : list mo_stk := flat_map (fun kb => mb_stackers (snd kb)) d.
Lemma group_stackers_same d : one_setter (all_stackers d) -> forall s, In s (group_stackers d) <-> In s (all_stackers d).
Proof.
  intros OS s. unfold group_stackers. fold (all_stackers d). destruct (uniq_stk_spec (all_stackers d)) as [U1 U2]. split; [apply U1|]. intros H. destruct (U2 s H) as (s' & H' & E). apply stk_eq_spec in E.
  replace s with s'; [exact H'|]. apply OS; [apply U1, H'|exact H|]. right. destruct E. split; congruence.
Qed.
Lemma run_object_nth sts bs href S t0 : read_base S -> one_setter S -> (forall s, In s sts -> In s S) -> forall hvals t j h, d_rows t <> 0%nat -> agree (fun c => ~ set_by S c) t t0 -> nth_error hvals j = Some h ->
  exists u, nth_error (run_object sts bs href hvals t) j = Some (map (fun b => eval_bundle b u h) bs) /\ d_rows u = d_rows t0 /\ agree (fun c => ~ set_by S c) u t0 /\
    (forall s c, In s sts -> In c (ms_cols s) -> d_col u c = ms_fun s t0 href h c).
Proof.
  intros RB OS I hvals. induction hvals as [|h0 hvals IH]; intros t j h Hr A Hj; [destruct j; discriminate|].
  destruct (run_stackers_cols S sts href h0 t0 RB OS I t Hr A) as [B1 B2]. destruct j as [|j]; cbn [nth_error run_object] in *.
  - injection Hj as <-. eexists. split; [reflexivity|]. split; [apply B1|]. split; [exact B1|exact B2].
  - apply IH; [rewrite run_stackers_rows; exact Hr|exact B1|exact Hj].
Qed.
Lemma eval_agree S b u v h : reads_own S b -> agree (fun c => set_by (mb_stackers b) c \/ ~ set_by S c) u v -> eval_bundle b u h = eval_bundle b v h.
Proof.
  intros R A. destruct (R u v h A) as [R1 R2]. unfold eval_bundle. destruct A as [A0 _]. rewrite A0, R1. destruct (Nat.eqb (d_rows v) 0); [reflexivity|]. destruct (unmask _ _) as [m|]; [|reflexivity].
  f_equal. apply map_ext_in. intros [[n c] ss] H. cbn [fst snd]. rewrite (R2 n c ss m H). reflexivity.
Qed.

(** * Slices *)
Lemma zlist_eqb_eq : forall a b, zlist_eqb a b = true <-> a = b.
Proof.
  intros a. induction a as [|x a IH]; intros [|y b]; cbn; try (split; congruence). rewrite andb_true_iff, Z.eqb_eq, IH. split; [intros [-> ->]; reflexivity|intros E; injection E; auto].
Qed.
Lemma slicer_eq_spec a b : slicer_eq a b = true <-> sl_orbit_file a = sl_orbit_file b /\ sl_obs_file a = sl_obs_file b /\ sl_H a = sl_H b.
Proof. unfold slicer_eq. rewrite !andb_true_iff, String.eqb_eq, ostr_eqb_eq, zlist_eqb_eq. intuition congruence. Qed.
