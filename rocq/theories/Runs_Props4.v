(** C335: normalize_for_radar. *)
From Coq Require Import String Reals ZArith List Bool Lia Lra Permutation.
From Verif Require Import Base Depth_Model Depth_Proofs Template_Model Template_Spec Template_Proofs Maps_Proofs Runs_Spec Runs_Model Runs_Props Runs_Props2 Runs_Props3.
Import ListNotations.
Open Scope R_scope.

Lemma dset_present : forall {V} (d : list (string * V)) k v, In k (map fst d) -> map fst (dset String.eqb d k v) = map fst d.
Proof.
  induction d as [|[a w] t IH]; intros k v H; [contradiction|]. cbn. destruct (String.eqb_spec k a) as [->|N]; [reflexivity|].
  cbn. f_equal. apply IH. destruct H as [E|H]; [cbn in E; congruence|exact H].
Qed.
Lemma dget_in : forall {V} (d : list (string * V)) k, (exists v, dget String.eqb d k = Some v) <-> In k (map fst d).
Proof.
  induction d as [|[a w] t IH]; intros k; cbn; [split; [intros [v H]; discriminate|tauto]|].
  destruct (String.eqb_spec k a) as [->|N]; [split; eauto|]. rewrite IH. intuition congruence.
Qed.
Lemma change_keys : forall g ns cols out, change_cols g ns cols = Ok out -> map fst out = map fst cols.
Proof.
  intros g ns. induction ns as [|n t IH]; intros cols out H; cbn in H; [congruence|].
  destruct (dget String.eqb cols n) as [c|] eqn:D; [|discriminate]. rewrite (IH _ _ H). apply dset_present. apply dget_in. eauto.
Qed.
Lemma change_get : forall g ns cols out, NoDup ns -> change_cols g ns cols = Ok out ->
  forall n, dget String.eqb out n = if mem n ns then option_map (map g) (dget String.eqb cols n) else dget String.eqb cols n.
Proof.
  intros g ns. induction ns as [|n t IH]; intros cols out N H k; cbn in H; [injection H as <-; reflexivity|].
  destruct (dget String.eqb cols n) as [c|] eqn:D; [|discriminate]. inversion N as [|x l N1 N2]; subst.
  rewrite (IH _ _ N2 H k). cbn [mem existsb]. change (existsb (String.eqb k) t) with (mem k t).
  destruct (String.eqb_spec k n) as [->|NE]; cbn [orb].
  - rewrite (proj2 (mem_not n t) N1). rewrite dget_dset_same, D. reflexivity.
  - rewrite dget_dset_other by exact NE. reflexivity.
Qed.
Lemma change_ok : forall g ns cols, (exists out, change_cols g ns cols = Ok out) <-> (forall n, In n ns -> In n (map fst cols)).
Proof.
  intros g ns. induction ns as [|n t IH]; intros cols; cbn [change_cols].
  - split; [intros _ n []|intros _; eauto].
  - destruct (dget String.eqb cols n) as [c|] eqn:D.
    + rewrite IH. rewrite dset_present by (apply dget_in; eauto). split; intros H k K; [destruct K as [<-|K]; [apply dget_in; eauto|auto]|apply H; right; exact K].
    + split; [intros [out H]; discriminate|]. intros H. exfalso. destruct (proj2 (dget_in cols n)) as [v V]; [apply H; left; reflexivity|congruence].
Qed.
Lemma change_err : forall g ns cols e, change_cols g ns cols = Err e -> e = KeyError.
Proof. intros g ns. induction ns as [|n t IH]; intros cols e H; cbn in H; [discriminate|]. destruct (dget _ cols n); [eauto|congruence]. Qed.
Lemma last_pos_spec : forall x l k, match last_pos x l k with Some p => (k <= p)%nat /\ LastAt l x (p - k) | None => ~ In x l end.
Proof.
  intros x l. induction l as [|y t IH]; intros k; cbn [last_pos]; [tauto|]. specialize (IH (S k)).
  destruct (last_pos x t (S k)) as [p|].
  - destruct IH as [L [A B]]. split; [lia|]. replace (p - k)%nat with (S (p - S k)) by lia. split; [exact A|].
    intros [|j] J; cbn; [lia|apply B; lia].
  - destruct (String.eqb_spec y x) as [->|N].
    + split; [lia|]. rewrite Nat.sub_diag. split; [reflexivity|]. intros [|j] J; [lia|]. cbn. intros E. apply nth_error_In in E. contradiction.
    + intros [E|E]; [congruence|contradiction].
Qed.
Lemma dget_map : forall (h : string * list cell -> string * list cell) d n, (forall c, fst (h c) = fst c) ->
  dget String.eqb (map h d) n = option_map (fun c => snd (h (n, c))) (dget String.eqb d n).
Proof.
  intros h d n H. induction d as [|[a c] t IH]; [reflexivity|]. cbn [map dget]. destruct (h (a, c)) as [a' c'] eqn:E.
  pose proof (H (a, c)) as F. rewrite E in F. cbn in F. subst a'. destruct (String.eqb_spec n a) as [->|N]; [|exact IH].
  cbn [option_map]. rewrite E. reflexivity.
Qed.

(** the column called [n] of a table of named columns *)
Definition Col (cols : list (string * list cell)) (n : string) (c : list cell) : Prop := In (n, c) cols.
Lemma col_dget : forall cols n c, NoDup (map fst cols) -> (Col cols n c <-> dget String.eqb cols n = Some c).
Proof.
  unfold Col. induction cols as [|[a w] t IH]; intros n c N; [cbn; split; [tauto|discriminate]|].
  cbn [map fst] in N. inversion N as [|x l N1 N2]; subst. cbn [In dget]. destruct (String.eqb_spec n a) as [->|NE].
  - split; [|intros E; left; unfold cell in *; congruence]. intros [E|I]; [congruence|].
    exfalso. apply N1. apply (in_map fst) in I. exact I.
  - rewrite <- (IH n c N2). split; [intros [E|I]; [congruence|exact I]|auto].
Qed.

(** C335: which tables are refused: a column to reverse or invert that is not there is a KeyError, a reference run that is not there a
    ValueError; nothing else is. *)
Theorem C335_errors : forall index cols r inv rev mc,
  ((exists out, normalize_for_radar index cols r inv rev mc = Ok out)
   <-> (forall n, In n rev \/ In n inv -> In n (map fst cols)) /\ (forall x, r = Some x -> In x index))
  /\ (forall e, normalize_for_radar index cols r inv rev mc = Err e ->
        e = KeyError /\ (exists n, (In n rev \/ In n inv) /\ ~ In n (map fst cols)) \/ e = ValueError /\ (exists x, r = Some x /\ ~ In x index)).
Proof.
  intros index cols r inv rev mc. unfold normalize_for_radar.
  assert (M : forall g ns c e, change_cols g ns c = Err e -> e = KeyError /\ exists n, In n ns /\ ~ In n (map fst c)).
  { intros g ns. induction ns as [|n t IH]; intros c e H; cbn in H; [discriminate|]. destruct (dget String.eqb c n) as [w|] eqn:D.
    - destruct (IH _ _ H) as [E [k [K1 K2]]]. split; [exact E|]. exists k. split; [right; exact K1|].
      rewrite dset_present in K2 by (apply dget_in; eauto). exact K2.
    - split; [congruence|]. exists n. split; [left; reflexivity|]. intros I. apply dget_in in I. destruct I as [v V]. congruence. }
  destruct (change_cols c_neg rev cols) as [c1|e1] eqn:E1; cbn [bind].
  2:{ destruct (M _ _ _ _ E1) as [-> [n [A B]]]. split.
      - split; [intros [out H]; discriminate|]. intros [H _]. elim B. apply H. auto.
      - intros e H. injection H as <-. left. split; [reflexivity|]. exists n. auto. }
  pose proof (change_keys _ _ _ _ E1) as K1.
  assert (A1 : forall n, In n rev -> In n (map fst cols)) by (apply (change_ok c_neg); eauto).
  destruct (change_cols (c_div (Some 1)) inv c1) as [c2|e2] eqn:E2; cbn [bind].
  2:{ destruct (M _ _ _ _ E2) as [-> [n [A B]]]. rewrite K1 in B. split.
      - split; [intros [out H]; discriminate|]. intros [H _]. elim B. apply H. auto.
      - intros e H. injection H as <-. left. split; [reflexivity|]. exists n. auto. }
  assert (A2 : forall n, In n inv -> In n (map fst cols)) by (rewrite <- K1; apply (change_ok (c_div (Some 1))); eauto).
  destruct r as [r|].
  - pose proof (last_pos_spec r index 0) as P. destruct (last_pos r index 0) as [k|].
    + split; [|discriminate]. split; [intros _|eauto]. split; [intros n [N|N]; auto|]. intros x X. injection X as <-.
      destruct P as [_ [P _]]. rewrite Nat.sub_0_r in P. apply nth_error_In in P. exact P.
    + split; [split; [intros [out H]; discriminate|intros [_ H]; elim P; apply H; reflexivity]|].
      intros e H. injection H as <-. right. split; [reflexivity|]. exists r. auto.
  - split; [|discriminate]. split; [intros _|eauto]. split; [intros n [N|N]; auto|discriminate].
Qed.
Print Assumptions C335_errors.

(** C335: the columns keep their names and order; each value is compared with that of the last row of the reference run in the same
    way as normalize_metric_summaries: a ratio, an inverted ratio, a difference of magnitudes, and an inverted difference for a
    column of magnitudes that is reversed.  The column "run_name" is left alone. *)
Theorem C335_value : forall index cols r inv rev mc out k,
  NoDup (map fst cols) -> NoDup inv -> NoDup rev -> (forall n, In n inv -> ~ In n rev) ->
  normalize_for_radar index cols (Some r) inv rev mc = Ok out -> LastAt index r k ->
  map fst out = map fst cols
  /\ forall n c, Col cols n c -> (k < length c)%nat ->
       exists c', Col out n c' /\ length c' = length c
         /\ (n = "run_name"%string -> ~ In n inv -> ~ In n rev -> c' = c)
         /\ (n <> "run_name"%string -> forall i b x v, nth_error c k = Some b -> nth_error c i = Some x -> nth_error c' i = Some v ->
               let mag := match mc with All_mags => True | These l => In n l end in
               (~ mag -> ~ In n inv -> Compared false false b x v)
               /\ (~ mag -> In n inv -> Compared true false b x v)
               /\ (mag -> ~ In n inv -> ~ In n rev -> Compared false true b x v)
               /\ (mag -> In n rev -> Compared true true b x v)).
Proof.
  intros index cols r inv rev mc out k N NI NR D H L. unfold normalize_for_radar in H.
  destruct (change_cols c_neg rev cols) as [c1|] eqn:E1; [|discriminate]. cbn [bind] in H.
  destruct (change_cols (c_div (Some 1)) inv c1) as [c2|] eqn:E2; [|discriminate]. cbn [bind] in H.
  pose proof (last_pos_spec r index 0) as P. destruct (last_pos r index 0) as [k'|]; [|discriminate]. injection H as <-.
  assert (k' = k) as ->.
  { destruct P as [_ [P1 P2]], L as [L1 L2]. rewrite Nat.sub_0_r in *. destruct (Nat.lt_trichotomy k' k) as [Q|[Q|Q]]; [elim (P2 k Q); exact L1|exact Q|elim (L2 k' Q); exact P1]. }
  assert (R0 : forall c, fst (radar_col mc k c) = fst c) by (intros [a c]; unfold radar_col; cbn [fst]; destruct (String.eqb a "run_name"); reflexivity).
  assert (K : map fst (map (radar_col mc k) c2) = map fst cols).
  { rewrite map_map. rewrite <- (change_keys _ _ _ _ E1), <- (change_keys _ _ _ _ E2). apply map_ext. exact R0. }
  split; [exact K|]. intros n c C Lk. apply (col_dget _ _ _ N) in C.
  pose proof (change_get _ _ _ _ NR E1 n) as G1. pose proof (change_get _ _ _ _ NI E2 n) as G2. rewrite C in G1.
  assert (NK : NoDup (map fst (map (radar_col mc k) c2))) by (rewrite K; exact N).
  pose proof (dget_map (radar_col mc k) c2 n R0) as G3.
  set (h := fun x => (if mem n inv then c_div (Some 1) else fun y => y) ((if mem n rev then c_neg else fun y => y) x)).
  assert (G : dget String.eqb c2 n = Some (map h c)).
  { rewrite G2, G1. unfold h. destruct (mem n inv), (mem n rev); cbn [option_map]; try rewrite map_map; try rewrite map_id; reflexivity. }
  rewrite G in G3. cbn [option_map] in G3. eexists. split; [apply (col_dget _ _ _ NK); exact G3|].
  unfold radar_col. cbn [fst snd]. destruct (String.eqb_spec n "run_name") as [E|E].
  { cbn [snd]. split; [apply map_length|]. split; [|congruence]. intros _ A B. unfold h. rewrite (proj2 (mem_not n inv) A), (proj2 (mem_not n rev) B). apply map_id. }
  cbn [snd]. split; [destruct (match mc with All_mags => true | These l => mem n l end); rewrite !map_length; reflexivity|]. split; [congruence|].
  intros _ i b x v Hb Hx Hv. cbv zeta.
  assert (B : nth k (map h c) None = h b).
  { apply nth_error_nth. rewrite nth_error_map'. rewrite Hb. reflexivity. }
  rewrite B in Hv.
  assert (MQ : forall (P : Prop), (match mc with All_mags => true | These l => mem n l end = true <-> match mc with All_mags => True | These l => In n l end)).
  { intros _. destruct mc as [l|]; [apply mem_in|tauto]. }
  destruct (match mc with All_mags => true | These l => mem n l end) eqn:MM.
  - pose proof (proj1 (MQ True) eq_refl) as MG. rewrite !nth_error_map' in Hv. rewrite Hx in Hv. cbn [option_map] in Hv. injection Hv as <-.
    split; [intros F; contradiction|]. split; [intros F; contradiction|]. split.
    + intros _ A A'. unfold h. rewrite (proj2 (mem_not n inv) A), (proj2 (mem_not n rev) A'). destruct b, x; cbn; reflexivity.
    + intros _ A. assert (~ In n inv) as A' by (intros Q; apply (D n Q); exact A).
      unfold h. rewrite (proj2 (mem_not n inv) A'), (proj2 (mem_in n rev) A). destruct b, x; cbn; try reflexivity. f_equal. ring.
  - assert (MG : ~ match mc with All_mags => True | These l => In n l end) by (intros Q; apply (MQ True) in Q; congruence).
    rewrite !nth_error_map' in Hv. rewrite Hx in Hv. cbn [option_map] in Hv. injection Hv as <-.
    split; [|split; [|split; intros F; contradiction]].
    + intros _ A. unfold h. rewrite (proj2 (mem_not n inv) A). destruct (mem n rev).
      * destruct b as [b|], x as [x|]; cbn; try reflexivity. destruct (Req_EM_T (- b) 0) as [Z|Z]; cbn.
        -- split; [reflexivity|intros; lra].
        -- split; [intros; lra|]. intros Z'. f_equal. field. exact Z'.
      * destruct b as [b|], x as [x|]; cbn; try reflexivity. destruct (Req_EM_T b 0) as [Z|Z]; cbn.
        -- split; [reflexivity|intros; lra].
        -- split; [intros; lra|]. intros Z'. f_equal. field. exact Z'.
    + intros _ A. assert (~ In n rev) as A' by (apply D; exact A).
      unfold h. rewrite (proj2 (mem_in n inv) A), (proj2 (mem_not n rev) A').
      exact (norm_compared true false b x).
Qed.
Print Assumptions C335_value.

(** C335: without a reference run the values are only reversed and inverted. *)
Theorem C335_plain : forall index cols inv rev mc out, NoDup (map fst cols) -> NoDup inv -> NoDup rev ->
  normalize_for_radar index cols None inv rev mc = Ok out ->
  map fst out = map fst cols
  /\ forall n c, Col cols n c -> exists c', Col out n c' /\ length c' = length c
       /\ forall i x v, nth_error c i = Some (Some x) -> nth_error c' i = Some v ->
            let y := if in_dec string_dec n rev then - x else x in
            if in_dec string_dec n inv then (x <> 0 -> v = Some (1 / y)) /\ (x = 0 -> v = None) else v = Some y.
Proof.
  intros index cols inv rev mc out N NI NR H. unfold normalize_for_radar in H.
  destruct (change_cols c_neg rev cols) as [c1|] eqn:E1; [|discriminate]. cbn [bind] in H.
  destruct (change_cols (c_div (Some 1)) inv c1) as [c2|] eqn:E2; [|discriminate]. cbn [bind] in H. injection H as <-.
  assert (K : map fst c2 = map fst cols) by (rewrite <- (change_keys _ _ _ _ E1); apply (change_keys _ _ _ _ E2)).
  split; [exact K|]. intros n c C. apply (col_dget _ _ _ N) in C.
  pose proof (change_get _ _ _ _ NR E1 n) as G1. pose proof (change_get _ _ _ _ NI E2 n) as G2. rewrite C in G1.
  assert (NK : NoDup (map fst c2)) by (rewrite K; exact N).
  set (h := fun x => (if mem n inv then c_div (Some 1) else fun y => y) ((if mem n rev then c_neg else fun y => y) x)).
  assert (G : dget String.eqb c2 n = Some (map h c)).
  { rewrite G2, G1. unfold h. destruct (mem n inv), (mem n rev); cbn [option_map]; try rewrite map_map; try rewrite map_id; reflexivity. }
  exists (map h c). split; [apply (col_dget _ _ _ NK); exact G|]. split; [apply map_length|].
  intros i x v Hx Hv. rewrite nth_error_map' in Hv. change cell with (option R) in *. rewrite Hx in Hv. cbn [option_map] in Hv. injection Hv as <-. cbv zeta. unfold h.
  destruct (in_dec string_dec n rev) as [R1|R1]; [rewrite (proj2 (mem_in n rev) R1)|rewrite (proj2 (mem_not n rev) R1)];
    (destruct (in_dec string_dec n inv) as [I1|I1]; [rewrite (proj2 (mem_in n inv) I1)|rewrite (proj2 (mem_not n inv) I1)]; cbn; [|reflexivity]).
  - destruct (Req_EM_T (- x) 0) as [Z|Z]; split; intros Q; try reflexivity; lra.
  - destruct (Req_EM_T x 0) as [Z|Z]; split; intros Q; try reflexivity; lra.
Qed.
Print Assumptions C335_plain.

(** C335: reversing a column that is not in magnitudes does not make smaller values better: it has no effect at all. *)
Theorem C335_reverse_refuted : ~ (forall index cols r n out k c' b x i, normalize_for_radar index cols (Some r) [] [n] (These []) = Ok out -> LastAt index r k ->
  Col cols n [b; x] -> Col out n c' -> forall b' x' v, b = Some b' -> x = Some x' -> 0 < b' -> 0 < x' < b' -> k = 0%nat -> i = 1%nat -> nth_error c' i = Some (Some v) -> 1 < v).
Proof.
  intros H.
  destruct (proj2 (proj1 (C335_errors ["a"; "b"]%string [("m"%string, [Some 2; Some 1])] (Some "a"%string) [] ["m"%string] (These [])))) as [out E].
  { split; [intros n [[<-|[]]|[]]; left; reflexivity|]. intros x X. injection X as <-. left. reflexivity. }
  assert (L : LastAt ["a"; "b"]%string "a"%string 0).
  { split; [reflexivity|]. intros [|[|[|j]]] J; cbn; try lia; congruence. }
  assert (N1 : NoDup ["m"%string]) by (repeat constructor; cbn; tauto).
  destruct (C335_value _ [("m"%string, [Some 2; Some 1])] _ _ _ _ _ _ N1 (NoDup_nil _) N1 (fun n (f : In n []) => match f with end) E L) as [_ V].
  destruct (V "m"%string [Some 2; Some 1] (or_introl eq_refl)) as [c' [C [Lc [_ W]]]]; [cbn; lia|].
  destruct (nth_error c' 1) as [v|] eqn:Hv; [|apply nth_error_None in Hv; rewrite Lc in Hv; cbn in Hv; lia].
  destruct (W ltac:(discriminate) 1%nat (Some 2) (Some 1) v eq_refl eq_refl Hv) as [A _]. specialize (A (fun f => f) (fun f => f)).
  destruct A as [_ A]. specialize (A ltac:(lra)). rewrite A in Hv.
  specialize (H _ _ _ _ _ _ _ _ _ 1%nat E L (or_introl eq_refl) C 2 1 (1/2) eq_refl eq_refl ltac:(lra) ltac:(lra) eq_refl eq_refl Hv). lra.
Qed.
Print Assumptions C335_reverse_refuted.

Example C335_case : exists out, normalize_for_radar ["a"; "b"]%string [("m"%string, [Some 2; Some 1]); ("mag"%string, [Some 25; Some 26]); ("run_name"%string, [None; None])] (Some "a"%string) ["m"%string] ["mag"%string] (These ["mag"%string]) = Ok out.
Proof.
  apply C335_errors. split; [intros n [[<-|[]]|[<-|[]]]; cbn; tauto|]. intros x X. injection X as <-. left. reflexivity.
Qed.
