(** Property theorems: C105-C115. *)
From Verif Require Import Base Technical_Model Technical_Spec Technical_Proofs Technical_Proofs2 Technical_Proofs3 Archive_Proofs.
From Coq Require Import Lia QArith Qround Lqa Permutation Sorted.
Open Scope Z_scope.

Definition sv (t : Z) (s : string) : svisit := {| s_time := t; s_state := s |}.
(** a time order for the concrete cases *)
Fixpoint insert_sv (x : svisit) (l : list svisit) : list svisit :=
  match l with [] => [x] | y :: t => if s_time x <=? s_time y then x :: l else y :: insert_sv x t end.
Definition sort_sv (l : list svisit) : list svisit := fold_right insert_sv [] l.
Lemma sort_sv_order : time_order sort_sv.
Proof.
  assert (forall x l, Permutation (insert_sv x l) (x :: l)) as Hp.
  { intros x l. induction l as [|y t IH]; cbn; [reflexivity|]. destruct (s_time x <=? s_time y); [reflexivity|]. rewrite IH. apply perm_swap. }
  intros l. split.
  - induction l as [|x t IH]; cbn; [reflexivity|]. rewrite Hp. constructor. exact IH.
  - induction l as [|x t IH]; cbn; [constructor|]. fold (sort_sv t). induction IH as [|y r Hs IH Hy]; cbn; [repeat constructor|].
    destruct (Z.leb_spec (s_time x) (s_time y)) as [H|H].
    + constructor; [constructor; assumption|]. constructor; [exact H|]. eapply Forall_impl; [|exact Hy]. intros z Hz. unfold by_time in *. lia.
    + constructor; [exact IH|]. rewrite Forall_forall in *. intros z Hz. apply (Permutation_in _ (Hp x r)) in Hz. destruct Hz as [<-|Hz]; [unfold by_time; lia | apply Hy; exact Hz].
Qed.

(** C105: the number of changes is the number of visits whose state differs from that of the next visit in time; it is
    at least the number of distinct states less one; zero exactly when there is one state; and it does not depend on
    the order of the rows when no two visits have the same time *)
Theorem C105_n_changes : forall order data, time_order order ->
  n_changes order data = Z.of_nat (length (change_positions (order data))) /\
  (forall states, NoDup states -> (forall s, In s states -> exists v, In v data /\ s_state v = s) ->
    Z.of_nat (length states) - 1 <= n_changes order data) /\
  (n_changes order data = 0 <-> forall a b, In a data -> In b data -> s_state a = s_state b).
Proof.
  intros order data H. destruct (H data) as [Hp Hs]. unfold n_changes. split; [rewrite n_changes_length; reflexivity|split].
  - intros states Hn Hst. pose proof (distinct_bound (order data) states Hn) as Hd. assert (length states <= S (length (change_times (order data))))%nat; [|lia].
    apply Hd. intros s Hi. destruct (Hst s Hi) as (v & Hv & E). exists v. split; [apply (Permutation_in _ (Permutation_sym Hp)); exact Hv | exact E].
  - rewrite <- (Nat2Z.inj_0 : Z.of_nat 0 = 0). rewrite Nat2Z.inj_iff, length_zero_iff_nil, change_none_iff. split; intros Hc a b Ha Hb.
    + apply Hc; apply (Permutation_in _ (Permutation_sym Hp)); assumption.
    + apply Hc; apply (Permutation_in _ Hp); assumption.
Qed.
Print Assumptions C105_n_changes.
Theorem C105_row_order : forall order order' data data', time_order order -> time_order order' -> Permutation data data' ->
  NoDup (map s_time data) -> n_changes order data = n_changes order' data'.
Proof.
  intros order order' data data' H H' Hp Hn. destruct (H data) as [P1 S1]. destruct (H' data') as [P2 S2]. unfold n_changes. f_equal. f_equal. f_equal.
  apply sorted_unique; [exact S1 | exact S2 | |].
  - rewrite P1, Hp. symmetry. exact P2.
  - apply (Permutation_NoDup (l := map s_time data)); [apply Permutation_map; symmetry; exact P1 | exact Hn].
Qed.
Print Assumptions C105_row_order.
Example C105_case : time_order sort_sv /\ n_changes sort_sv [sv 3 "g"; sv 1 "r"; sv 2 "g"; sv 5 "r"; sv 4 "g"] = 2 /\
  n_changes sort_sv [sv 3 "g"; sv 1 "g"] = 0.
Proof. split; [exact sort_sv_order | split; reflexivity]. Qed.

(** C106: full statement: the shortest time between two successive changes of state.  It fails: the time from the first
    visit to the first change takes part *)
Theorem C106_min_time_refuted : ~ forall order data d, time_order order -> min_time_between order data = Ok (Some d) ->
  exists x y, successive x y (changes (order data)) /\ d = y - x.
Proof.
  intros H. destruct (H sort_sv [sv 0 "g"; sv 1 "r"; sv 100 "g"]%string 1 sort_sv_order eq_refl) as (x & y & (i & E1 & E2) & E).
  destruct i as [|[|i]]; cbn in E1, E2; [injection E1 as <-; injection E2 as <-; discriminate | discriminate | destruct i; discriminate].
Qed.
Print Assumptions C106_min_time_refuted.
(** what holds: it is the shortest of the times between successive changes and the time from the first visit to the
    first change, and there is a value exactly when the state changes *)
Theorem C106_min_time_partial : forall order data first, time_order order -> hd_error (order data) = Some first ->
  exists r, min_time_between order data = Ok r /\
  (r = None <-> forall a b, In a data -> In b data -> s_state a = s_state b) /\
  (forall d, r = Some d ->
    ((exists c, hd_error (changes (order data)) = Some c /\ d = c - s_time first) \/
     exists x y, successive x y (changes (order data)) /\ d = y - x) /\
    (forall c, hd_error (changes (order data)) = Some c -> d <= c - s_time first) /\
    (forall x y, successive x y (changes (order data)) -> d <= y - x)).
Proof.
  intros order data first H Hf. destruct (H data) as [Hp Hs]. unfold min_time_between. destruct (order data) as [|v l] eqn:El; [discriminate|]. injection Hf as ->.
  eexists. split; [reflexivity|]. rewrite <- change_times_spec. split.
  - destruct (dtimes (s_time first) (change_times (first :: l))) as [|d0 ds] eqn:Ed.
    + split; [|reflexivity]. intros _. assert (change_times (first :: l) = []) as En by (destruct (change_times (first :: l)) as [|c cs]; [reflexivity | rewrite dtimes_cons in Ed; discriminate]).
      intros a b Ha Hb. apply (proj1 (change_none_iff _) En); apply (Permutation_in _ (Permutation_sym Hp)); assumption.
    + split; [discriminate|]. intros Hc. exfalso. assert (change_times (first :: l) = []) as En by (apply change_none_iff; intros a b Ha Hb; apply Hc; apply (Permutation_in _ Hp); assumption). rewrite En in Ed. discriminate.
  - intros d E. apply zmin_spec in E. destruct E as [E1 E2]. split; [apply dtimes_in; exact E1 | split].
    + intros c Hc. apply E2. apply dtimes_in. left. exists c. split; [exact Hc | reflexivity].
    + intros x y Hxy. apply E2. apply dtimes_in. right. exists x, y. split; [exact Hxy | reflexivity].
Qed.
Print Assumptions C106_min_time_partial.
Example C106_case : min_time_between sort_sv [sv 50 "g"; sv 0 "g"; sv 57 "r"; sv 60 "g"] = Ok (Some 3).
Proof. reflexivity. Qed.

(** C107: full statement: the number of changes that follow the previous change within the cutoff *)
Theorem C107_faster_refuted : ~ forall order cutoff data n, time_order order -> n_faster_than order cutoff data = Ok n ->
  n = Z.of_nat (count_pairs (fun x y => y - x <? cutoff) (changes (order data))).
Proof. intros H. specialize (H sort_sv 20 [sv 0 "g"; sv 1 "r"]%string 1 sort_sv_order eq_refl). discriminate. Qed.
Print Assumptions C107_faster_refuted.
(** what holds: that number, and one more when the first change is within the cutoff of the first visit *)
Theorem C107_faster_partial : forall order cutoff data first, time_order order -> hd_error (order data) = Some first ->
  n_faster_than order cutoff data = Ok (Z.of_nat (count_pairs (fun x y => y - x <? cutoff) (changes (order data))) +
    match hd_error (changes (order data)) with Some c => if c - s_time first <? cutoff then 1 else 0 | None => 0 end).
Proof.
  intros order cutoff data first H Hf. unfold n_faster_than. destruct (order data) as [|v l] eqn:El; [discriminate|]. injection Hf as ->.
  f_equal. rewrite <- change_times_spec, dtimes_count. destruct (change_times (first :: l)) as [|c cs]; cbn [hd_error]; [lia|]. destruct (c - s_time first <? cutoff); lia.
Qed.
Print Assumptions C107_faster_partial.
Example C107_case : n_faster_than sort_sv 20 [sv 100 "g"; sv 0 "g"; sv 110 "r"; sv 115 "g"; sv 300 "r"] = Ok 1.
Proof. reflexivity. Qed.

(** C108: the largest number of changes within any window of the given length *)
Theorem C108_max_within : forall order timespan data, time_order order -> 0 <= timespan ->
  (forall a, Z.of_nat (count (fun c => (a <=? c) && (c <=? a + timespan)) (changes (order data))) <= max_within order timespan data) /\
  exists a, Z.of_nat (count (fun c => (a <=? c) && (c <=? a + timespan)) (changes (order data))) = max_within order timespan data.
Proof.
  intros order span data H Hsp. destruct (H data) as [Hp Hs]. unfold max_within. destruct (Nat.eqb_spec (length data) 1) as [E1|E1].
  - assert (changes (order data) = []) as ->; [|split; [intros a; apply Z.le_refl | exists 0; reflexivity]].
    rewrite <- change_times_spec. pose proof (Permutation_length Hp) as Hl. rewrite E1 in Hl. destruct (order data) as [|v [|w l]]; [discriminate | reflexivity | discriminate].
  - cbv zeta. rewrite <- change_times_spec. apply max_windows; [apply change_sorted; exact Hs | exact Hsp | reflexivity].
Qed.
Print Assumptions C108_max_within.
Example C108_case : max_within sort_sv 10 [sv 0 "g"; sv 5 "r"; sv 10 "g"; sv 15 "r"; sv 40 "g"; sv 45 "r"] = 3.
Proof. reflexivity. Qed.

(** C109: the open shutter fraction lies between 0 and 1, and between the smallest and largest fraction of a visit *)
Theorem C109_open_shutter : forall l, l <> [] ->
  (forall v, In v l -> 0 <= o_exp v <= o_visit v /\ 0 <= o_slew v /\ 0 < o_visit v) ->
  exists r, open_shutter l = Some r /\ (0 <= r <= 1)%Q /\
    (forall p q, 0 < q -> (forall v, In v l -> p * (o_slew v + o_visit v) <= q * o_exp v) -> (inject_Z p / inject_Z q <= r)%Q) /\
    (forall p q, 0 < q -> (forall v, In v l -> q * o_exp v <= p * (o_slew v + o_visit v)) -> (r <= inject_Z p / inject_Z q)%Q).
Proof.
  intros l Hne H. assert (0 < zsum (map (fun v => o_slew v + o_visit v) l)) as Hpos.
  { destruct l as [|v t]; [contradiction|]. assert (0 <= zsum (map (fun v => o_slew v + o_visit v) t)) as Ht.
    { transitivity (zsum (map (fun _ : ovis => 0) t)); [clear; induction t; cbn; [lia | exact IHt] | apply zsum_map_le; intros x Hx; specialize (H x (or_intror Hx)); lia]. }
    specialize (H v (or_introl eq_refl)). cbn. unfold zsum in Ht. lia. }
  unfold open_shutter. destruct (fdiv _ _) as [r|] eqn:E; [|unfold fdiv in E; destruct (Z.eqb_spec (zsum (map (fun v => o_slew v + o_visit v) l)) 0); [lia | discriminate]].
  exists r. split; [reflexivity|].
  assert (forall p q, 0 < q -> (forall v, In v l -> p * (o_slew v + o_visit v) <= q * o_exp v) -> (inject_Z p / inject_Z q <= r)%Q) as Hlo.
  { intros p q Hq Hv. apply (proj1 (fdiv_bounds _ _ _ p q E Hpos Hq)). rewrite <- !zsum_scale. apply zsum_map_le. exact Hv. }
  assert (forall p q, 0 < q -> (forall v, In v l -> q * o_exp v <= p * (o_slew v + o_visit v)) -> (r <= inject_Z p / inject_Z q)%Q) as Hhi.
  { intros p q Hq Hv. apply (proj2 (fdiv_bounds _ _ _ p q E Hpos Hq)). rewrite <- !zsum_scale. apply zsum_map_le. exact Hv. }
  split; [|split; [exact Hlo | exact Hhi]]. split.
  - apply Qle_trans with (inject_Z 0 / inject_Z 1)%Q; [apply Qle_refl|]. apply Hlo; [lia|]. intros v Hv. specialize (H v Hv). lia.
  - apply Qle_trans with (inject_Z 1 / inject_Z 1)%Q; [|apply Qle_refl]. apply Hhi; [lia|]. intros v Hv. specialize (H v Hv). lia.
Qed.
Print Assumptions C109_open_shutter.
Definition ov (m e v s : Z) : ovis := {| o_mjd := m; o_exp := e; o_visit := v; o_slew := s |}.
Example C109_case : exists r, open_shutter [ov 0 30 34 6; ov 40 15 16 104] = Some r /\ (r == 45 # 160)%Q /\
  forall v, In v [ov 0 30 34 6; ov 40 15 16 104] -> 0 <= o_exp v <= o_visit v /\ 0 <= o_slew v /\ 0 < o_visit v.
Proof. eexists. split; [reflexivity | split; [reflexivity|]]. intros v [<-|[<-|[]]]; cbn; lia. Qed.

(** C110: full statement: for exposures that do not overlap and no fudge, the fraction from the visit times is at most
    one.  It fails: the exposure of a visit that is not followed within the gap counts, the time after it does not *)
Theorem C110_brute_osf_refuted : ~ forall maxgap data visits r, Permutation visits data ->
  StronglySorted (fun a b => o_mjd a <= o_mjd b) visits ->
  (forall v w, successive v w visits -> 0 <= o_exp v <= o_mjd w - o_mjd v) ->
  brute_osf maxgap 0 data = Some r -> (r <= 1)%Q.
Proof.
  intros H. specialize (H 600 [ov 0 30 34 2; ov 36 30 34 2] [ov 0 30 34 2; ov 36 30 34 2] (60 # 36)%Q (Permutation_refl _)).
  assert (60 # 36 <= 1)%Q as Hc; [|unfold Qle in Hc; cbn in Hc; lia]. apply H.
  - repeat constructor; cbn; lia.
  - intros v w (i & E1 & E2). destruct i as [|[|i]]; cbn in E1, E2; [|discriminate|destruct i; discriminate]. injection E1 as <-. injection E2 as <-. cbn. lia.
  - vm_compute. reflexivity.
Qed.
Print Assumptions C110_brute_osf_refuted.
(** what holds: the value is the total exposure time over a time that is at least the exposure time of the visits that
    are followed by another within the gap *)
Theorem C110_brute_osf_partial : forall maxgap data visits r, Permutation visits data ->
  StronglySorted (fun a b => o_mjd a <= o_mjd b) visits ->
  (forall v w, successive v w visits -> 0 <= o_exp v <= o_mjd w - o_mjd v) ->
  brute_osf maxgap 0 data = Some r ->
  exists open, open <> 0 /\ (r == inject_Z (zsum (map o_exp data)) / inject_Z open)%Q /\
    zsum (map o_exp (followed maxgap visits)) <= open.
Proof.
  intros maxgap data visits r Hp Hs Hv E. unfold brute_osf in E. cbv zeta in E.
  assert (sort_z (map o_mjd data) = map o_mjd visits) as Es.
  { apply sorted_perm_eq; [apply sort_z_sorted | |].
    - clear - Hs. induction Hs as [|a l H IH Ha]; cbn; constructor; [exact IH|]. rewrite Forall_forall in *. intros x Hx. apply in_map_iff in Hx. destruct Hx as (b & <- & Hb). apply Ha. exact Hb.
    - rewrite sort_z_perm. apply Permutation_map. symmetry. exact Hp. }
  rewrite Es in E. set (open := zsum (filter (fun d => d <? maxgap) (diff_z (map o_mjd visits)))) in *. exists open.
  unfold fdiv in E. destruct (Z.eqb_spec open 0) as [E0|E0]; [discriminate|]. injection E as <-. split; [exact E0 | split].
  - assert (map (fun v => o_exp v + 0) data = map o_exp data) as -> by (apply map_ext; intros; lia). reflexivity.
  - apply followed_open. intros v w H. apply Hv. exact H.
Qed.
Print Assumptions C110_brute_osf_partial.
Example C110_case : brute_osf 600 0 [ov 100 30 34 2; ov 0 30 34 2; ov 40 30 34 2; ov 5000 30 34 2] = Some (120 # 100)%Q /\
  map o_mjd (followed 600 [ov 0 30 34 2; ov 40 30 34 2; ov 100 30 34 2; ov 5000 30 34 2]) = [0; 40].
Proof. split; vm_compute; reflexivity. Qed.

(** C111: full statement: for every column the metric counts each text, the texts without the trailing number when
    asked for, with "blank" for the empty text.  It fails when both the empty text and "blank" occur *)
Theorem C111_string_count_refuted : ~ forall percent clip_end col, exists value, string_count percent clip_end col = Ok value.
Proof. intros H. destruct (H false false [""; "blank"]%string) as (v & E). discriminate. Qed.
Print Assumptions C111_string_count_refuted.
Theorem C111_string_count_partial : forall (percent clip_end : bool) (col texts : list string),
  texts = (if clip_end then map clip col else col) -> ~ (In ""%string texts /\ In "blank"%string texts) ->
  exists value, string_count percent clip_end col = Ok value /\ NoDup (map fst value) /\
  (forall s, In s texts -> exists q, lookup_key (if String.eqb s "" then "blank" else s) value = Ok q /\
     (q == if percent then 100 * inject_Z (occurrences s texts) / inject_Z (Z.of_nat (length col)) else inject_Z (occurrences s texts))%Q) /\
  (forall k, In k (map fst value) -> exists s, In s texts /\ k = (if String.eqb s "" then "blank" else s)%string) /\
  (col <> [] -> (fold_right Qplus 0 (map snd value) == if percent then 100 else inject_Z (Z.of_nat (length col)))%Q).
Proof.
  intros percent clip_end col texts -> Hb. unfold string_count. cbv zeta. set (texts := if clip_end then map clip col else col) in *.
  assert (length texts = length col) as Hlen by (unfold texts; destruct clip_end; [apply map_length | reflexivity]).
  assert (NoDup (map label (map fst (counter texts)))) as Hnd.
  { apply label_nodup; [apply counter_keys|]. rewrite !counter_key. exact Hb. }
  assert (map (fun p : string * Z => label (fst p)) (counter texts) = map label (map fst (counter texts))) as Em by (rewrite map_map; reflexivity).
  rewrite Em, (proj2 (has_dup_iff _) Hnd). set (vals := map (fun p => (label (fst p), inject_Z (snd p))) (counter texts)).
  assert (map fst vals = map label (map fst (counter texts))) as Ef by (unfold vals; rewrite !map_map; reflexivity).
  assert (fold_right Qplus 0 (map snd vals) == inject_Z (Z.of_nat (length col)))%Q as Esum.
  { unfold vals. rewrite map_map. cbn [snd]. rewrite <- (map_map snd inject_Z), qsum_inject, counter_total, Hlen. reflexivity. }
  set (norm := (fold_right Qplus 0 (map snd vals) / 100)%Q). set (value := if percent then map (fun p => (fst p, (snd p / norm)%Q)) vals else vals).
  exists value. assert (map fst value = map fst vals) as Efv by (unfold value; destruct percent; [rewrite map_map; reflexivity | reflexivity]).
  split; [reflexivity | split; [rewrite Efv, Ef; exact Hnd | split; [|split]]].
  - intros s Hs. assert (In (label s, inject_Z (occurrences s texts)) vals) as Hi.
    { unfold vals. apply in_map_iff. exists (s, occurrences s texts). split; [reflexivity|]. apply counter_in. split; [reflexivity | exact Hs]. }
    fold (label s). unfold lookup_key. destruct percent.
    + assert (In (label s, (inject_Z (occurrences s texts) / norm)%Q) value) as Hi'.
      { unfold value. apply in_map_iff. exists (label s, inject_Z (occurrences s texts)). split; [reflexivity | exact Hi]. }
      rewrite (dget_some_in String.eqb String.eqb_eq value (label s) (inject_Z (occurrences s texts) / norm)%Q (eq_ind_r (fun l => NoDup l) Hnd (eq_trans Efv Ef)) Hi'). eexists. split; [reflexivity|].
      unfold norm. rewrite Esum. assert (~ inject_Z (Z.of_nat (length col)) == 0)%Q as Hn0.
      { rewrite <- Hlen. intros Hc. change 0%Q with (inject_Z 0) in Hc. rewrite inject_Z_injective in Hc. destruct texts; [destruct Hs | cbn in Hc; lia]. }
      field. exact Hn0.
    + rewrite (dget_some_in String.eqb String.eqb_eq value (label s) (inject_Z (occurrences s texts)) (eq_ind_r (fun l => NoDup l) Hnd (eq_trans Efv Ef)) Hi). eexists. split; reflexivity.
  - intros k Hk. rewrite Efv, Ef in Hk. apply in_map_iff in Hk. destruct Hk as (s & <- & Hs). apply (proj1 (counter_key texts s)) in Hs. exists s. split; [exact Hs | reflexivity].
  - intros Hne. unfold value. destruct percent; [|exact Esum]. rewrite map_map. cbn [snd].
    assert (forall l : list (string * Q), (fold_right Qplus 0 (map (fun p => snd p / norm) l) == fold_right Qplus 0 (map snd l) / norm)%Q) as Hd.
    { induction l as [|p l IH]; cbn [map fold_right]; [unfold Qdiv; ring | rewrite IH; unfold Qdiv; ring]. }
    rewrite Hd. unfold norm. rewrite Esum. assert (~ inject_Z (Z.of_nat (length col)) == 0)%Q as Hn0.
    { intros Hc. change 0%Q with (inject_Z 0) in Hc. rewrite inject_Z_injective in Hc. destruct col; [contradiction | cbn in Hc; lia]. }
    field. exact Hn0.
Qed.
Print Assumptions C111_string_count_partial.
(** the text counted: a trailing comma, blank and digits are removed, once, and nothing else *)
Theorem C111_clip : forall s, (forall p q, s = (p ++ ", " ++ q)%string -> digit_text q -> clip s = p) /\
  ((forall p q, s = (p ++ ", " ++ q)%string -> ~ digit_text q) -> clip s = s).
Proof. exact clip_spec. Qed.
Print Assumptions C111_clip.
Example C111_case : string_count false true ["pairs, 12"; "blob"; "pairs, 7"; ""; "a, b"]%string =
  Ok [("pairs", 2); ("blob", 1); ("blank", 1); ("a, b", 1)]%Q%string /\ clip "dd, 3, 4"%string = "dd, 3"%string.
Proof. split; vm_compute; reflexivity. Qed.

(** C112: full statement: the reduce functions present after any slices have been evaluated give a value for each of
    them.  It fails: the functions of all slices accumulate, and a text missing in one slice raises an exception there *)
Theorem C112_reduce_refuted : ~ forall cols values key, Forall2 (fun col value => string_count false false col = Ok value) cols values ->
  In key (fold_left add_reduce values []) -> forall value, In value values -> exists q, lookup_key key value = Ok q.
Proof.
  intros H. destruct (H [["g"]; ["r"]]%string [[("g"%string, 1%Q)]; [("r"%string, 1%Q)]] "r"%string) with (value := [("g"%string, 1%Q)]) as (q & E).
  - repeat constructor.
  - vm_compute. right. left. reflexivity.
  - left. reflexivity.
  - discriminate.
Qed.
Print Assumptions C112_reduce_refuted.
(** what holds: there is a function for every text of every slice, it gives that slice's own value, and no function is
    listed twice *)
Theorem C112_reduce_partial : forall cols values, Forall2 (fun col value => string_count false false col = Ok value) cols values ->
  NoDup (fold_left add_reduce values []) /\
  forall value, In value values -> forall k, In k (map fst value) ->
    In k (fold_left add_reduce values []) /\ exists q, lookup_key k value = Ok q.
Proof.
  intros cols values H.
  assert (forall value, In value values -> NoDup (map fst value)) as Hv.
  { intros value Hi. induction H as [|col v cols' vs Hc _ IH]; [destruct Hi|]. destruct Hi as [<-|Hi]; [|apply IH; exact Hi].
    unfold string_count in Hc. cbv zeta in Hc. destruct (has_dup _) eqn:E in Hc; [discriminate|]. injection Hc as <-. apply has_dup_iff in E. rewrite map_map. exact E. }
  assert (forall vs acc, (forall v, In v vs -> NoDup (map fst v)) -> NoDup acc -> NoDup (fold_left add_reduce vs acc)) as Hn.
  { clear. induction vs as [|v vs IH]; intros acc Hv Ha; [exact Ha|]. cbn. apply IH; [intros w Hw; apply Hv; right; exact Hw|].
    unfold add_reduce. apply nodup_app; [exact Ha | apply NoDup_filter, Hv; left; reflexivity|]. intros z Hz Hc. apply filter_In in Hc. destruct Hc as [_ Hc]. apply negb_true_iff in Hc.
    assert (existsb (String.eqb z) acc = true) as E by (apply existsb_exists; exists z; split; [exact Hz | apply String.eqb_refl]). congruence. }
  assert (forall vs acc k, In k acc -> In k (fold_left add_reduce vs acc)) as Hacc.
  { clear. induction vs as [|v vs IH]; intros acc k Hk; [exact Hk|]. cbn. apply IH. unfold add_reduce. apply in_or_app. left. exact Hk. }
  split; [apply Hn; [exact Hv | constructor]|]. intros value Hi k Hk. split.
  - assert (forall vs acc, In value vs -> In k (fold_left add_reduce vs acc)) as Hf; [|apply Hf; exact Hi].
    clear - Hk Hacc. induction vs as [|v vs IH]; intros acc Hi; [destruct Hi|]. cbn. destruct Hi as [-> |Hi]; [|apply IH; exact Hi]. apply Hacc. unfold add_reduce. apply in_or_app.
    destruct (existsb (String.eqb k) acc) eqn:E; [left; apply existsb_exists in E; destruct E as (y & Hy & Ey); apply String.eqb_eq in Ey; subst; exact Hy | right; apply filter_In; split; [exact Hk | rewrite E; reflexivity]].
  - apply in_map_iff in Hk. destruct Hk as ([k' q] & E & Hq). cbn in E. subst k'. exists q. unfold lookup_key. rewrite (dget_some_in String.eqb String.eqb_eq value k q (Hv value Hi) Hq). reflexivity.
Qed.
Print Assumptions C112_reduce_partial.
Example C112_case : fold_left add_reduce [[("g", 2)]; [("r", 1); ("g", 5)]]%string%Q [] = ["g"; "r"]%string.
Proof. reflexivity. Qed.

(** C113: for at least two periods over a proper range, the periods run from the smallest to the largest; each gap is
    between 1/n and 1, is the length of some stretch of phase without visits and no such stretch is longer *)
Theorem C113_phase_gap_partial : forall n_periods pmin pmax n_visits_min times,
  (2 <= n_periods)%nat -> (0 < pmin < pmax)%Q -> times <> [] -> (n_visits_min <= length times)%nat ->
  exists ps gaps, phase_gap n_periods pmin pmax n_visits_min times = Some (map Some ps, map Some gaps) /\
  length ps = n_periods /\ length gaps = n_periods /\
  (forall i p, nth_error ps i = Some p -> (p == pmin + (pmax - pmin) * (inject_Z (Z.of_nat i) / inject_Z (Z.of_nat n_periods - 1)))%Q) /\
  (forall i p g, nth_error ps i = Some p -> nth_error gaps i = Some g ->
     (1 <= inject_Z (Z.of_nat (length times)) * g)%Q /\ (g <= 1)%Q /\
     (forall a b, (forall t k, In t times -> ~ (a < t / p + inject_Z k < b)%Q) -> (b - a <= g)%Q) /\
     exists a, forall t k, In t times -> ~ (a < t / p + inject_Z k < a + g)%Q).
Proof.
  intros n pmin pmax nmin times Hn Hp Hne Hlen. unfold phase_gap. destruct (Nat.ltb_spec (length times) nmin) as [Hl|_]; [lia|]. cbv zeta. unfold periods.
  assert (0 < inject_Z (Z.of_nat n))%Q as Hnq by (change 0%Q with (inject_Z 0); rewrite <- Zlt_Qlt; lia).
  destruct (Qeq_bool ((pmax - pmin) / inject_Z (Z.of_nat n)) 0) eqn:E.
  { exfalso. apply Qeq_bool_iff in E. assert (pmax - pmin == (pmax - pmin) / inject_Z (Z.of_nat n) * inject_Z (Z.of_nat n))%Q as E' by (field; Lqa.lra). rewrite E in E'. Lqa.lra. }
  destruct (Nat.eqb_spec n 1) as [E1|_]; [lia|].
  set (f := fun i => (inject_Z (Z.of_nat i) / inject_Z (Z.of_nat (n - 1)) * (pmax - pmin) + pmin)%Q).
  exists (map f (seq 0 n)), (map (largest_gap times) (map f (seq 0 n))). split; [|split; [|split; [|split]]].
  - f_equal. rewrite !map_map, map_length, seq_length, Nat.sub_diag. cbn [repeat]. rewrite app_nil_r. f_equal.
  - rewrite map_length, seq_length. reflexivity.
  - rewrite !map_length, seq_length. reflexivity.
  - intros i p Hi. rewrite nth_error_map in Hi. destruct (nth_error (seq 0 n) i) as [j|] eqn:Ej; [|discriminate]. cbn in Hi. injection Hi as <-.
    assert (j = i) as ->.
    { assert (i < length (seq 0 n))%nat as Hil by (apply nth_error_Some; congruence). rewrite seq_length in Hil. apply (nth_error_nth _ _ 0%nat) in Ej. rewrite seq_nth in Ej by exact Hil. lia. }
    unfold f. rewrite Nat2Z.inj_sub by lia. change (Z.of_nat 1) with 1. assert (0 < inject_Z (Z.of_nat n - 1))%Q as Hd by (change 0%Q with (inject_Z 0); rewrite <- Zlt_Qlt; lia). field. Lqa.lra.
  - intros i p g Hi Hg. rewrite nth_error_map, Hi in Hg. cbn in Hg. injection Hg as <-. apply largest_gap_spec. exact Hne.
Qed.
Print Assumptions C113_phase_gap_partial.
(** it fails for equal smallest and largest periods: the other entries are zero, below the smallest possible gap, and
    the mean over the periods is too small *)
Theorem C113_phase_gap_refuted : ~ forall n_periods pmin pmax n_visits_min times ps gaps,
  (1 <= n_periods)%nat -> (0 < pmin <= pmax)%Q -> times <> [] ->
  phase_gap n_periods pmin pmax n_visits_min times = Some (ps, gaps) -> forall g, In g gaps -> exists q, g = Some q /\ (0 < q)%Q.
Proof.
  intros H. destruct (H 5%nat 3%Q 3%Q 3%nat [0%Q; 1%Q; 2%Q] _ _ ltac:(lia) ltac:(split; [reflexivity | discriminate]) ltac:(discriminate) eq_refl (Some 0%Q)) as (q & E & Hq).
  - vm_compute. right. left. reflexivity.
  - injection E as <-. discriminate.
Qed.
Print Assumptions C113_phase_gap_refuted.
(** and with a single period over a proper range there is no period at all (0/0) *)
Theorem C113_single_period_refuted : forall pmin pmax n_visits_min times, (pmin < pmax)%Q -> (n_visits_min <= length times)%nat ->
  phase_gap 1 pmin pmax n_visits_min times = Some ([None], [None]).
Proof.
  intros pmin pmax nmin times Hp Hl. unfold phase_gap. destruct (Nat.ltb_spec (length times) nmin); [lia|]. cbv zeta. unfold periods.
  destruct (Qeq_bool ((pmax - pmin) / inject_Z (Z.of_nat 1)) 0) eqn:E; [|reflexivity]. exfalso. apply Qeq_bool_iff in E. change (inject_Z (Z.of_nat 1)) with 1%Q in E. assert (pmax - pmin == (pmax - pmin) / 1)%Q as E' by field. Lqa.lra.
Qed.
Print Assumptions C113_single_period_refuted.
Example C113_case : exists ps gaps, phase_gap 2 2 4 3 [0; 1; 4]%Q = Some (ps, gaps) /\ map (option_map Qred) ps = [Some 2; Some 4]%Q /\
  map (option_map Qred) gaps = [Some (1 # 2); Some (3 # 4)]%Q.
Proof. eexists. eexists. split; [vm_compute; reflexivity | split; vm_compute; reflexivity]. Qed.

(** C114: full statement: the number of pairs of visits with a separation in the range.  It fails: pairs of time bins
    are counted, so visits in one bin count once *)
Theorem C114_pairs_refuted : ~ forall mn mx bs times ps, 0 < bs -> bs < mn -> NoDup ps ->
  (forall t u, In (t, u) ps <-> In t times /\ In u times /\ mn <= t - u <= mx) -> NoDup times ->
  pair_metric mn mx bs times = (if Nat.eqb (length ps) 0 then None else Some (Z.of_nat (length ps))).
Proof.
  intros H. specialize (H 15 40 5 [0; 1; 30] [(30, 0); (30, 1)] ltac:(lia) ltac:(lia)).
  assert (pair_metric 15 40 5 [0; 1; 30] = Some 2) as E; [|discriminate]. apply H.
  - repeat constructor; cbn; intuition congruence.
  - intros t u. cbn. split.
    + intros [E|[E|[]]]; injection E as <- <-; intuition lia.
    + intros (Ht & Hu & Hr). destruct Ht as [<-|[<-|[<-|[]]]], Hu as [<-|[<-|[<-|[]]]]; try lia; auto.
  - repeat constructor; cbn; intuition congruence.
Qed.
Print Assumptions C114_pairs_refuted.
(** what holds: there are at least that many distinct pairs of distinct visit times with a separation within one and a
    half bins of the range; and some pair is found whenever a separation is inside the range by a bin *)
Theorem C114_pairs_partial : forall mn mx bs times, 0 < bs -> bs < 2 * mn ->
  (forall r, pair_metric mn mx bs times = Some r -> exists ps : list (Z * Z), NoDup ps /\ Z.of_nat (length ps) = r /\
    forall t u, In (t, u) ps -> In t times /\ In u times /\ u < t /\ 2 * mn - 3 * bs <= 2 * (t - u) <= 2 * mx + 3 * bs) /\
  (forall t u, In t times -> In u times -> mn + bs <= t - u <= mx - bs -> pair_metric mn mx bs times <> None).
Proof.
  intros mn mx bs times Hbs Hmn. split; [intros r Hr; apply pair_metric_upper; assumption|].
  intros t u Ht Hu Hs. apply (pair_metric_found mn mx bs times t u); try assumption. lia.
Qed.
Print Assumptions C114_pairs_partial.
Example C114_case : pair_metric 20 40 5 [0; 30; 31; 62; 500; 530] = Some 3.
Proof. vm_compute. reflexivity. Qed.

(** C115: full statement: the mean campaign frequency is between the smallest and the largest separation of nights that
    follow each other within a season.  It fails: a season with one night counts as separation zero *)
Theorem C115_frequency_refuted : ~ forall visits r lo hi, mean_campaign_frequency visits = Some r ->
  (exists s a b, next_night (map q_night (filter (fun v => q_long v && (q_season v =? s)) visits)) a b) ->
  (forall s a b, next_night (map q_night (filter (fun v => q_long v && (q_season v =? s)) visits)) a b -> lo <= b - a <= hi) ->
  (inject_Z lo <= r <= inject_Z hi)%Q.
Proof.
  intros H. set (q := fun s n => {| q_season := s; q_night := n; q_long := true |}).
  specialize (H [q 0 1; q 0 11; q 1 400] (inject_Z 10 / inject_Z 2)%Q 10 10).
  assert (forall s a b, next_night (map q_night (filter (fun v => q_long v && (q_season v =? s)) [q 0 1; q 0 11; q 1 400])) a b -> a = 1 /\ b = 11) as Hn.
  { intros s a b (Ha & Hb & Hab & _). cbn in Ha, Hb. destruct (Z.eq_dec s 0) as [->|N0].
    - cbn in Ha, Hb. lia.
    - destruct s as [|p|p]; [contradiction| |cbn in Ha; destruct Ha]. cbn [Z.eqb] in *. destruct (Pos.eqb 1 p) eqn:E; cbn in *; lia. }
  destruct H as [Hlo _].
  - vm_compute. reflexivity.
  - exists 0, 1, 11. split; [left; reflexivity | split; [right; left; reflexivity | split; [lia|]]]. intros c Hc. cbn in Hc. lia.
  - intros s a b Hab. destruct (Hn s a b Hab) as [-> ->]. lia.
  - unfold Qle in Hlo. cbn in Hlo. lia.
Qed.
Print Assumptions C115_frequency_refuted.
(** what holds: the claim, when every season with visits has two nights *)
Theorem C115_frequency_partial : forall visits r lo hi, mean_campaign_frequency visits = Some r ->
  (forall v, In v visits -> q_long v = true -> exists w, In w visits /\ q_long w = true /\ q_season w = q_season v /\ q_night w <> q_night v) ->
  (forall s a b, next_night (map q_night (filter (fun v => q_long v && (q_season v =? s)) visits)) a b -> lo <= b - a <= hi) ->
  (inject_Z lo <= r <= inject_Z hi)%Q.
Proof.
  intros visits r lo hi H Hw Hn. unfold mean_campaign_frequency in H. destruct (filter q_long visits) as [|v0 good] eqn:Eg; [discriminate|]. rewrite <- Eg in H.
  assert (forall s, map q_night (filter (fun v => q_season v =? s) (filter q_long visits)) = map q_night (filter (fun v => q_long v && (q_season v =? s)) visits)) as Ef.
  { intros s. f_equal. clear. induction visits as [|v t IH]; [reflexivity|]. cbn. destruct (q_long v); cbn; [destruct (q_season v =? s); rewrite IH; reflexivity | exact IH]. }
  apply (qmean_bounds _ _ _ _) with (2 := H). intros x Hx. apply in_map_iff in Hx. destruct Hx as (s & <- & Hs). rewrite Ef. apply unique_z_in, in_map_iff in Hs. destruct Hs as (v & <- & Hv). apply filter_In in Hv. destruct Hv as [Hv Hvl].
  apply season_mean_bounds; [|intros a b; apply Hn]. destruct (Hw v Hv Hvl) as (w & Hw1 & Hw2 & Hw3 & Hw4). exists (q_night v), (q_night w). split; [|split; [|congruence]]; apply in_map, filter_In.
  - split; [exact Hv|]. rewrite Hvl, Z.eqb_refl. reflexivity.
  - split; [exact Hw1|]. rewrite Hw2, Hw3, Z.eqb_refl. reflexivity.
Qed.
Print Assumptions C115_frequency_partial.
(** the campaign length is the number of seasons with a visit that is long enough *)
Theorem C115_campaign_length : forall visits,
  match campaign_length visits with
  | None => forall v, In v visits -> q_long v = false
  | Some n => 0 < n /\ exists seasons, NoDup seasons /\ Z.of_nat (length seasons) = n /\
      forall s, In s seasons <-> exists v, In v visits /\ q_long v = true /\ q_season v = s
  end.
Proof.
  intros visits. unfold campaign_length. destruct (filter q_long visits) as [|v0 good] eqn:Eg.
  - intros v Hv. destruct (q_long v) eqn:E; [|reflexivity]. assert (In v (filter q_long visits)) as Hi by (apply filter_In; split; assumption). rewrite Eg in Hi. destruct Hi.
  - split.
    + assert (In (q_season v0) (unique_z (map q_season (v0 :: good)))) as Hi by (apply unique_z_in; left; reflexivity). destruct (unique_z (map q_season (v0 :: good))); [destruct Hi | cbn [length]; lia].
    + exists (unique_z (map q_season (v0 :: good))). split; [apply sorted_lt_nodup, unique_z_sorted | split; [reflexivity|]]. intros s. rewrite unique_z_in, <- Eg, in_map_iff. split.
      * intros (v & <- & Hv). apply filter_In in Hv. exists v. intuition.
      * intros (v & Hv & Hl & E). exists v. split; [exact E | apply filter_In; split; assumption].
Qed.
Print Assumptions C115_campaign_length.
Example C115_case : let q := fun s n => {| q_season := s; q_night := n; q_long := true |} in
  campaign_length [q 0 1; q 0 4; q 2 800; q 2 805; q 2 805] = Some 2 /\
  exists r, mean_campaign_frequency [q 0 1; q 0 4; q 2 800; q 2 805; q 2 805] = Some r /\ (r == 4)%Q.
Proof. cbv zeta. split; [reflexivity|]. eexists. split; [vm_compute; reflexivity | reflexivity]. Qed.
