(** C430-C432: the summary histogram and the plot of metric values against H. *)
From Coq Require Import String.
From Verif Require Import Base Moplot_Model Moplot_Props Hplot_Model.
From Coq Require Import Reals Lra Lia List Bool Sorted.
Import ListNotations.
Open Scope R_scope.

(** ** edges *)
Lemma edges_length nb r : length (h_edges nb r) = S nb.
Proof. unfold h_edges. rewrite map_length, seq_length. reflexivity. Qed.
Lemma edges_nth nb r i : (i <= nb)%nat -> nth i (h_edges nb r) 0 = fst r + INR i * (snd r / INR nb).
Proof. intros L. apply nth_error_nth. unfold h_edges. rewrite nth_error_map, (nth_error_nth' _ 0%nat) by (rewrite seq_length; lia). rewrite seq_nth by lia. reflexivity. Qed.
Lemma edges_sorted nb r : (0 < nb)%nat -> 0 < snd r -> StronglySorted Rlt (h_edges nb r).
Proof.
  intros N P. unfold h_edges. assert (Q : 0 < snd r / INR nb) by (apply Rdiv_lt_0_compat; [exact P|apply lt_0_INR, N]). generalize (S nb) 0%nat. intros n. induction n as [|n IH]; intros k; cbn [seq map]; constructor; [apply IH|].
  apply Forall_forall. intros y Y. apply in_map_iff in Y. destruct Y as (j & <- & J). apply in_seq in J. assert (L : INR k < INR j) by (apply lt_INR; lia). nra.
Qed.
Lemma fold_min : forall t x, fold_left Rmin t x <= x /\ forall y, In y t -> fold_left Rmin t x <= y.
Proof. induction t as [|a t IH]; intros x; cbn; [split; [lra|contradiction]|]. destruct (IH (Rmin x a)) as (A & B). pose proof (Rmin_l x a). pose proof (Rmin_r x a). split; [lra|]. intros y [<-|Y]; [lra|apply B, Y]. Qed.
Lemma fold_max : forall t x, x <= fold_left Rmax t x /\ forall y, In y t -> y <= fold_left Rmax t x.
Proof. induction t as [|a t IH]; intros x; cbn; [split; [lra|contradiction]|]. destruct (IH (Rmax x a)) as (A & B). pose proof (Rmax_l x a). pose proof (Rmax_r x a). split; [lra|]. intros y [<-|Y]; [lra|apply B, Y]. Qed.
Lemma range_pos x t : 0 < snd (h_range x t).
Proof. unfold h_range. destruct (Rlt_dec _ 1); cbn; lra. Qed.

Lemma combine_at {A B} : forall i (l1 : list A) (l2 : list B) x y, nth_error l1 i = Some x -> nth_error l2 i = Some y -> nth_error (combine l1 l2) i = Some (x, y).
Proof. induction i as [|i IH]; intros l1 l2 x y; destruct l1, l2; cbn; try discriminate; [congruence|apply IH]. Qed.
Lemma line_at reduce bad nb o t i : (i <= nb)%nat -> let r := h_range (o_h o) (map o_h t) in
  nth_error (h_line reduce bad nb (o :: t)) i = Some (fst r + INR i * (snd r / INR nb), h_bin reduce bad (h_edges nb r) (o :: t) i).
Proof.
  intros L r. unfold h_line. fold r. rewrite edges_length.
  assert (A : nth_error (h_edges nb r) i = Some (fst r + INR i * (snd r / INR nb))) by (rewrite (nth_error_nth' _ 0), edges_nth by (rewrite ?edges_length; lia); reflexivity).
  assert (B : nth_error (map (h_bin reduce bad (h_edges nb r) (o :: t)) (seq 0 (S nb))) i = Some (h_bin reduce bad (h_edges nb r) (o :: t) i)) by (rewrite nth_error_map, (nth_error_nth' _ 0%nat) by (rewrite seq_length; lia); rewrite seq_nth by lia; reflexivity).
  apply combine_at; assumption.
Qed.

(** *** C430: each point of the plot against H has the objects between its H and the next.  Here all H are at least 1 apart in total. *)
Theorem C430_bins_partial : forall reduce bad nb objs o t, (0 < nb)%nat -> objs = o :: t ->
  (exists a b, In a objs /\ In b objs /\ 1 <= o_h b - o_h a) ->
  exists lo step, 0 < step /\ (forall q, In q objs -> lo <= o_h q <= lo + INR nb * step) /\
    forall i, (i <= nb)%nat -> exists v, nth_error (h_line reduce bad nb objs) i = Some (lo + INR i * step, v) /\
      let sel := filter (fun q => if Rle_dec (lo + INR i * step) (o_h q) then (if Rlt_dec (o_h q) (lo + INR (S i) * step) then true else false) else false) objs in
      v = match sel with [] => bad | _ => reduce (map (fun q => if o_masked q then bad else o_val q) sel) end.
Proof.
  intros reduce bad nb objs o t N -> (a & b & IA & IB & AB). set (r := h_range (o_h o) (map o_h t)). exists (fst r), (snd r / INR nb).
  assert (NB : 0 < INR nb) by (apply lt_0_INR, N). assert (RP : 0 < snd r) by apply range_pos. assert (SP : 0 < snd r / INR nb) by (apply Rdiv_lt_0_compat; assumption).
  assert (TOT : INR nb * (snd r / INR nb) = snd r) by (field; lra).
  destruct (fold_min (map o_h t) (o_h o)) as (M1 & M2). destruct (fold_max (map o_h t) (o_h o)) as (X1 & X2).
  assert (MM : forall q, In q (o :: t) -> min_h (o_h o) (map o_h t) <= o_h q <= max_h (o_h o) (map o_h t)).
  { intros q [<-|Q]; [split; assumption|]. apply (in_map o_h) in Q. split; [apply M2, Q|apply X2, Q]. }
  assert (RR : r = (min_h (o_h o) (map o_h t), max_h (o_h o) (map o_h t) - min_h (o_h o) (map o_h t))).
  { subst r. unfold h_range. destruct (Rlt_dec _ 1) as [C|C]; [exfalso|reflexivity]. pose proof (MM a IA). pose proof (MM b IB). lra. }
  assert (LH : forall q, In q (o :: t) -> fst r <= o_h q <= fst r + INR nb * (snd r / INR nb)).
  { intros q Q. rewrite TOT, RR. cbn [fst snd]. specialize (MM q Q). lra. }
  split; [exact SP|]. split; [exact LH|]. intros i I. eexists. split; [apply line_at, I|]. fold r. cbv zeta. unfold h_bin.
  assert (F : filter (fun q => digitize (h_edges nb r) (o_h q) =? S i)%nat (o :: t) = filter (fun q => if Rle_dec (fst r + INR i * (snd r / INR nb)) (o_h q) then (if Rlt_dec (o_h q) (fst r + INR (S i) * (snd r / INR nb)) then true else false) else false) (o :: t)).
  { apply filter_ext_in. intros q Q. specialize (LH q Q). destruct (digitize_is (h_edges nb r) (o_h q) i (edges_sorted nb r N RP)) as (D1 & D2). rewrite edges_length, edges_nth in D1, D2 by exact I.
    destruct (Nat.eqb_spec (digitize (h_edges nb r) (o_h q)) (S i)) as [E|E].
    - destruct (D1 E) as (_ & B & C). destruct (Rle_dec _ _); [|contradiction]. destruct (Rlt_dec _ _) as [_|Z]; [reflexivity|exfalso; apply Z].
      destruct (Nat.eq_dec i nb) as [->|NE]; [rewrite S_INR; lra|]. specialize (C ltac:(lia)). rewrite edges_nth in C by lia. exact C.
    - destruct (Rle_dec _ _) as [B|B]; [|reflexivity]. destruct (Rlt_dec _ _) as [C|C]; [exfalso; apply E, D2|reflexivity]. split; [lia|]. split; [exact B|]. intros Z. rewrite edges_nth by lia. exact C. }
  rewrite F. match goal with |- match ?x with _ => _ end = _ => generalize x; intros [|z l]; reflexivity end.
Qed.
Print Assumptions C430_bins_partial.
(** if all H are within 1, the bins reach only half a magnitude beyond the smallest: objects beyond are all shown at the last point *)
Theorem C430_close_refuted : forall reduce bad nb o q v, (0 < nb)%nat -> o_h o + 1/2 < o_h q < o_h o + 1 -> (forall l, In (fill bad q) l -> reduce l = v) ->
  exists x, nth_error (h_line reduce bad nb [o; q]) nb = Some (x, v) /\ x = o_h o + 1/2.
Proof.
  intros reduce bad nb o q v N (A & B) V. exists (o_h o + 1/2). split; [|reflexivity]. rewrite (line_at reduce bad nb o [q] nb (le_n _)). cbn [map].
  assert (R0 : h_range (o_h o) [o_h q] = (o_h o - 1/2, 1)).
  { unfold h_range, min_h, max_h. cbn [fold_left]. rewrite Rmin_left, Rmax_right by lra. destruct (Rlt_dec _ 1); [reflexivity|lra]. }
  rewrite R0. cbn [fst snd]. assert (NB : 0 < INR nb) by (apply lt_0_INR, N). f_equal. f_equal; [field; lra|].
  assert (SS : StronglySorted Rlt (h_edges nb (o_h o - 1/2, 1))) by (apply edges_sorted; [exact N|cbn; lra]).
  assert (DQ : digitize (h_edges nb (o_h o - 1/2, 1)) (o_h q) = S nb).
  { apply digitize_is; [exact SS|]. rewrite edges_length, edges_nth by lia. cbn [fst snd]. split; [lia|]. split; [|lia]. replace (INR nb * (1 / INR nb)) with 1 by (field; lra). lra. }
  unfold h_bin.
  assert (I : In q (filter (fun o0 => Nat.eqb (digitize (h_edges nb (o_h o - 1/2, 1)) (o_h o0)) (S nb)) [o; q])) by (apply filter_In; split; [right; left; reflexivity|rewrite DQ; apply Nat.eqb_refl]).
  revert I. match goal with |- In q ?x -> _ => generalize x end. intros [|z l] I; [contradiction|]. apply V. apply in_map, I.
Qed.
Print Assumptions C430_close_refuted.

(** *** C431: the options of the plot against H.  Refuted: the user's options are changed, and the colour has no default. *)
Theorem C431_color_refuted : forall user, ~ In "color"%string user -> snd (h_options user) = Err KeyError.
Proof.
  intros user N. unfold h_options. cbn [snd]. destruct (existsb (String.eqb "color") _) eqn:E; [exfalso|reflexivity]. apply existsb_exists in E. destruct E as (k & I & K). apply String.eqb_eq in K. subst k.
  destruct (existsb (String.eqb "linestyle") user); [contradiction|]. apply in_app_iff in I. destruct I as [I|[I|[]]]; [contradiction|discriminate].
Qed.
Print Assumptions C431_color_refuted.
Theorem C431_user_refuted : forall user, ~ In "linestyle"%string user -> fst (h_options user) <> user.
Proof.
  intros user N. unfold h_options. cbn [fst]. destruct (existsb (String.eqb "linestyle") user) eqn:E.
  - exfalso. apply existsb_exists in E. destruct E as (k & I & K). apply String.eqb_eq in K. subst k. contradiction.
  - intros Q. apply (f_equal (@length _)) in Q. rewrite app_length in Q. cbn in Q. lia.
Qed.
Print Assumptions C431_user_refuted.
Theorem C431_given_partial : forall user, In "linestyle"%string user -> In "color"%string user -> h_options user = (user, Ok tt).
Proof.
  intros user L C. unfold h_options. assert (E : existsb (String.eqb "linestyle") user = true) by (apply existsb_exists; exists "linestyle"%string; split; [exact L|reflexivity]). rewrite E.
  assert (E2 : existsb (String.eqb "color") user = true) by (apply existsb_exists; exists "color"%string; split; [exact C|reflexivity]). rewrite E2. reflexivity.
Qed.
Print Assumptions C431_given_partial.

(** *** C432: the summary histogram *)
Lemma column_ok rows i : (forall r, In r rows -> (i < length r)%nat) -> column rows i = Ok (map (fun r => nth i r 0) rows).
Proof.
  induction rows as [|r t IH]; intros H; [reflexivity|]. cbn [column map]. unfold arr_get. rewrite (nth_error_nth' r 0) by (apply H; left; reflexivity). cbn [bind]. rewrite IH by (intros; apply H; right; assumption). reflexivity.
Qed.
Lemma each_ok_in {A B} (f : A -> result B) (g : A -> B) : forall l, (forall x, In x l -> f x = Ok (g x)) -> each f l = Ok (map g l).
Proof. intros l H. induction l as [|x t IH]; [reflexivity|]. cbn [each map]. rewrite (H x (or_introl eq_refl)), IH by (intros; apply H; right; assumption). reflexivity. Qed.
Lemma cumsum_length : forall l a, length (cumsum a l) = length l.
Proof. induction l as [|x t IH]; intros a; [reflexivity|]. cbn. rewrite IH. reflexivity. Qed.
Lemma cumsum_nth : forall l a i, (i < length l)%nat -> nth i (cumsum a l) 0 = a + fold_right Rplus 0 (firstn (S i) l).
Proof.
  induction l as [|x t IH]; intros a i I; [cbn in I; lia|]. destruct i as [|i]; [cbn; lra|]. cbn [cumsum nth firstn fold_right]. cbn [length] in I. rewrite IH by lia. cbn [firstn]. lra.
Qed.
(** the height of each bin is the metric of its values at the slice points, or the sum up to the bin if cumulative *)
Theorem C432_heights : forall reduce cum steps b rows n, rows <> [] -> (forall r, In r rows -> length r = n) -> length b = S n ->
  exists hist line, summary reduce cum steps (Some b) rows = Ok (hist, line) /\ length hist = n /\
    forall i, (i < n)%nat -> nth i hist 0 = if cum then fold_right Rplus 0 (map (fun k => reduce (map (fun r => nth k r 0) rows)) (seq 0 (S i))) else reduce (map (fun r => nth i r 0) rows).
Proof.
  intros reduce cum steps b rows n NE L B. unfold summary. destruct rows as [|r0 t]; [contradiction|]. assert (L0 : length r0 = n) by (apply L; left; reflexivity).
  assert (FA : forallb (fun q => length q =? length r0)%nat (r0 :: t) = true) by (apply forallb_forall; intros q Q; rewrite (L q Q), L0; apply Nat.eqb_refl). rewrite FA. cbn [negb].
  set (g := fun i => reduce (map (fun r => nth i r 0) (r0 :: t))).
  rewrite (each_ok_in _ g) by (intros i I; apply in_seq in I; rewrite column_ok by (intros r R; rewrite (L r R); lia); reflexivity). cbn [bind]. rewrite L0.
  assert (LH : length (if cum then cumsum 0 (map g (seq 0 n)) else map g (seq 0 n)) = n) by (destruct cum; rewrite ?cumsum_length, map_length, seq_length; reflexivity).
  rewrite LH, B, Nat.eqb_refl. cbn [negb]. do 2 eexists. split; [reflexivity|]. split; [exact LH|]. intros i I. destruct cum.
  - rewrite cumsum_nth by (rewrite map_length, seq_length; exact I). rewrite Rplus_0_l, firstn_map. do 2 f_equal.
    assert (FS : forall m k j, (j <= m)%nat -> firstn j (seq k m) = seq k j) by (induction m as [|m IHm]; intros k j J; [replace j with 0%nat by lia; reflexivity|]; destruct j; [reflexivity|]; cbn; rewrite IHm by lia; reflexivity). apply FS. lia.
  - apply nth_error_nth. rewrite nth_error_map, (nth_error_nth' _ 0%nat) by (rewrite seq_length; lia). rewrite seq_nth by lia. reflexivity.
Qed.
Print Assumptions C432_heights.
(** the line has the height from edge to edge of each bin, or a point at its left edge *)
Lemma removelast_nth : forall (b : list R) i, (S i < length b)%nat -> nth_error (removelast b) i = nth_error b i.
Proof. induction b as [|x t IH]; intros i L; [cbn in L; lia|]. destruct t as [|y t]; [cbn in L; lia|]. destruct i as [|i]; [reflexivity|]. cbn [removelast nth_error]. apply (IH i). cbn [length] in *. lia. Qed.
Lemma pairs_nth : forall (l : list (R * R * R)) i x y h, nth_error l i = Some (x, y, h) ->
  nth_error (flat_map (fun p => [(fst (fst p), snd p); (snd (fst p), snd p)]) l) (2 * i) = Some (x, h) /\ nth_error (flat_map (fun p => [(fst (fst p), snd p); (snd (fst p), snd p)]) l) (2 * i + 1) = Some (y, h).
Proof.
  induction l as [|p l IH]; intros i x y h E; [destruct i; discriminate|]. destruct i as [|i]; [injection E as ->; split; reflexivity|]. specialize (IH i x y h E). replace (2 * S i)%nat with (S (S (2 * i))) by lia. cbn [flat_map app nth_error Nat.add]. exact IH.
Qed.
Theorem C432_line : forall reduce cum steps b rows hist line, summary reduce cum steps (Some b) rows = Ok (hist, line) ->
  length b = S (length hist) /\ forall i, (i < length hist)%nat ->
    if steps then nth_error line (2 * i) = Some (nth i b 0, nth i hist 0) /\ nth_error line (2 * i + 1) = Some (nth (S i) b 0, nth i hist 0)
    else nth_error line i = Some (nth i b 0, nth i hist 0).
Proof.
  intros reduce cum steps b rows hist line H. unfold summary in H. destruct rows as [|r0 t]; [discriminate|]. destruct (negb (forallb _ _)); [discriminate|]. destruct (each _ _) as [h|]; [|discriminate]. cbn [bind] in H.
  destruct (negb _) eqn:L in H; [discriminate|]. apply negb_false_iff, Nat.eqb_eq in L. injection H as <- <-. split; [exact L|]. intros i I. set (hs := if cum then cumsum 0 h else h) in *.
  assert (A : nth_error (removelast b) i = Some (nth i b 0)) by (rewrite removelast_nth by lia; apply nth_error_nth'; lia).
  assert (B : nth_error (tl b) i = Some (nth (S i) b 0)) by (destruct b as [|x b]; [discriminate|]; cbn [tl nth]; apply nth_error_nth'; cbn [length] in L; lia).
  assert (C : nth_error hs i = Some (nth i hs 0)) by (apply nth_error_nth', I).
  destruct steps; [apply pairs_nth; apply combine_at; [apply combine_at; assumption|exact C]|apply combine_at; assumption].
Qed.
Print Assumptions C432_line.
(** the options without bins, the default, fail *)
Theorem C432_bins_refuted : forall reduce cum steps rows n, rows <> [] -> (forall r, In r rows -> length r = n) -> summary reduce cum steps None rows = Err TypeError.
Proof.
  intros reduce cum steps rows n NE L. unfold summary. destruct rows as [|r0 t]; [contradiction|]. assert (L0 : length r0 = n) by (apply L; left; reflexivity).
  assert (FA : forallb (fun q => length q =? length r0)%nat (r0 :: t) = true) by (apply forallb_forall; intros q Q; rewrite (L q Q), L0; apply Nat.eqb_refl). rewrite FA. cbn [negb].
  rewrite (each_ok_in _ (fun i => reduce (map (fun r => nth i r 0) (r0 :: t)))) by (intros i I; apply in_seq in I; rewrite column_ok by (intros r R; rewrite (L r R); lia); reflexivity). reflexivity.
Qed.
Print Assumptions C432_bins_refuted.
Theorem C432_empty : forall reduce cum steps b, summary reduce cum steps b [] = Err ValueError.
Proof. reflexivity. Qed.
Print Assumptions C432_empty.

Example C430_case : exists a b, In a [{| o_h := 20; o_val := 1; o_masked := false |}; {| o_h := 22; o_val := 3; o_masked := true |}] /\ In b [{| o_h := 20; o_val := 1; o_masked := false |}; {| o_h := 22; o_val := 3; o_masked := true |}] /\ 1 <= o_h b - o_h a.
Proof. do 2 eexists. split; [left; reflexivity|]. split; [right; left; reflexivity|]. cbn. lra. Qed.
Example C431_case : h_options ["label"]%string = (["label"; "linestyle"]%string, Err KeyError).
Proof. reflexivity. Qed.
Example C432_case : summary (fold_right Rplus 0) true true (Some [0; 1; 2]) [[1; 2]; [3; 4]] <> Err ValueError.
Proof. cbn. discriminate. Qed.
