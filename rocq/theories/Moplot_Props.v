(** C425-C429: plots of moving object metrics, and the area against the number of visits. *)
From Coq Require Import String.
From Verif Require Import Base Moplot_Model.
From Coq Require Import Reals Lra Lia List Bool Permutation Sorted.
Import ListNotations.
Open Scope R_scope.

Lemma insert_perm x l : Permutation (insert x l) (x :: l).
Proof. induction l as [|y t IH]; cbn; [reflexivity|]. destruct (Rle_dec x y); [reflexivity|]. rewrite IH. apply perm_swap. Qed.
Lemma sort_perm l : Permutation (rsort l) l.
Proof. induction l as [|x t IH]; cbn; [reflexivity|]. rewrite insert_perm, IH. reflexivity. Qed.
Lemma insert_sorted x l : StronglySorted Rle l -> StronglySorted Rle (insert x l).
Proof.
  induction l as [|y t IH]; intros H; cbn; [repeat constructor|]. inversion H as [|? ? HS HF]; subst. destruct (Rle_dec x y) as [L|L].
  - constructor; [exact H|]. constructor; [exact L|]. eapply Forall_impl; [|exact HF]. intros; lra.
  - constructor; [apply IH, HS|]. eapply Permutation_Forall; [apply Permutation_sym, insert_perm|]. constructor; [lra|exact HF].
Qed.
Lemma sort_sorted l : StronglySorted Rle (rsort l).
Proof. induction l as [|x t IH]; cbn; [constructor|apply insert_sorted, IH]. Qed.

(** the number of values of at least [x] *)
Definition at_least (x : R) (l : list R) : nat := length (filter (fun v => if Rle_dec x v then true else false) l).
Lemma at_least_perm x l l' : Permutation l l' -> at_least x l = at_least x l'.
Proof. unfold at_least. induction 1 as [|y a b P IH|y z a|a b c P IH P' IH']; cbn; [reflexivity|destruct (Rle_dec x y); cbn; lia|destruct (Rle_dec x y), (Rle_dec x z); reflexivity|lia]. Qed.
Lemma areas_S n s : areas (S n) s = INR (S n) * s :: areas n s.
Proof. unfold areas. rewrite seq_S, rev_app_distr. reflexivity. Qed.
Lemma line_upper s : forall l, StronglySorted Rle l -> 0 <= s -> forall x y, In (x, y) (combine l (areas (length l) s)) -> y <= INR (at_least x l) * s.
Proof.
  induction l as [|a l IH]; intros HS P x y I; [contradiction|]. inversion HS as [|? ? HS' HF]; subst. cbn [length] in I. rewrite areas_S in I. cbn [combine] in I. destruct I as [E|I].
  - assert (Q : at_least a (a :: l) = S (length l)).
    { unfold at_least. cbn [filter]. destruct (Rle_dec a a); [|lra]. cbn [length]. f_equal. clear -HF. induction HF as [|b t L F IHF]; [reflexivity|]. cbn. destruct (Rle_dec a b); [cbn; lia|contradiction]. }
    injection E as <- <-. rewrite Q. apply Rle_refl.
  - specialize (IH HS' P x y I). assert (L : (at_least x l <= at_least x (a :: l))%nat) by (unfold at_least; cbn [filter]; destruct (Rle_dec x a); cbn [length]; lia). apply le_INR in L. nra.
Qed.
Lemma line_reached s : forall l, StronglySorted Rle l -> forall x, In x l -> In (x, INR (at_least x l) * s) (combine l (areas (length l) s)).
Proof.
  induction l as [|a l IH]; intros HS x I; [contradiction|]. inversion HS as [|? ? HS' HF]; subst. cbn [length]. rewrite areas_S. cbn [combine].
  destruct (Rle_dec x a) as [L|L].
  - left. assert (E : x = a) by (destruct I as [E|I]; [symmetry; exact E|]; rewrite Forall_forall in HF; specialize (HF x I); lra). subst x. f_equal. f_equal. f_equal. unfold at_least. cbn [filter]. destruct (Rle_dec a a); [|lra]. cbn [length]. f_equal. clear -HF. induction HF as [|b t Lb F IHF]; [reflexivity|]. cbn. destruct (Rle_dec a b); [cbn; lia|contradiction].
  - right. assert (Q : at_least x (a :: l) = at_least x l) by (unfold at_least; cbn [filter]; destruct (Rle_dec x a); [contradiction|reflexivity]). rewrite Q. apply IH; [exact HS'|]. destruct I as [<-|I]; [lra|exact I].
Qed.

(** *** C425: the highest point of the line at [x] is the area with at least [x] visits *)
Theorem C425_curve : forall scale values x, 0 <= scale -> In x values ->
  let area := INR (length (filter (fun v => if Rle_dec x v then true else false) values)) * scale in
  In (x, area) (fo_line scale values) /\ forall y, In (x, y) (fo_line scale values) -> y <= area.
Proof.
  intros scale values x P I area. assert (L : length (rsort values) = length values) by (apply Permutation_length, sort_perm).
  assert (A : at_least x (rsort values) = at_least x values) by (apply at_least_perm, sort_perm).
  unfold fo_line. rewrite <- L. change area with (INR (at_least x values) * scale). rewrite <- A. split.
  - apply line_reached; [apply sort_sorted|]. eapply Permutation_in; [apply Permutation_sym, sort_perm|exact I].
  - intros y. apply line_upper; [apply sort_sorted|exact P].
Qed.
Print Assumptions C425_curve.
Theorem C425_points : forall scale values x y, In (x, y) (fo_line scale values) -> In x values.
Proof. intros scale values x y I. apply in_combine_l in I. eapply Permutation_in; [apply sort_perm|exact I]. Qed.
Print Assumptions C425_points.

(** *** C426: the plots against orbits work without options.  Refuted: two options that have no default are read. *)
Lemma get_app d e k : (forall v, ~ In (k, v) d) -> get (d ++ e) k = get e k.
Proof. induction d as [|(n, v) t IH]; intros H; [reflexivity|]. cbn. destruct (String.eqb_spec n k) as [->|N]; [exfalso; apply (H v); left; reflexivity|apply IH; intros w W; apply (H w); right; exact W]. Qed.
Theorem C426_width_refuted : forall median hvals n user, (forall v, ~ In ("hwidth"%string, v) user) -> choose_h median hvals n user = Err KeyError.
Proof. intros median hvals n user H. unfold choose_h, plot_dict. rewrite get_app by exact H. reflexivity. Qed.
Print Assumptions C426_width_refuted.
Theorem C426_value_refuted : forall median hvals n user, (forall v, ~ In ("hval"%string, v) user) -> choose_h median hvals n user = Err KeyError.
Proof.
  intros median hvals n user H. unfold choose_h. destruct (get (plot_dict user) "hwidth") as [w|e] eqn:W.
  - cbn [bind]. unfold plot_dict. rewrite get_app by exact H. destruct (length hvals =? n)%nat; reflexivity.
  - cbn [bind]. f_equal. clear H. revert W. unfold plot_dict. induction user as [|(k, v) t IH]; cbn; [congruence|]. destruct (String.eqb k "hwidth"); [discriminate|exact IH].
Qed.
Print Assumptions C426_value_refuted.

(** *** C427: the H that is shown *)
Lemma nearest_from_is h full : forall l i b d, (forall j, (j < length l)%nat -> nth (i + j) full 0 = nth j l 0) -> (i + length l = length full)%nat -> (b < i)%nat -> d = Rabs (nth b full 0 - h) ->
  (forall j, (j < i)%nat -> d <= Rabs (nth j full 0 - h)) -> (forall j, (j < b)%nat -> d < Rabs (nth j full 0 - h)) ->
  let r := nearest_from h i (b, d) l in (r < length full)%nat /\ (forall j, (j < length full)%nat -> Rabs (nth r full 0 - h) <= Rabs (nth j full 0 - h)) /\ (forall j, (j < r)%nat -> Rabs (nth r full 0 - h) < Rabs (nth j full 0 - h)).
Proof.
  induction l as [|x l IH]; intros i b d A L B D M F r.
  - subst r d. cbn in *. split; [lia|]. split; [intros j J; apply M; lia|exact F].
  - subst r. cbn [nearest_from fst snd]. cbn [length] in *.
    assert (X : nth i full 0 = x) by (specialize (A 0%nat); cbn in A; rewrite Nat.add_0_r in A; apply A; lia).
    assert (A' : forall j, (j < length l)%nat -> nth (S i + j) full 0 = nth j l 0) by (intros j J; specialize (A (S j)); cbn [nth] in A; replace (S i + j)%nat with (i + S j)%nat by lia; apply A; lia).
    destruct (Rlt_dec (Rabs (x - h)) d) as [C|C].
    + apply IH; [exact A'|lia|lia|rewrite X; reflexivity| |].
      * intros j J. destruct (Nat.eq_dec j i) as [->|N]; [rewrite X; lra|]. assert (Q := M j ltac:(lia)). lra.
      * intros j J. assert (Q := M j J). lra.
    + apply IH; [exact A'|lia|lia|exact D| |exact F]. intros j J. destruct (Nat.eq_dec j i) as [->|N]; [rewrite X; lra|apply M; lia].
Qed.
(** with cloned H, the values of the nearest H, the first if there are several, under the label of the H that was asked for *)
Theorem C427_cloned : forall median hvals user w h, get user "hwidth" = Ok w -> get user "hval" = Ok (Some h) -> hvals <> [] ->
  exists i, choose_h median hvals (length hvals) user = Ok (h, One i) /\ (i < length hvals)%nat /\
    (forall j, (j < length hvals)%nat -> Rabs (nth i hvals 0 - h) <= Rabs (nth j hvals 0 - h)) /\ (forall j, (j < i)%nat -> Rabs (nth i hvals 0 - h) < Rabs (nth j hvals 0 - h)).
Proof.
  intros median hvals user w h W H N.
  assert (G : forall d k v, get d k = Ok v -> get (plot_dict d) k = Ok v).
  { induction d as [|(n, v') t IH]; intros k v E; [discriminate|]. cbn in *. destruct (String.eqb n k); [exact E|apply IH, E]. }
  unfold choose_h. rewrite (G _ _ _ W), (G _ _ _ H), Nat.eqb_refl. cbn [bind]. destruct hvals as [|x t]; [contradiction|]. cbn [nearest bind]. eexists. split; [reflexivity|].
  apply (nearest_from_is h (x :: t)); [intros j J; reflexivity|reflexivity|lia|reflexivity| |intros; lia]. intros j J. replace j with 0%nat by lia. cbn. lra.
Qed.
Print Assumptions C427_cloned.
(** with an H for each object, those within half a width of the median *)
Theorem C427_median : forall median hvals n user w, get user "hwidth" = Ok (Some w) -> get user "hval" = Ok None -> length hvals <> n ->
  exists l, choose_h median hvals n user = Ok (median hvals, Many l) /\ NoDup l /\ forall i, In i l <-> (i < length hvals)%nat /\ Rabs (nth i hvals 0 - median hvals) <= w / 2.
Proof.
  intros median hvals n user w W H N.
  assert (G : forall d k v, get d k = Ok v -> get (plot_dict d) k = Ok v).
  { induction d as [|(m, v') t IH]; intros k v E; [discriminate|]. cbn in *. destruct (String.eqb m k); [exact E|apply IH, E]. }
  unfold choose_h. rewrite (G _ _ _ W), (G _ _ _ H). apply Nat.eqb_neq in N. rewrite N. cbn [bind]. eexists. split; [reflexivity|]. split; [apply NoDup_filter, seq_NoDup|].
  intros i. unfold close_to. rewrite filter_In, in_seq. destruct (Rle_dec _ _); intuition (lia || discriminate).
Qed.
Print Assumptions C427_median.
(** the H that was asked for cannot be shown then: another option is read *)
Theorem C427_own_refuted : forall median hvals n user h, get user "hval" = Ok (Some h) -> length hvals <> n -> (forall v, ~ In ("hvals"%string, v) user) -> choose_h median hvals n user = Err KeyError.
Proof.
  intros median hvals n user h H N V. unfold choose_h.
  assert (G : forall d k v, get d k = Ok v -> get (plot_dict d) k = Ok v).
  { induction d as [|(m, v') t IH]; intros k v E; [discriminate|]. cbn in *. destruct (String.eqb m k); [exact E|apply IH, E]. }
  destruct (get (plot_dict user) "hwidth") as [w|e] eqn:W.
  - cbn [bind]. apply Nat.eqb_neq in N. rewrite N, (G _ _ _ H). cbn [bind]. unfold plot_dict. rewrite get_app by exact V. reflexivity.
  - cbn [bind]. f_equal. clear -W. revert W. unfold plot_dict. induction user as [|(k, v) t IH]; cbn; [congruence|]. destruct (String.eqb k "hwidth"); [discriminate|exact IH].
Qed.
Print Assumptions C427_own_refuted.

(** *** C428: the bins have the values of the objects in them *)
Lemma digitize_is : forall edges x i, StronglySorted Rlt edges -> (digitize edges x = S i <-> (i < length edges)%nat /\ nth i edges 0 <= x /\ ((S i < length edges)%nat -> x < nth (S i) edges 0)).
Proof.
  unfold digitize. induction edges as [|e t IH]; intros x i HS; [cbn; split; [discriminate|lia]|]. inversion HS as [|? ? HS' HF]; subst. cbn [filter]. destruct (Rle_dec e x) as [L|L].
  - cbn [length]. destruct i as [|i].
    + cbn [nth]. split.
      * intros E. split; [lia|]. split; [exact L|]. intros Q. destruct t as [|e2 t]; [cbn in Q; lia|]. cbn [nth]. injection E as E. cbn [filter] in E. destruct (Rle_dec e2 x); [discriminate|lra].
      * intros (_ & _ & U). f_equal. destruct t as [|e2 t]; [reflexivity|]. cbn [nth length] in U. specialize (U ltac:(lia)). assert (Z : filter (fun e0 => if Rle_dec e0 x then true else false) (e2 :: t) = []).
        { inversion HS' as [|? ? _ HF2]; subst. cbn [filter]. destruct (Rle_dec e2 x); [lra|]. clear -HF2 U. induction HF2 as [|b s Lb F IHF]; [reflexivity|]. cbn. destruct (Rle_dec b x); [lra|exact IHF]. }
        rewrite Z. reflexivity.
    + specialize (IH x i HS'). cbn [nth]. split; [intros E; injection E as E; apply IH in E; destruct E as (A & B & C); split; [lia|split; [exact B|intros; apply C; lia]]|].
      intros (A & B & C). f_equal. apply IH. split; [lia|split; [exact B|intros; apply C; lia]].
  - assert (Z : filter (fun e0 => if Rle_dec e0 x then true else false) t = []).
    { clear -HF L. induction HF as [|b s Lb F IHF]; [reflexivity|]. cbn. destruct (Rle_dec b x); [lra|exact IHF]. }
    rewrite Z. cbn [length]. split; [discriminate|]. intros (A & B & _). exfalso. destruct i as [|i]; [cbn in B; lra|]. cbn [nth length] in *. rewrite Forall_forall in HF. assert (J : (i < length t)%nat) by lia. assert (Q := HF _ (nth_In t 0 J)). lra.
Qed.
Lemma at_each_ok {A} (m : list A) d : forall ix, (forall i, In i ix -> (i < length m)%nat) -> at_each m ix = Ok (map (fun i => nth i m d) ix).
Proof.
  induction ix as [|i t IH]; intros H; [reflexivity|]. cbn [at_each map]. unfold arr_get. rewrite (nth_error_nth' m d) by (apply H; left; reflexivity). cbn [bind]. rewrite IH by (intros; apply H; right; assumption). reflexivity.
Qed.
(** [x] lies in bin [i]: the last has no upper end *)
Definition in_bin (edges : list R) (x : R) (i : nat) : Prop := (i < length edges)%nat /\ nth i edges 0 <= x /\ ((S i < length edges)%nat -> x < nth (S i) edges 0).
Theorem C428_all : forall xb yb xs ys m ix iy, StronglySorted Rlt xb -> StronglySorted Rlt yb -> length xs = length ys -> length m = length ys ->
  exists js, match_vals xb yb xs ys m ix iy = Ok (map (fun j => nth j m 0) js) /\ NoDup js /\
    forall j, In j js <-> (j < length ys)%nat /\ in_bin xb (nth j xs 0) ix /\ in_bin yb (nth j ys 0) iy.
Proof.
  intros xb yb xs ys m ix iy SX SY LX LM. unfold match_vals.
  assert (B : forall i, In i (places yb ys iy) -> (i < length m)%nat) by (intros i I; unfold places in I; apply filter_In in I; destruct I as (I & _); apply in_seq in I; lia).
  rewrite (at_each_ok m 0 _ B). cbn [bind]. exists (filter (fun j => digitize xb (nth j xs 0%R) =? S ix)%nat (places yb ys iy)). split.
  - f_equal. clear B. induction (places yb ys iy) as [|j t IH]; [reflexivity|]. cbn [map combine filter fst]. destruct (digitize xb (nth j xs 0%R) =? S ix)%nat; cbn [map snd]; rewrite IH; reflexivity.
  - split; [apply NoDup_filter, NoDup_filter, seq_NoDup|]. intros j. unfold places, in_bin. rewrite !filter_In, in_seq, !Nat.eqb_eq, (digitize_is xb _ ix SX), (digitize_is yb _ iy SY). intuition lia.
Qed.
Print Assumptions C428_all.
(** each bin in turn, row after row: the value of its objects, or the bad value if there are none *)
Lemma each_ok {A B} (f : A -> result B) (g : A -> B) : forall l, (forall x, f x = Ok (g x)) -> each f l = Ok (map g l).
Proof. intros l H. induction l as [|x t IH]; [reflexivity|]. cbn [each map]. rewrite H, IH. reflexivity. Qed.
Lemma grid_nth {B} (g : nat * nat -> B) d nx : forall ny y0 ix iy, (ix < nx)%nat -> (iy < ny)%nat ->
  nth (iy * nx + ix) (map g (flat_map (fun y => map (fun x => (x, y)) (seq 0 nx)) (seq y0 ny))) d = g (ix, (y0 + iy)%nat).
Proof.
  induction ny as [|ny IH]; intros y0 ix iy IX IY; [lia|]. cbn [seq flat_map]. rewrite map_app. destruct iy as [|iy].
  - rewrite app_nth1 by (rewrite !map_length, seq_length; lia). rewrite map_map, Nat.add_0_r. cbn [Nat.mul Nat.add].
    rewrite (nth_indep _ d (g (0%nat, y0))) by (rewrite map_length, seq_length; lia). rewrite (map_nth (fun x => g (x, y0)) (seq 0 nx) 0%nat), seq_nth by lia. reflexivity.
  - rewrite app_nth2 by (rewrite !map_length, seq_length; cbn [Nat.mul]; lia). rewrite !map_length, seq_length. replace (S iy * nx + ix - nx)%nat with (iy * nx + ix)%nat by (cbn [Nat.mul]; lia).
    rewrite IH by lia. do 2 f_equal. lia.
Qed.
Lemma grid_length {B} (g : nat * nat -> B) nx : forall ny y0, length (map g (flat_map (fun y => map (fun x => (x, y)) (seq 0 nx)) (seq y0 ny))) = (ny * nx)%nat.
Proof. induction ny as [|ny IH]; intros y0; [reflexivity|]. cbn [seq flat_map]. rewrite map_app, app_length, IH, !map_length, seq_length. reflexivity. Qed.
Theorem C428_values : forall reduce bad xb yb xs ys m, StronglySorted Rlt xb -> StronglySorted Rlt yb -> length xs = length ys -> length m = length ys ->
  exists vs, bin_vals reduce bad xb yb xs ys m = Ok vs /\ length vs = (length yb * length xb)%nat /\
    forall ix iy, (ix < length xb)%nat -> (iy < length yb)%nat ->
      exists js, NoDup js /\ (forall j, In j js <-> (j < length ys)%nat /\ in_bin xb (nth j xs 0) ix /\ in_bin yb (nth j ys 0) iy) /\
        nth (iy * length xb + ix) vs 0 = match js with [] => bad | _ => reduce (map (fun j => nth j m 0) js) end.
Proof.
  intros reduce bad xb yb xs ys m SX SY LX LM.
  set (g := fun p : nat * nat => match bin_val reduce bad xb yb xs ys m p with Ok v => v | Err _ => 0 end).
  assert (G : forall p, bin_val reduce bad xb yb xs ys m p = Ok (g p)).
  { intros p. unfold g, bin_val. destruct (C428_all xb yb xs ys m (fst p) (snd p) SX SY LX LM) as (js & E & _). rewrite E. reflexivity. }
  exists (map g (flat_map (fun iy => map (fun ix => (ix, iy)) (seq 0 (length xb))) (seq 0 (length yb)))). split; [apply each_ok, G|]. split; [apply grid_length|].
  intros ix iy IX IY. destruct (C428_all xb yb xs ys m ix iy SX SY LX LM) as (js & E & N & J). exists js. split; [exact N|]. split; [exact J|].
  rewrite (grid_nth g 0 (length xb) (length yb) 0 ix iy IX IY). unfold g, bin_val. cbn [fst snd Nat.add]. rewrite E. cbn [bind]. destruct js; reflexivity.
Qed.
Print Assumptions C428_values.
(** if only some objects are chosen, their values are looked up as if they were all: the plot fails *)
Lemma at_each_short {A} (m : list A) : forall ix i, In i ix -> (length m <= i)%nat -> at_each m ix = Err IndexError.
Proof.
  induction ix as [|k t IH]; intros i I L; [contradiction|]. cbn [at_each]. unfold arr_get. destruct (nth_error m k) as [x|] eqn:E; [|reflexivity]. cbn [bind].
  destruct I as [<-|I]; [apply nth_error_None in L; congruence|]. rewrite (IH i I L). reflexivity.
Qed.
Lemma at_each_err {A} (m : list A) : forall ix, (exists v, at_each m ix = Ok v) \/ at_each m ix = Err IndexError.
Proof.
  induction ix as [|k t [(v & IH)|IH]]; cbn [at_each]; [left; eexists; reflexivity| |]; unfold arr_get; destruct (nth_error m k); cbn [bind]; try (right; reflexivity); rewrite IH; [left; eexists; reflexivity|right; reflexivity].
Qed.
Theorem C428_own_refuted : forall reduce bad xb yb xs ys m, StronglySorted Rlt yb -> xb <> [] -> yb <> [] -> (length m < length ys)%nat -> nth 0 yb 0 <= nth (length ys - 1) ys 0 ->
  bin_vals reduce bad xb yb xs ys m = Err IndexError.
Proof.
  intros reduce bad xb yb xs ys m SY NX NY L Y.
  assert (D : exists iy, digitize yb (nth (length ys - 1) ys 0) = S iy /\ (iy < length yb)%nat).
  { destruct (digitize yb (nth (length ys - 1) ys 0)) as [|iy] eqn:E.
    - exfalso. unfold digitize in E. destruct yb as [|e t]; [contradiction|]. cbn [filter nth] in *. destruct (Rle_dec e _); [discriminate|contradiction].
    - exists iy. split; [reflexivity|]. apply (digitize_is yb _ iy SY) in E. tauto. }
  destruct D as (iy & D & I).
  assert (Bad : bin_val reduce bad xb yb xs ys m (0%nat, iy) = Err IndexError).
  { unfold bin_val, match_vals. cbn [fst snd]. rewrite (at_each_short m _ (length ys - 1)); [reflexivity| |lia]. unfold places. apply filter_In. split; [apply in_seq; lia|]. rewrite D. apply Nat.eqb_refl. }
  assert (Any : forall p, (exists v, bin_val reduce bad xb yb xs ys m p = Ok v) \/ bin_val reduce bad xb yb xs ys m p = Err IndexError).
  { intros p. unfold bin_val, match_vals. destruct (at_each_err m (places yb ys (snd p))) as [(v & ->)| ->]; cbn [bind]; [left; eexists; reflexivity|right; reflexivity]. }
  unfold bin_vals. assert (M : In (0%nat, iy) (flat_map (fun iy => map (fun ix => (ix, iy)) (seq 0 (length xb))) (seq 0 (length yb)))).
  { apply in_flat_map. exists iy. split; [apply in_seq; lia|]. apply in_map_iff. exists 0%nat. split; [reflexivity|]. apply in_seq. destruct xb; [contradiction|cbn; lia]. }
  induction (flat_map _ _) as [|p t IH]; [contradiction|]. cbn [each]. destruct (Any p) as [(v & E)|E]; rewrite E; cbn [bind]; [|reflexivity].
  destruct M as [->|M]; [congruence|]. rewrite (IH M). reflexivity.
Qed.
Print Assumptions C428_own_refuted.
(** where it does not fail, the value of another object is shown *)
Theorem C428_value_refuted : exists xb yb xs ys values hidx m, own_vals values hidx = Ok m /\ StronglySorted Rlt xb /\ StronglySorted Rlt yb /\ length xs = length ys /\ length values = length ys /\
  match_vals xb yb xs ys m 0 0 = Ok [nth 1 values 0] /\ ~ In 0%nat hidx /\ in_bin xb (nth 0 xs 0) 0 /\ in_bin yb (nth 0 ys 0) 0 /\ ~ in_bin xb (nth 1 xs 0) 0.
Proof.
  exists [0; 4], [0; 4], [1; 5], [1; 5], [10; 20], [1%nat], [20]. split; [reflexivity|]. split; [repeat constructor; lra|]. split; [repeat constructor; lra|]. split; [reflexivity|]. split; [reflexivity|].
  assert (SS : StronglySorted Rlt [0; 4]) by (repeat constructor; lra).
  assert (D1 : digitize [0; 4] 1 = 1%nat) by (apply digitize_is; [exact SS|]; cbn; split; [lia|split; [lra|intros; lra]]).
  assert (D5 : digitize [0; 4] 5 = 2%nat) by (apply digitize_is; [exact SS|]; cbn; split; [lia|split; [lra|intros; lia]]).
  split; [|split; [cbn; lia|split; [|split]]].
  - unfold match_vals, places. cbn [length seq filter nth]. rewrite D1, D5. cbn -[digitize]. rewrite D1. reflexivity.
  - unfold in_bin. cbn. split; [lia|split; [lra|intros; lra]].
  - unfold in_bin. cbn. split; [lia|split; [lra|intros; lra]].
  - unfold in_bin. cbn. intros (_ & _ & U). specialize (U ltac:(lia)). lra.
Qed.
Print Assumptions C428_value_refuted.

(** *** C429: the points of the objects *)
Theorem C429_cloned_partial : forall median hvals nobj user w h, get user "hwidth" = Ok w -> get user "hval" = Ok (Some h) -> hvals <> [] ->
  orbit_points median hvals (length hvals) nobj user true = Ok h.
Proof. intros median hvals nobj user w h W H N. destruct (C427_cloned median hvals user w h W H N) as (i & E & _). unfold orbit_points. rewrite E. reflexivity. Qed.
Print Assumptions C429_cloned_partial.
(** without the foreground points the plot fails *)
Theorem C429_background_refuted : forall median hvals n nobj user r, orbit_points median hvals n nobj user false <> Ok r.
Proof. intros median hvals n nobj user r. unfold orbit_points. destruct (choose_h median hvals n user); discriminate. Qed.
Print Assumptions C429_background_refuted.
(** with an H for each object the plot fails, unless all are chosen *)
Theorem C429_own_refuted : forall median hvals n user w k, get user "hwidth" = Ok (Some w) -> get user "hval" = Ok None -> length hvals <> n ->
  (k < length hvals)%nat -> w / 2 < Rabs (nth k hvals 0 - median hvals) -> orbit_points median hvals n (length hvals) user true = Err ValueError.
Proof.
  intros median hvals n user w k W H N K F. destruct (C427_median median hvals n user w W H N) as (l & E & ND & L). unfold orbit_points. rewrite E. cbn [bind fst snd].
  destruct (Nat.eqb_spec (length l) (length hvals)) as [Q|Q]; [exfalso|reflexivity].
  assert (A : incl (seq 0 (length hvals)) l).
  { apply NoDup_length_incl; [exact ND|rewrite seq_length, Q; reflexivity|]. intros i I. apply L in I. apply in_seq. lia. }
  assert (I : In k l) by (apply A, in_seq; lia). apply L in I. lra.
Qed.
Print Assumptions C429_own_refuted.

Example C425_case : In 2 [3; 2; 2] /\ 0 <= 1/2.
Proof. cbn. split; [tauto|lra]. Qed.
Example C426_case : choose_h (fun _ => 0) [1; 2] 2 [("hwidth", None); ("hval", None)]%string = Ok (2, One 1).
Proof. reflexivity. Qed.
Example C427_case : get [("hwidth", Some 1); ("hval", Some 20)]%string "hwidth" = Ok (Some 1) /\ get [("hwidth", Some 1); ("hval", Some 20)]%string "hval" = Ok (Some 20) /\ forall v, ~ In ("hvals"%string, v) [("hwidth", Some 1); ("hval", Some 20)]%string.
Proof. split; [reflexivity|]. split; [reflexivity|]. intros v [E|[E|[]]]; discriminate. Qed.
Example C428_case : bin_vals (fun _ => 0) (-1) [0; 4] [0; 4] [1; 5] [1; 5] [20] = Err IndexError.
Proof. apply C428_own_refuted; [repeat constructor; lra|discriminate|discriminate|cbn; lia|cbn; lra]. Qed.
Example C429_case : orbit_points (fun _ => 20) [20; 22; 19] 1 3 [("hwidth", Some 1); ("hval", None)]%string true = Err ValueError.
Proof. apply (C429_own_refuted (fun _ => 20) [20; 22; 19] 1 [("hwidth", Some 1); ("hval", None)]%string 1 1); [reflexivity|reflexivity|discriminate|cbn; lia|]. cbn. rewrite Rabs_right; lra. Qed.
