(** Theorems about the plots on the pages of a run: C356 and C357. *)
From Coq Require Import String Ascii ZArith List Bool Lia Permutation Sorted.
From Verif Require Import Base Web_Spec Web_Model Web_Proofs Web_Props Web_Props2.
From Verif Require Maps_Props3.
Import ListNotations.
Open Scope Z_scope.

(** * C356 *)
Definition Kinds : list string := ["SkyMap"; "Histogram"; "PowerSpectrum"; "Combo"]%string.
Lemma kinds_nodup : NoDup Kinds.
Proof. unfold Kinds. repeat (constructor; [cbn; intuition discriminate|]). constructor. Qed.
Definition Files (dir : string) (p : plot) (ft : string * string) : Prop := FileIn dir (p_file p) (fst ft) /\ FileIn dir (p_thumb p) (snd ft).
Lemma plot_dict_names dir plots : plot_dict dir plots = map (fun t => files_of dir t plots) (order_names Kinds (unique (map p_type plots))).
Proof. reflexivity. Qed.
Lemma files_forall dir l : Forall2 (Files dir) l (map (fun p => (join dir (p_file p), join dir (p_thumb p))) l).
Proof. induction l; cbn; constructor; auto. split; apply join_file. Qed.
(** The types of the plots are listed once, sky maps, histograms, power spectra and combined plots first, and each with all its plots and thumbnails. *)
Theorem C356_types : forall dir plots,
  NoDup (map fst (plot_dict dir plots)) /\ InOrder (Ranked Kinds) (map fst (plot_dict dir plots)) /\
  forall t, In t (map fst (plot_dict dir plots)) <-> exists p, In p plots /\ p_type p = t.
Proof.
  intros dir plots. rewrite plot_dict_names, map_map. cbn [fst files_of]. rewrite map_id.
  destruct (names_ranked Kinds (unique (map p_type plots)) kinds_nodup (unique_sorted _)) as (A & B & C). split; auto. split; auto.
  intro t. rewrite B, unique_in, in_map_iff. split; intros (p & P & Q); eauto.
Qed.
Print Assumptions C356_types.
Theorem C356_files : forall dir plots t e, In (t, e) (plot_dict dir plots) ->
  exists files shown, e = Some files /\ Keeps (fun p => p_type p = t) plots shown /\ Forall2 (Files dir) shown files.
Proof.
  intros dir plots t e H. rewrite plot_dict_names in H. apply in_map_iff in H as (t' & E & _). injection E as -> <-.
  eexists _, (filter (fun p => String.eqb (p_type p) t) plots). split; [reflexivity|]. split; [apply keeps_filter; intros; apply String.eqb_eq|apply files_forall].
Qed.
Print Assumptions C356_files.
Definition pl (i : Z) (t f : string) : plot := {| p_id := i; p_type := t; p_file := f; p_thumb := "thumb." ++ f |}.
Example C356_case : map fst (plot_dict "out" [pl 1 "Zed" "c.pdf"; pl 1 "Combo" "b.pdf"; pl 1 "Alpha" "d.pdf"; pl 1 "SkyMap" "a.pdf"; pl 1 "SkyMap" "e.pdf"]) = ["SkyMap"; "Combo"; "Alpha"; "Zed"]%string.
Proof. reflexivity. Qed.
(** The plots of a metric, and those of some types for some metrics. *)
Theorem C356_sky_maps : forall types plots ms, Keeps (fun p => In (p_type p) types /\ exists m, In m ms /\ m_id m = p_id p) plots (get_sky_maps types plots ms).
Proof.
  intros. unfold get_sky_maps.
  assert (E : filter (fun p => has types (p_type p)) (filter (fun p => has_id (map m_id ms) (p_id p)) plots) = filter (fun p => has_id (map m_id ms) (p_id p) && has types (p_type p)) plots).
  { induction plots as [|a l IH]; cbn; auto. destruct (has_id (map m_id ms) (p_id a)); cbn; [|exact IH]. destruct (has types (p_type a)); cbn; rewrite IH; auto. }
  rewrite E. apply keeps_filter. intros p _. rewrite andb_true_iff, has_in, has_id_in, in_map_iff. split; intros (A & B); split; auto; [destruct A as (m & A & C); eauto|destruct B as (m & A' & C); eauto].
Qed.
Print Assumptions C356_sky_maps.

(** * C357 *)
Definition Bands : list string := ["u"; "g"; "r"; "i"; "z"; "y"]%string.
Definition Named (b : string) (p : plot) : Prop := Inside ("_" ++ b ++ "_") (p_file p).
(** a place without a plot, and one with one plot *)
Definition Blank (c : list entry) : Prop := c = [("SkyMap", None); ("Histogram", None); ("PowerSpectrum", None); ("Combo", None)]%string.
Definition Shows (dir : string) (p : plot) (c : list entry) : Prop := exists ft, Files dir p ft /\ c = [(p_type p, Some [ft])].
(** a place with a plot among others *)
Definition Listed (dir : string) (p : plot) (c : list entry) : Prop := exists files ft, In (p_type p, Some files) c /\ In ft files /\ Files dir p ft.
Lemma contains_in w s : contains w s = true <-> Inside w s.
Proof.
  unfold Inside. induction s as [|c s IH]; cbn [contains]; rewrite orb_true_iff.
  - split.
    + intros [H|H]; [|discriminate]. apply Maps_Props3.prefix_true in H as (b & E). exists EmptyString, b. exact E.
    + intros (a & b & E). left. destruct a; [|discriminate]. cbn in E. rewrite E. apply Maps_Props3.prefix_app.
  - split.
    + intros [H|H].
      * apply Maps_Props3.prefix_true in H as (b & E). exists EmptyString, b. exact E.
      * apply IH in H as (a & b & ->). exists (String c a), b. reflexivity.
    + intros (a & b & E). destruct a as [|d a]; cbn in E; [left; rewrite E; apply Maps_Props3.prefix_app|]. injection E as -> E. right. apply IH. eauto.
Qed.
Lemma named b p : contains (mark b) (p_file p) = true <-> Named b p.
Proof. apply contains_in. Qed.
Lemma dict_one dir p : Shows dir p (plot_dict dir [p]).
Proof.
  destruct (C356_types dir [p]) as (N & _ & I). rewrite plot_dict_names in *. rewrite map_map in *. cbn [fst files_of] in *. rewrite map_id in *.
  set (l := order_names Kinds (unique (map p_type [p]))) in *.
  assert (E : l = [p_type p]).
  { assert (J : forall t, In t l <-> t = p_type p) by (intro t; rewrite I; cbn; split; [intros (q & [<-|[]] & E); auto|intros ->; eauto]).
    destruct l as [|a [|b l]].
    - exfalso. apply (proj2 (J (p_type p)) eq_refl).
    - f_equal. apply J. left; auto.
    - exfalso. apply NoDup_cons_iff in N as (N & _). apply N. left. transitivity (p_type p); [|symmetry]; apply J; cbn; auto. }
  rewrite E. cbn [map]. unfold files_of. cbn [filter]. rewrite String.eqb_refl. exists (join dir (p_file p), join dir (p_thumb p)). split; [split; apply join_file|reflexivity].
Qed.
Lemma dict_listed dir plots p : In p plots -> Listed dir p (plot_dict dir plots).
Proof.
  intro H. rewrite plot_dict_names. eexists _, (join dir (p_file p), join dir (p_thumb p)). split; [|split; [|split; apply join_file]].
  - apply in_map_iff. exists (p_type p). split; [reflexivity|]. apply (names_ranked Kinds (unique (map p_type plots)) kinds_nodup (unique_sorted _)). apply unique_in, in_map, H.
  - apply (in_map (fun q => (join dir (p_file q), join dir (p_thumb q)))). apply filter_In. split; auto. apply String.eqb_refl.
Qed.
Lemma pad_spec l : exists p, pad l = l ++ p /\ Forall Blank p /\ (length p < 3)%nat /\ exists k, length (pad l) = (3 * k)%nat.
Proof.
  unfold pad. set (n := match Nat.modulo (length l) 3 with O => 0 | S O => 2 | _ => 1 end%nat).
  exists (repeat blank n). split; auto. split; [apply Forall_forall; intros x H; apply repeat_spec in H; subst; reflexivity|].
  rewrite app_length, repeat_length. pose proof (Nat.div_mod (length l) 3). pose proof (Nat.mod_upper_bound (length l) 3).
  unfold n. destruct (Nat.modulo (length l) 3) as [|[|[|r]]]; try lia; split; try lia; [exists (length l / 3)%nat|exists (S (length l / 3))|exists (S (length l / 3))]; lia.
Qed.
Definition AtMostOne (plots : list plot) : Prop := forall b o, In b Bands -> Keeps (Named b) plots o -> (length o <= 1)%nat.
Lemma keeps_fun {A} (P : A -> Prop) l o o' : Keeps P l o -> Keeps P l o' -> o = o'.
Proof. intro K. revert o'. induction K; intros o' K'; inversion K'; subst; auto; try tauto. f_equal. auto. Qed.
Lemma one_test plots : forallb (fun f => Nat.leb (length (of_band f plots)) 1) band_order = true <-> AtMostOne plots.
Proof.
  rewrite forallb_forall. unfold AtMostOne. split.
  - intros H b o I K. specialize (H b I). apply Nat.leb_le in H. rewrite (keeps_fun _ _ _ _ K (keeps_filter (Named b) _ plots (fun x _ => named b x))). exact H.
  - intros H b I. apply Nat.leb_le, (H b); auto. apply keeps_filter. intros. apply named.
Qed.
(** Without plots there is an empty page; otherwise the places come in rows of three. *)
Theorem C357_rows : forall dir ms plots, (plots = [] -> order_plots dir ms plots = []) /\ exists k, length (order_plots dir ms plots) = (3 * k)%nat.
Proof.
  intros dir ms plots. split; [intros ->; reflexivity|]. unfold order_plots. destruct plots as [|p t]; [exists 0%nat; reflexivity|].
  destruct (forallb _ _); match goal with |- exists k, length (pad ?l) = _ => destruct (pad_spec l) as (_ & _ & _ & _ & K); exact K end.
Qed.
Print Assumptions C357_rows.
(** When no band has more than one plot, the first six places belong to the bands u to y, blank when there is no plot; the plots without a band follow. *)
Theorem C357_grid : forall dir ms plots, plots <> [] -> AtMostOne plots ->
  exists six rest blanks others, order_plots dir ms plots = six ++ rest ++ blanks /\ length six = 6%nat /\ Forall Blank blanks /\ (length blanks < 3)%nat /\
    (forall k b, nth_error Bands k = Some b -> exists c, nth_error six k = Some c /\
       ((exists p, In p plots /\ Named b p /\ Shows dir p c) \/ ((forall p, In p plots -> ~ Named b p) /\ Blank c))) /\
    Keeps (fun p => forall b, In b Bands -> ~ Named b p) plots others /\ Forall2 (Shows dir) others rest.
Proof.
  intros dir ms plots N O. unfold order_plots. destruct plots as [|p0 t]; [tauto|]. set (plots := p0 :: t) in *. clearbody plots.
  rewrite (proj2 (one_test plots) O). set (six := map _ band_order). set (others := filter (fun p => negb (marked p)) plots).
  destruct (pad_spec (six ++ map (fun p => plot_dict dir [p]) others)) as (pd & -> & B & L & _).
  exists six, (map (fun p => plot_dict dir [p]) others), pd, others. split; [rewrite app_assoc; auto|]. split; [reflexivity|]. split; auto. split; auto. split; [|split].
  - intros k b E. exists (match of_band b plots with [] => blank | l => plot_dict dir l end). split.
    + unfold six. rewrite nth_error_map. change band_order with Bands. rewrite E. reflexivity.
    + pose proof (keeps_filter (Named b) (fun p => contains (mark b) (p_file p)) plots (fun x _ => named b x)) as K. fold (of_band b plots) in K.
      pose proof (O b _ (nth_error_In _ _ E) K) as L1. destruct (of_band b plots) as [|q [|q' r]]; [right|left|cbn in L1; lia].
      * split; [|reflexivity]. intros q H1 H2. apply (proj2 (keeps_in _ _ _ K q)). auto.
      * exists q. destruct (proj1 (keeps_in _ _ _ K q) (or_introl eq_refl)) as (A & A'). split; auto. split; auto. apply dict_one.
  - apply keeps_filter. intros p _. rewrite negb_true_iff. unfold marked. split.
    + intros E b I Q. apply named in Q. rewrite (proj2 (existsb_exists _ _)) in E; [discriminate|]. exists b. auto.
    + intro H. destruct (existsb _ band_order) eqn:E; auto. apply existsb_exists in E as (b & I & C). apply named in C. exfalso. apply (H b); auto.
  - clear. induction others as [|q l IH]; cbn; constructor; auto. apply dict_one.
Qed.
Print Assumptions C357_grid.
Example C357_grid_case : let plots := [pl 1 "SkyMap" "n_r_HEAL.pdf"; pl 2 "SkyMap" "n_all_HEAL.pdf"; pl 3 "SkyMap" "n_u_HEAL.pdf"]%string in
  AtMostOne plots /\ length (order_plots "out" [] plots) = 9%nat /\ nth_error (order_plots "out" [] plots) 2 = Some [("SkyMap", Some [("out/n_r_HEAL.pdf", "out/thumb.n_r_HEAL.pdf")])]%string.
Proof. cbv zeta. split; [apply one_test; reflexivity|split; reflexivity]. Qed.
(** When a band has several plots, there is a place for each metric with a plot, by display order, and it has all the plots of this metric. *)
Theorem C357_display_order : forall dir ms plots, NoDup (map m_id ms) -> plots <> [] -> ~ AtMostOne plots ->
  exists cells blanks shown, order_plots dir ms plots = cells ++ blanks /\ Forall Blank blanks /\ (length blanks < 3)%nat /\
    NoDup (map m_id shown) /\ (forall m, In m shown <-> In m ms /\ exists p, In p plots /\ p_id p = m_id m) /\
    InOrder (fun x y => Lex [ByNumber m_order x y; ByNumber m_id x y]) shown /\
    Forall2 (fun m c => forall p, In p plots -> p_id p = m_id m -> Listed dir p c) shown cells.
Proof.
  intros dir ms plots N NE O. unfold order_plots. destruct plots as [|p0 t]; [tauto|]. set (plots := p0 :: t) in *. clearbody plots.
  destruct (forallb _ band_order) eqn:E; [exfalso; apply O, one_test, E|].
  set (w := with_ids (map p_id plots) ms). set (shown := sort_metrics [COrder] w).
  destruct (pad_spec (map (fun m => plot_dict dir (filter (fun p => Z.eqb (p_id p) (m_id m)) plots)) shown)) as (pd & -> & B & L & _).
  eexists _, pd, shown. split; [reflexivity|]. split; auto. split; auto.
  assert (Nw : NoDup (map m_id w)).
  { unfold w, with_ids. generalize (fun m => has_id (map p_id plots) (m_id m)). intro f. clear - N. induction ms as [|a l IH]; cbn; [constructor|].
    cbn in N. apply NoDup_cons_iff in N as (N & D). destruct (f a); auto. cbn. constructor; auto. intro H. apply N. apply in_map_iff in H as (x & Ex & H). apply filter_In in H as (H & _). apply in_map_iff. eauto. }
  split; [apply (Permutation_NoDup (Permutation_map m_id (Permutation_sym (sort_perm [COrder] w))) Nw)|]. split; [|split].
  - intro m. assert (P : In m shown <-> In m w) by (split; apply Permutation_in; [|apply Permutation_sym]; apply sort_perm). rewrite P. unfold w, with_ids. rewrite filter_In, has_id_in, in_map_iff.
    split; intros (A & p & Q & R); split; eauto.
  - intros i j x y Lt Ei Ej. apply (before_lex [COrder]). exact (sorted_order _ _ (sort_sorted [COrder] w Nw) i j x y Lt Ei Ej).
  - clear. induction shown as [|m l IH]; cbn; constructor; auto. intros p I Ep. apply dict_listed, filter_In. split; auto. apply Z.eqb_eq, Ep.
Qed.
Print Assumptions C357_display_order.
Example C357_display_case : let plots := [pl 1 "SkyMap" "n_r_HEAL.pdf"; pl 2 "SkyMap" "m_r_HEAL.pdf"]%string in
  ~ AtMostOne plots /\ order_plots "out" [mk 1 "A" "x" "Mean" 2; mk 2 "A" "x" "Mean" 1] plots =
  [[("SkyMap", Some [("out/m_r_HEAL.pdf", "out/thumb.m_r_HEAL.pdf")])]; [("SkyMap", Some [("out/n_r_HEAL.pdf", "out/thumb.n_r_HEAL.pdf")])]; blank]%string.
Proof. cbv zeta. split; [|reflexivity]. intro H. apply one_test in H. discriminate. Qed.
(** In each case no plot of a metric of the run is left out, *)
Theorem C357_all_shown : forall dir ms plots p, NoDup (map m_id ms) -> In p plots -> (exists m, In m ms /\ m_id m = p_id p) ->
  exists c, In c (order_plots dir ms plots) /\ Listed dir p c.
Proof.
  intros dir ms plots p N I (m & Im & Em). assert (NE : plots <> []) by (intros ->; destruct I).
  destruct (forallb (fun f => Nat.leb (length (of_band f plots)) 1) band_order) eqn:E.
  - apply one_test in E. destruct (C357_grid dir ms plots NE E) as (six & rest & bl & oth & -> & _ & _ & _ & G & K & F).
    assert (SL : forall q c, Shows dir q c -> Listed dir q c). { intros q c (ft & Q & ->). exists [ft], ft. cbn. auto. }
    destruct (marked p) eqn:M.
    + apply existsb_exists in M as (b & Ib & C). apply named in C. apply In_nth_error in Ib as (k & Ek). destruct (G k b Ek) as (c & Ec & [(q & Iq & Nq & Sq)|(H & _)]); [|exfalso; apply (H p); auto].
      assert (q = p).
      { pose proof (keeps_filter (Named b) (fun x => contains (mark b) (p_file x)) plots (fun x _ => named b x)) as Kb. pose proof (E b _ (nth_error_In _ _ Ek) Kb) as L1.
        set (o := filter _ plots) in *. pose proof (proj2 (keeps_in _ _ _ Kb p) (conj I C)) as H1. pose proof (proj2 (keeps_in _ _ _ Kb q) (conj Iq Nq)) as H2.
        destruct o as [|a [|a' o]]; [destruct H1| |cbn in L1; lia]. destruct H1 as [<-|[]], H2 as [<-|[]]. reflexivity. }
      subst q. exists c. split; [apply in_app_iff; left; apply (nth_error_In _ _ Ec)|auto].
    + assert (Io : In p oth).
      { apply (keeps_in _ _ _ K). split; auto. intros b Ib Q. apply named in Q. unfold marked in M. rewrite (proj2 (existsb_exists _ _)) in M; [discriminate|]. exists b. auto. }
      clear - F Io SL. assert (exists c, In c rest /\ Shows dir p c) as (c & Ic & Sc).
      { induction F as [|x y l l' R F IH]; [destruct Io|]. destruct Io as [->|Io]; [exists y; cbn; auto|]. destruct (IH Io) as (c & A & B). exists c. cbn. auto. }
      exists c. split; auto. apply in_app_iff. right. apply in_app_iff. auto.
  - assert (O : ~ AtMostOne plots) by (rewrite <- one_test; congruence).
    destruct (C357_display_order dir ms plots N NE O) as (cells & bl & shown & -> & _ & _ & _ & J & _ & F).
    assert (Is : In m shown) by (apply J; split; auto; exists p; auto).
    assert (exists c, In c cells /\ Listed dir p c) as (c & Ic & Lc); [|exists c; split; auto; apply in_app_iff; auto].
    clear - F Is I Em. induction F as [|x y l l' R F IH]; [destruct Is|]. destruct Is as [->|Is]; [exists y; split; [left; auto|apply R; auto]|]. destruct (IH Is) as (c & A & B). exists c. cbn. auto.
Qed.
Print Assumptions C357_all_shown.
(** but a plot whose file has the names of two bands is shown twice. *)
Theorem C357_once_refuted : exists ms plots p i j c c', NoDup (map m_id ms) /\ In p plots /\ i <> j /\
  nth_error (order_plots "out" ms plots) i = Some c /\ nth_error (order_plots "out" ms plots) j = Some c' /\ Shows "out" p c /\ Shows "out" p c'.
Proof.
  set (p := pl 1 "SkyMap" "pair_u_g_HEAL.pdf"). exists [mk 1 "A" "x" "Mean" 1], [p], p, 0%nat, 1%nat, (plot_dict "out" [p]), (plot_dict "out" [p]).
  split; [repeat constructor; cbn; tauto|]. split; [left; auto|]. split; [discriminate|]. split; [reflexivity|]. split; [reflexivity|]. split; apply dict_one.
Qed.
Print Assumptions C357_once_refuted.
