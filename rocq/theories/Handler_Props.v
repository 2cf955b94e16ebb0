(** C375-C377: the order of the bundles and the dictionaries of the plots. *)
From Coq Require Import Ascii String Permutation Lia.
From Verif Require Import Base Maps_Model Handler_Model Handler_Spec Handler_Proofs Handler_Proofs2.
Import List. Import ListNotations.
Open Scope string_scope.

(* ---------------------------------------------------------------- C375 *)
Definition demo (root run info metric : string) : bundle :=
  {| b_root := root; b_slicer := "HealpixSlicer"; b_metric := metric; b_units := Some "mag"; b_dtype := "float"; b_run := run; b_info := info;
     b_constraint := None; b_dict := []; b_col := "x"; b_col_units := ""; b_group := "G"; b_subgroup := "S"; b_order := 0; b_values := Some true |}.
(** The bundles are those given, and in the order given if this is the order of the bands, each band once. *)
Theorem C375_order_partial : forall bs,
  Permutation (ordered bs) bs /\
  ((exists ns, length ns = length bs /\ (forall i b n, nth_error bs i = Some b -> nth_error ns i = Some n -> BandOf (b_root b) n) /\
     (forall i n m, nth_error ns i = Some n -> nth_error ns (S i) = Some m -> n < m)) -> ordered bs = bs) /\
  (Forall (fun b => NoBand (b_root b)) bs -> ordered bs = bs).
Proof.
  intro bs. split; [apply ordered_perm|]. split.
  - intros (ns & L & B & S). apply ordered_kept. intros i b E.
    destruct (nth_error ns i) as [n|] eqn:En.
    + rewrite (place_band b n i) by eauto. enough (i <= n) by lia. clear E B. revert n En. induction i as [|i IH]; intros n En; [lia|].
      destruct (nth_error ns i) as [m|] eqn:Em.
      * specialize (IH m eq_refl). specialize (S i m n Em En). lia.
      * apply nth_error_None in Em. assert (nth_error ns (Datatypes.S i) = None) by (apply nth_error_None; lia). congruence.
    + apply nth_error_None in En. assert (nth_error bs i <> None) by congruence. apply nth_error_Some in H. lia.
  - intro F. apply ordered_kept. intros i b E. rewrite place_none; [lia|]. rewrite Forall_forall in F. apply F. now apply nth_error_In in E.
Qed.
Print Assumptions C375_order_partial.
Example C375_case : BandOf (b_root (demo "opsim_m_r_HEAL" "" "" "")) 2 /\ NoBand "opsim_m_HEAL" /\
  map b_root (ordered [demo "m_g" "" "" ""; demo "m_u" "" "" ""; demo "m" "" "" ""]) = ["m_u"; "m_g"; "m"].
Proof.
  assert (L : forall s, (if in_dec ascii_dec "_"%char (list_ascii_of_string s) then False else True) -> Lacks "_"%char s).
  { intros s H a b ->. destruct (in_dec _ _ _) as [I|I]; [easy|]. apply I. clear H I. induction a as [|x a IH]; [now left | now right]. }
  split; [|split].
  - exists ["opsim"; "m"], "r", ["HEAL"]. split; [|split; [reflexivity|]].
    + split; [easy|]. split; [reflexivity|]. repeat constructor; apply L; exact I.
    + repeat constructor. cbn. intuition discriminate.
  - exists ["opsim"; "m"; "HEAL"]. split; [split; [easy|]; split; [reflexivity|]; repeat constructor; apply L; exact I|].
    repeat constructor; cbn; intuition discriminate.
  - reflexivity.
Qed.
(** In another order the bundles need not come in the order of the bands: y before z stays, and of two in u one ends up after g. *)
Theorem C375_sorted_refuted :
  exists b0 b1 c0 c1 c2, BandOf (b_root b0) 5 /\ BandOf (b_root b1) 4 /\ ordered [b0; b1] = [b0; b1] /\
    BandOf (b_root c0) 0 /\ BandOf (b_root c1) 0 /\ BandOf (b_root c2) 1 /\ ordered [c0; c1; c2] = [c1; c2; c0].
Proof.
  exists (demo "y" "a" "" ""), (demo "z" "a" "" ""), (demo "u" "a" "" ""), (demo "u" "b" "" ""), (demo "g" "a" "" "").
  assert (L : forall n f, nth_error Bands n = Some f -> BandOf f n).
  { intros n f E. exists [], f, []. split; [|split; [exact E | constructor]]. split; [easy|]. split; [reflexivity|].
    constructor; [|constructor]. intros a b Q. do 6 (destruct n as [|n]; [injection E as <-; destruct a as [|? [|? ?]]; discriminate|]). destruct n; discriminate. }
  repeat split; try (apply L; reflexivity).
Qed.
Print Assumptions C375_sorted_refuted.

(* ---------------------------------------------------------------- C376 *)
(** what the user gives for the bundle at a place *)
Definition asked (g : given) (i : nat) (k : string) : option val :=
  match g with Nothing => None | Single d => get d k | Many l => match nth_error l i with Some d => get d k | None => None end end.
Definition set_default (pf : option plotter) (k : string) : option val :=
  match pf with Some p => match get (p_defaults p) k with Some VNone => None | o => o end | None => None end.
Definition WellFormed (bs : list bundle) (before : list dict) (g : given) (pf : option plotter) : Prop :=
  (forall b, In b bs -> NoDup (map fst (b_dict b))) /\ (forall d, In d before -> NoDup (map fst d)) /\
  match g with Nothing => True | Single d => NoDup (map fst d) | Many l => forall d, In d l -> NoDup (map fst d) end /\
  match pf with Some p => NoDup (map fst (p_defaults p)) | None => True end.
Definition IsLabel (pf : option plotter) (k : string) : Prop := pf <> None /\ (k = "xlabel" \/ k = "ylabel").
(** the documented order; what is not documented is the order for the labels of the axes *)
Definition Resolved (auto : nat -> string -> option val) bs (before : list dict) g pf (i : nat) (k : string) (o : option val) : Prop :=
  exists b d0, nth_error bs i = Some b /\ nth_error before i = Some d0 /\
    (~ IsLabel pf k -> FirstOf [asked g i k; get (b_dict b) k; set_default pf k; get d0 k; auto i k] o) /\
    (IsLabel pf k -> FirstOf [asked g i k; get (b_dict b) k; set_default pf k; auto i k; get d0 k] o).

Lemma first_of_exists : forall {V} (l : list (option V)), FirstOf l (fold_right (fun o r => match o with Some v => Some v | None => r end) None l).
Proof. induction l as [|[v|] l IH]; cbn; constructor; auto. Qed.

Section Set_.
  Variable iter : list string -> list string.
  Variable random : nat -> val.
  Definition autos (bs : list bundle) (pf : option plotter) (i : nat) (k : string) : option val :=
    if String.eqb k "title" then match title iter bs with Ok t => Some (VStr t) | Err _ => None end
    else if String.eqb k "label" then Some (nth i (legend_labels iter bs) VNone)
    else if String.eqb k "color" then match colours random bs with Ok l => Some (nth i l VNone) | Err _ => None end
    else if String.eqb k "cbar_format" then Some (cbar bs)
    else match pf with
         | Some p => match xylabels iter bs (p_type p) with
                     | Ok (x, y) => if String.eqb k "xlabel" then Some x else if String.eqb k "ylabel" then Some y else None
                     | Err _ => None
                     end
         | None => None
         end.
  Lemma one_dict_get : forall t l c cb (xy : option (val * val * dict)) (before bdict : dict) (user : option dict) k,
    NoDup (map fst before) -> NoDup (map fst bdict) -> (forall u : dict, user = Some u -> NoDup (map fst u)) -> (forall x y (d : dict), xy = Some (x, y, d) -> NoDup (map fst d)) ->
    get (one_dict t l c cb xy before bdict user) k =
    match match user with Some u => get u k | None => None end with Some v => Some v | None =>
    match get bdict k with Some v => Some v | None =>
    match (match xy with Some (_, _, d) => match get d k with Some VNone => None | o => o end | None => None end) with Some v => Some v | None =>
    match (match xy with Some (x, y, _) => if String.eqb k "xlabel" then Some x else if String.eqb k "ylabel" then Some y else None | None => None end) with Some v => Some v | None =>
    match get before k with Some v => Some v | None =>
      if String.eqb k "title" then Some t else if String.eqb k "label" then Some l else if String.eqb k "color" then Some c else if String.eqb k "cbar_format" then Some cb else None
    end end end end end.
  Proof.
    intros t l c cb xy before bdict user k Nb Nd Nu Nx. unfold one_dict. cbv zeta.
    assert (B : get (update [("title", t); ("label", l); ("color", c); ("cbar_format", cb)] before) k =
       match get before k with Some v => Some v | None =>
      if String.eqb k "title" then Some t else if String.eqb k "label" then Some l else if String.eqb k "color" then Some c else if String.eqb k "cbar_format" then Some cb else None end).
    { rewrite get_update by exact Nb. reflexivity. }
    set (d1 := update _ before) in *.
    match goal with |- context [update ?m bdict] => set (d2 := m) end.
    assert (D2 : get d2 k = match (match xy with Some (_, _, d) => match get d k with Some VNone => None | o => o end | None => None end) with Some v => Some v | None =>
      match (match xy with Some (x, y, _) => if String.eqb k "xlabel" then Some x else if String.eqb k "ylabel" then Some y else None | None => None end) with Some v => Some v | None => get d1 k end end).
    { unfold d2. destruct xy as [[[x y] df]|]; [|reflexivity]. specialize (Nx x y df eq_refl). rewrite get_update by now apply nodup_filter. rewrite get_filter by exact Nx.
      rewrite !get_put. destruct (get df k) as [[]|]; try reflexivity; destruct (String.eqb_spec k "ylabel"), (String.eqb_spec k "xlabel"); subst; try discriminate; reflexivity. }
    destruct user as [u|].
    - rewrite get_update by now apply Nu. destruct (get u k); [reflexivity|]. rewrite get_update by exact Nd. destruct (get bdict k); [reflexivity|]. now rewrite D2, B.
    - rewrite get_update by exact Nd. destruct (get bdict k); [reflexivity|]. now rewrite D2, B.
  Qed.
  Lemma set_resolves : forall bs before g pf ds, WellFormed bs before g pf -> set_plot_dicts iter random bs before g pf false = Ok ds ->
    exists pre t, title iter bs = Ok t /\ length pre = length bs /\ check_dicts (VStr t) bs pre = Ok ds /\
      forall i d, nth_error pre i = Some d -> forall k, Resolved (autos bs pf) bs before g pf i k (get d k).
  Proof.
    intros bs before g pf ds (Wb & Wd & Wg & Wp) E. unfold set_plot_dicts in E. cbv beta iota zeta in E.
    destruct (colours random bs) as [cols|] eqn:Ec; [|discriminate]. cbn [bind] in E.
    destruct (title iter bs) as [t|] eqn:Et; [|discriminate]. cbn [bind] in E.
    match type of E with bind ?q _ = _ => destruct q as [xy|] eqn:Exy; [|discriminate] end. cbn [bind] in E.
    match type of E with bind ?m _ = _ => destruct m as [pre|] eqn:Ep; [|discriminate] end. cbn [bind] in E.
    exists pre, t. split; [reflexivity|]. split; [rewrite (map_res_len _ _ _ Ep); apply seq_length|]. split; [exact E|].
    intros i d Hd k. assert (Li : i < length bs).
    { rewrite <- (seq_length (length bs) 0), <- (map_res_len _ _ _ Ep). apply nth_error_Some. congruence. }
    destruct (map_res_ok _ _ _ Ep i i) as (d' & E' & Ei).
    { rewrite (nth_error_nth' _ 0) by now rewrite seq_length. now rewrite seq_nth. }
    rewrite Hd in E'. injection E' as <-. destruct (user_dict g i) as [u|] eqn:Eu; [|discriminate]. cbn [bind] in Ei.
    destruct (nth_error bs i) as [b|] eqn:Eb; [|discriminate]. match type of Ei with match ?q with _ => _ end = _ => destruct q as [d0|] eqn:E0; [|discriminate] end. injection Ei as <-.
    exists b, d0. split; [exact Eb|]. split; [exact E0|].
    assert (Nu : forall x, u = Some x -> NoDup (map fst x)).
    { intros x ->. destruct g as [|d|l]; cbn in Eu; [discriminate | now injection Eu as -> |]. destruct (nth_error l i) eqn:El; [|discriminate]. injection Eu as ->. apply Wg. now apply nth_error_In in El. }
    assert (Nx : forall x y df, xy = Some (x, y, df) -> NoDup (map fst df)).
    { intros x y df ->. destruct pf as [p|]; [|discriminate]. destruct (xylabels iter bs (p_type p)) as [l|]; [|discriminate]. cbn in Exy. injection Exy as _ <-. exact Wp. }
    rewrite one_dict_get; [|apply Wd; now apply nth_error_In in E0 | apply Wb; now apply nth_error_In in Eb | exact Nu | exact Nx].
    assert (A : match u with Some u => get u k | None => None end = asked g i k).
    { destruct g as [|d|l]; cbn in Eu |- *; [now injection Eu as <- | now injection Eu as <- |]. destruct (nth_error l i); [|discriminate]. now injection Eu as <-. }
    rewrite A. unfold autos. rewrite Et, Ec.
    destruct pf as [p|]; cbn [set_default].
    - destruct (xylabels iter bs (p_type p)) as [[x y]|] eqn:El; [|discriminate]. cbn in Exy. injection Exy as <-.
      destruct (asked g i k); [split; intros; apply FO_here|]. destruct (get (b_dict b) k); [split; intros; apply FO_next, FO_here|].
      destruct (match get (p_defaults p) k with Some VNone => None | o => o end); [split; intros; do 2 apply FO_next; apply FO_here|].
      destruct (String.eqb_spec k "xlabel") as [->|N1]; [split; [intro Q; exfalso; apply Q; split; [easy | auto] | intros _; do 3 apply FO_next; apply FO_here]|].
      destruct (String.eqb_spec k "ylabel") as [->|N2]; [split; [intro Q; exfalso; apply Q; split; [easy | auto] | intros _; do 3 apply FO_next; apply FO_here]|].
      split; [intros _|intros [_ [?|?]]; contradiction]. do 3 apply FO_next.
      destruct (get d0 k); [apply FO_here | apply FO_next].
      repeat match goal with |- context [String.eqb ?a ?b] => destruct (String.eqb a b) end; (apply FO_here || (apply FO_next, FO_none)).
    - injection Exy as <-. cbn match.
      destruct (asked g i k); [split; intros; apply FO_here|]. destruct (get (b_dict b) k); [split; intros; apply FO_next, FO_here|].
      split; [intros _|intros [Q _]; now contradiction Q]. do 3 apply FO_next.
      destruct (get d0 k); [apply FO_here | apply FO_next].
      repeat match goal with |- context [String.eqb ?a ?b] => destruct (String.eqb a b) end; (apply FO_here || (apply FO_next, FO_none)).
  Qed.
  Lemma check_dicts_nth : forall t bs pre ds i d, check_dicts t bs pre = Ok ds -> nth_error pre i = Some d ->
    exists d', nth_error ds i = Some d' /\ forall k, ~ In k keys2_check -> get d' k = get d k.
  Proof.
    intros t bs pre ds i d E Hd. unfold check_dicts in E. destruct (negb _); [discriminate|]. destruct (Nat.leb _ _).
    - destruct (check_nth _ _ _ _ _ E Hd) as (d' & E' & K & _). eauto.
    - injection E as <-. eauto.
  Qed.

  (** A key that need not be the same for all bundles has the value of the first source that has one; what is generated depends only on
      the bundles and the plotter.  A list of dictionaries that is too short raises. *)
  Lemma resolution : forall bs pf, exists auto, forall before g, WellFormed bs before g pf ->
    (forall ds, set_plot_dicts iter random bs before g pf false = Ok ds ->
      length ds = length bs /\ forall i d k, nth_error ds i = Some d -> ~ In k ["xlim"; "ylim"; "color_min"; "color_max"; "title"] -> Resolved auto bs before g pf i k (get d k)) /\
    (forall l, g = Many l -> length l < length bs -> forall ds, set_plot_dicts iter random bs before g pf false <> Ok ds).
  Proof.
    intros bs pf. exists (autos bs pf). intros before g W. split.
    - intros ds E. destruct (set_resolves _ _ _ _ _ W E) as (pre & t & _ & L & C & R).
      assert (Ln : length ds = length pre).
      { unfold check_dicts in C. destruct (negb _); [discriminate|]. destruct (Nat.leb _ _); [|now injection C as <-].
        apply check_spec in C. destruct C as [_ ->]. rewrite reset_len. destruct (too_many _ _); [apply map_length | reflexivity]. }
      split; [congruence|]. intros i d k Hd N.
      destruct (nth_error pre i) as [d'|] eqn:E'.
      + destruct (check_dicts_nth _ _ _ _ _ _ C E') as (d'' & E'' & K). rewrite Hd in E''. injection E'' as <-. rewrite (K k N). now apply R.
      + apply nth_error_None in E'. assert (nth_error ds i <> None) by congruence. apply nth_error_Some in H. lia.
    - intros l -> L ds E. unfold set_plot_dicts in E. cbv beta iota zeta in E.
      destruct (colours random bs) as [cols|] eqn:Ec; [|discriminate]. cbn [bind] in E.
      destruct (title iter bs) as [t|] eqn:Et; [|discriminate]. cbn [bind] in E.
      match type of E with bind ?q _ = _ => destruct q as [xy|] eqn:Exy; [|discriminate] end. cbn [bind] in E.
      match type of E with bind ?m _ = _ => destruct m as [pre|] eqn:Ep; [|discriminate] end.
      destruct (map_res_ok _ _ _ Ep (length l) (length l)) as (d' & E' & Ei).
      { rewrite (nth_error_nth' _ 0) by now rewrite seq_length. now rewrite seq_nth. }
      cbn [user_dict] in Ei. assert (nth_error l (length l) = None) as Q by now apply nth_error_None. rewrite Q in Ei. discriminate.
  Qed.
End Set_.
Theorem C376_resolution_partial : forall iter random bs pf, exists auto, forall before g, WellFormed bs before g pf ->
    (forall ds, set_plot_dicts iter random bs before g pf false = Ok ds ->
      length ds = length bs /\ forall i d k, nth_error ds i = Some d -> ~ In k ["xlim"; "ylim"; "color_min"; "color_max"; "title"] -> Resolved auto bs before g pf i k (get d k)) /\
    (forall l, g = Many l -> length l < length bs -> forall ds, set_plot_dicts iter random bs before g pf false <> Ok ds).
Proof. exact resolution. Qed.
Print Assumptions C376_resolution_partial.
Definition histogram : plotter := {| p_type := "Histogram"; p_object := false; p_defaults := [("bins", VNum 100); ("xlabel", VNone)] |}.
Example C376_case : exists ds d0 d1,
  set_plot_dicts (fun l => l) (fun n => VNum (Z.of_nat n)) [demo "a_u" "a" "i" "m"; demo "b_g" "b" "i" "m"] [[("color", VStr "r")]; []] (Single [("bins", VNum 7)]) (Some histogram) false = Ok ds /\
  ds = [d0; d1] /\ get d0 "bins" = Some (VNum 7) /\ get d0 "color" = Some (VStr "r") /\ get d1 "color" = Some (VNum 1) /\ get d1 "label" = Some (VStr "b") /\
  WellFormed [demo "a_u" "a" "i" "m"; demo "b_g" "b" "i" "m"] [[("color", VStr "r")]; []] (Single [("bins", VNum 7)]) (Some histogram).
Proof.
  eexists; eexists; eexists. repeat (split; [vm_compute; reflexivity|]). repeat split.
  - intros b [<- | [<- | []]]; constructor.
  - intros b [<- | [<- | []]]; repeat constructor; easy.
  - repeat constructor; easy.
  - repeat constructor; cbn; intuition discriminate.
Qed.
(** A label of an axis that was set in the handler before is replaced by the one generated. *)
Theorem C376_label_refuted : forall iter random before g pf bs ds i d, WellFormed bs before g (Some pf) ->
  set_plot_dicts iter random bs before g (Some pf) false = Ok ds -> nth_error ds i = Some d ->
  (forall b, In b bs -> get (b_dict b) "xlabel" = None) -> asked g i "xlabel" = None -> set_default (Some pf) "xlabel" = None ->
  exists v, get d "xlabel" = Some v /\
    forall before' ds' d', WellFormed bs before' g (Some pf) -> set_plot_dicts iter random bs before' g (Some pf) false = Ok ds' -> nth_error ds' i = Some d' -> get d' "xlabel" = Some v.
Proof.
  intros iter random before g pf bs ds i d W E Hd B A D.
  assert (G : forall before' ds' d', WellFormed bs before' g (Some pf) -> set_plot_dicts iter random bs before' g (Some pf) false = Ok ds' -> nth_error ds' i = Some d' ->
    exists x y, xylabels iter bs (p_type pf) = Ok (x, y) /\ get d' "xlabel" = Some x).
  { intros before' ds' d' W' E' Hd'. destruct (set_resolves _ _ _ _ _ _ _ W' E') as (pre & t & _ & L & C & R).
    assert (X : exists x y, xylabels iter bs (p_type pf) = Ok (x, y)).
    { unfold set_plot_dicts in E'. destruct (colours random bs); [|discriminate]. cbn [bind] in E'. destruct (title iter bs); [|discriminate]. cbn [bind] in E'.
      destruct (xylabels iter bs (p_type pf)) as [[x y]|]; [eauto | discriminate]. }
    destruct X as (x & y & X). exists x, y. split; [exact X|].
    destruct (nth_error pre i) as [d1|] eqn:E1.
    - destruct (check_dicts_nth _ _ _ _ _ _ C E1) as (d2 & E2 & K). rewrite Hd' in E2. injection E2 as <-. rewrite K by (cbn; intuition discriminate).
      destruct (R i d1 E1 "xlabel") as (b & d0 & Eb & E0 & _ & F). assert (IL : IsLabel (Some pf) "xlabel") by (split; [discriminate | now left]). specialize (F IL).
      rewrite A, D, B in F by now apply nth_error_In in Eb. unfold autos in F. cbn [String.eqb Ascii.eqb Bool.eqb] in F. rewrite X in F.
      inversion F; subst. inversion H0; subst. inversion H1; subst. inversion H2; subst. reflexivity.
    - apply nth_error_None in E1. assert (length ds' = length pre).
      { unfold check_dicts in C. destruct (negb _); [discriminate|]. destruct (Nat.leb _ _); [|now injection C as <-].
        apply check_spec in C. destruct C as [_ ->]. rewrite reset_len. destruct (too_many _ _); [apply map_length | reflexivity]. }
      assert (nth_error ds' i <> None) by congruence. apply nth_error_Some in H0. lia. }
  destruct (G _ _ _ W E Hd) as (x & y & X & Gx). exists x. split; [exact Gx|].
  intros before' ds' d' W' E' Hd'. destruct (G _ _ _ W' E' Hd') as (x' & y' & X' & Gx'). congruence.
Qed.
Print Assumptions C376_label_refuted.
Example C376_label_case : exists ds d,
  set_plot_dicts (fun l => l) (fun n => VNum (Z.of_nat n)) [demo "a_u" "a" "i" "m"] [[("xlabel", VStr "mine")]] Nothing (Some histogram) false = Ok ds /\
  ds = [d] /\ get d "xlabel" = Some (VStr "m (mag)").
Proof. eexists; eexists. repeat split; vm_compute; reflexivity. Qed.
