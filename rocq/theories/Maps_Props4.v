(** C308: the maps that a group of bundles needs. *)
From Coq Require Import String Ascii Reals ZArith List Lra Lia Bool.
From Verif Require Import Base Depth_Model Template_Model Sky_Proofs Maps_Model Maps_Spec Maps_Proofs.
Import ListNotations.
Open Scope R_scope.

Lemma keys_eqb_true a b : keys_eqb a b = true <-> a = b.
Proof.
  revert b. induction a as [|x a IH]; intros [|y b]; simpl; try (split; [discriminate | discriminate]); [tauto|].
  rewrite andb_true_iff, String.eqb_eq, IH. split; [intros [-> ->]; reflexivity | intro H; injection H as -> ->; auto].
Qed.
Lemma nodup_snoc {A} (l : list A) x : NoDup l -> ~ In x l -> NoDup (l ++ [x]).
Proof.
  induction 1 as [|y l Ny _ IH]; intro Nx; simpl; constructor; try tauto; try constructor.
  - rewrite in_app_iff. intros [H|[H|[]]]; [tauto|]. apply Nx. now left.
  - apply IH. intro H. apply Nx. now right.
Qed.
(** the loop, from the maps [u] that are there already *)
Lemma uniq_from all : forall u, exists new,
  fold_left (fun u m => if existsb (fun x => keys_eqb (a_keys x) (a_keys m)) u then u else u ++ [m]) all u = u ++ new /\
  (forall m, In m all -> exists x, In x (u ++ new) /\ a_keys x = a_keys m) /\
  (NoDup (map a_keys u) -> NoDup (map a_keys (u ++ new))) /\
  (forall x, In x new -> ~ In (a_keys x) (map a_keys u) /\
     exists pre post, all = pre ++ x :: post /\ forall y, In y pre -> a_keys y <> a_keys x).
Proof.
  induction all as [|m all IH]; intro u; simpl.
  - exists []. rewrite app_nil_r. split; [reflexivity|]. split; [intros ? []|]. split; [auto|]. intros ? [].
  - destruct (existsb _ u) eqn:E.
    + apply existsb_exists in E. destruct E as (z & Hz & Ek). apply keys_eqb_true in Ek.
      destruct (IH u) as (new & -> & A & B & C). exists new. split; [reflexivity|]. split.
      * intros m' [<-|H]; [|now apply A]. exists z. split; [apply in_or_app; now left | exact Ek].
      * split; [exact B|]. intros x Hx. destruct (C x Hx) as (Nx & pre & post & -> & Hp). split; [exact Nx|].
        exists (m :: pre), post. split; [reflexivity|]. intros y [<-|Hy]; [|now apply Hp].
        intro Ey. apply Nx. rewrite <- Ey, <- Ek. now apply in_map.
    + assert (Nm : ~ In (a_keys m) (map a_keys u)).
      { intro H. apply in_map_iff in H. destruct H as (z & Ez & Hz).
        assert (T : existsb (fun x => keys_eqb (a_keys x) (a_keys m)) u = true) by (apply existsb_exists; exists z; split; [exact Hz | now apply keys_eqb_true]).
        congruence. }
      destruct (IH (u ++ [m])) as (new & -> & A & B & C). exists (m :: new).
      assert (X : (u ++ [m]) ++ new = u ++ m :: new) by now rewrite <- app_assoc. rewrite X in *. split; [reflexivity|]. split.
      * intros m' [<-|H]; [|now apply A]. exists m. split; [apply in_or_app; right; now left | reflexivity].
      * split.
        -- intro D. apply B. rewrite map_app. simpl. now apply nodup_snoc.
        -- intros x [<-|Hx].
           ++ split; [exact Nm|]. exists [], all. split; [reflexivity|]. intros y [].
           ++ destruct (C x Hx) as (Nx & pre & post & -> & Hp). rewrite map_app in Nx. split.
              ** intro H. apply Nx. apply in_or_app. now left.
              ** exists (m :: pre), post. split; [reflexivity|]. intros y [<-|Hy]; [|now apply Hp].
                 intro Ey. apply Nx. apply in_or_app. right. simpl. now left.
Qed.
(** the maps run: all of those asked for, no two with the same key names, and of several with the same names the first *)
Theorem C308_which all :
  (forall m, In m all -> exists x, In x (uniq_maps all) /\ a_keys x = a_keys m) /\
  NoDup (map a_keys (uniq_maps all)) /\
  (forall x, In x (uniq_maps all) -> exists pre post, all = pre ++ x :: post /\ forall y, In y pre -> a_keys y <> a_keys x).
Proof.
  unfold uniq_maps. destruct (uniq_from all []) as (new & -> & A & B & C). simpl in *. split; [exact A|].
  split; [apply B; constructor|]. intros x Hx. now apply C.
Qed.
Print Assumptions C308_which.

(** a map that adds its keys and changes nothing else *)
Definition Adds (m : amap) : Prop := forall s s', a_run m s = Ok s' ->
  sp_nside s' = sp_nside s /\ sp_sid s' = sp_sid s /\ sp_ra s' = sp_ra s /\ sp_dec s' = sp_dec s /\
  (forall k, ~ In k (a_keys m) -> dget String.eqb (sp_info s') k = dget String.eqb (sp_info s) k) /\
  (forall k, In k (a_keys m) -> dget String.eqb (sp_info s') k <> None).
(** whose values come from the positions alone *)
Definition ByPosition (m : amap) : Prop := forall s1 s2 s1', sp_nside s1 = sp_nside s2 -> sp_sid s1 = sp_sid s2 ->
  sp_ra s1 = sp_ra s2 -> sp_dec s1 = sp_dec s2 -> a_run m s1 = Ok s1' ->
  exists s2', a_run m s2 = Ok s2' /\ forall k, In k (a_keys m) -> dget String.eqb (sp_info s2') k = dget String.eqb (sp_info s1') k.
Lemma run_err maps e : fold_left (fun r m => do p <- r; a_run m p) maps (Err e) = Err e.
Proof. induction maps; simpl; auto. Qed.
Lemma run_adds maps : Forall Adds maps -> forall s s', run_maps maps s = Ok s' ->
  sp_nside s' = sp_nside s /\ sp_sid s' = sp_sid s /\ sp_ra s' = sp_ra s /\ sp_dec s' = sp_dec s /\
  (forall k, (forall m, In m maps -> ~ In k (a_keys m)) -> dget String.eqb (sp_info s') k = dget String.eqb (sp_info s) k) /\
  (forall k, dget String.eqb (sp_info s) k <> None \/ (exists m, In m maps /\ In k (a_keys m)) -> dget String.eqb (sp_info s') k <> None).
Proof.
  induction 1 as [|m maps Hm _ IH]; intros s s' H; unfold run_maps in H; simpl in H.
  - injection H as <-. repeat split; auto. intros k [H|(m & [] & _)]. exact H.
  - destruct (a_run m s) as [s1|] eqn:E1; [|rewrite run_err in H; discriminate].
    destruct (IH s1 s' H) as (A1 & A2 & A3 & A4 & A5 & A6). destruct (Hm _ _ E1) as (B1 & B2 & B3 & B4 & B5 & B6).
    repeat (split; [congruence|]). split.
    + intros k N. rewrite A5, B5; [reflexivity | apply N; now left | intros x Hx; apply N; now right].
    + intros k [G|(x & [<-|Hx] & Hk)]; apply A6.
      * left. destruct (in_dec string_dec k (a_keys m)) as [I|I]; [now apply B6 | now rewrite B5].
      * left. now apply B6.
      * right. eauto.
Qed.
(** every key that some bundle asked for is there when the metrics run, and the rest is as it was *)
Theorem C308_keys all s s' : Forall Adds all -> group_points all s = Ok s' ->
  (forall m k, In m all -> In k (a_keys m) -> dget String.eqb (sp_info s') k <> None) /\
  (forall k, (forall m, In m all -> ~ In k (a_keys m)) -> dget String.eqb (sp_info s') k = dget String.eqb (sp_info s) k) /\
  sp_sid s' = sp_sid s /\ sp_ra s' = sp_ra s /\ sp_dec s' = sp_dec s.
Proof.
  intros F H. destruct (C308_which all) as (W1 & _ & W3).
  assert (I : forall x, In x (uniq_maps all) -> In x all).
  { intros x Hx. destruct (W3 x Hx) as (pre & post & -> & _). apply in_or_app. right. now left. }
  assert (Fu : Forall Adds (uniq_maps all)) by (apply Forall_forall; intros x Hx; rewrite Forall_forall in F; auto).
  destruct (run_adds _ Fu _ _ H) as (A1 & A2 & A3 & A4 & A5 & A6). split.
  - intros m k Hm Hk. apply A6. right. destruct (W1 m Hm) as (x & Hx & Ex). exists x. split; [exact Hx | now rewrite Ex].
  - split; [|auto]. intros k N. apply A5. intros x Hx. apply N. now apply I.
Qed.
Print Assumptions C308_keys.
(** a key that only maps of the same names give has the value that the first of these maps gives by itself *)
Theorem C308_applied_partial all s s' m k : Forall Adds all -> Forall ByPosition all -> group_points all s = Ok s' ->
  (exists pre post, all = pre ++ m :: post /\ forall y, In y pre -> a_keys y <> a_keys m) ->
  In k (a_keys m) -> (forall x, In x all -> a_keys x <> a_keys m -> ~ In k (a_keys x)) ->
  exists s1, a_run m s = Ok s1 /\ dget String.eqb (sp_info s') k = dget String.eqb (sp_info s1) k.
Proof.
  intros F P H (pre & post & Eall & Hp) Hk Only. destruct (C308_which all) as (W1 & W2 & W3).
  assert (I : forall x, In x (uniq_maps all) -> In x all).
  { intros x Hx. destruct (W3 x Hx) as (p & q & -> & _). apply in_or_app. right. now left. }
  assert (Hm : In m (uniq_maps all)).
  { destruct (W1 m) as (x & Hx & Ex); [rewrite Eall; apply in_or_app; right; now left|].
    destruct (W3 x Hx) as (p & q & E2 & Hq). enough (x = m) by now subst.
    assert (G : forall (l1 l2 : list amap) a b p1 p2, l1 ++ a :: p1 = l2 ++ b :: p2 -> a_keys a = a_keys b ->
              (forall y, In y l1 -> a_keys y <> a_keys a) -> (forall y, In y l2 -> a_keys y <> a_keys b) -> a = b).
    { clear. induction l1 as [|z l1 IH]; intros [|w l2] a b p1 p2 E Ek N1 N2; simpl in E; injection E as E1 E2; subst.
      - reflexivity.
      - exfalso. apply (N2 w); [now left | exact Ek].
      - exfalso. apply (N1 b); [now left | now symmetry].
      - apply (IH l2 a b p1 p2); auto; intros y Hy; [apply N1 | apply N2]; now right. }
    rewrite E2 in Eall. exact (G _ _ _ _ _ _ Eall Ex Hq Hp). }
  destruct (in_split _ _ Hm) as (u1 & u2 & Eu). unfold group_points in H. rewrite Eu in H, W2.
  assert (Fu : Forall Adds (u1 ++ m :: u2)).
  { rewrite <- Eu. apply Forall_forall; intros x Hx; rewrite Forall_forall in F; auto. }
  apply Forall_app in Fu. destruct Fu as [F1 F2]. inversion F2 as [|? ? Fm F3]; subst.
  unfold run_maps in H. rewrite fold_left_app in H. fold (run_maps u1 s) in H.
  destruct (run_maps u1 s) as [sa|] eqn:Ea; [|rewrite run_err in H; discriminate]. simpl in H.
  destruct (a_run m sa) as [sb|] eqn:Eb; [|rewrite run_err in H; discriminate]. change (run_maps u2 sb = Ok s') in H.
  destruct (run_adds _ F1 _ _ Ea) as (A1 & A2 & A3 & A4 & _). destruct (run_adds _ F3 _ _ H) as (_ & _ & _ & _ & B5 & _).
  rewrite Forall_forall in P. destruct (P m (I _ Hm) sa s sb A1 A2 A3 A4 Eb) as (s1 & E1 & V). exists s1. split; [exact E1|].
  rewrite (V k Hk). apply B5. intros x Hx. apply Only; [apply I; rewrite Eu; apply in_or_app; right; now right|].
  intro Ek. rewrite map_app in W2. simpl in W2. apply NoDup_remove_2 in W2. apply W2. rewrite <- Ek. apply in_or_app. right. now apply in_map.
Qed.
Print Assumptions C308_applied_partial.

(** a map that a bundle asked for is applied, refuted: StellarDensityMap and TrilegalDensityMap of one filter have the same key
    names, so a group with both only runs the first *)
Definition stellar (filt : string) : amap :=
  {| a_keys := ["starLumFunc_" ++ filt; "starMapBins_" ++ filt]%string;
     a_run := star_run (fun _ _ _ => O) (fun _ => Ok ([[1; 2]], [20; 21])) (fun _ => Ok 64%Z) "allstars" filt |}.
Definition trilegal (filt : string) : amap :=
  {| a_keys := ["starLumFunc_" ++ filt; "starMapBins_" ++ filt]%string;
     a_run := tri_run (fun _ => Ok ([[5; 7]], [20; 21])) (fun _ => Ok 64%Z) (fun _ => "64"%string) (fun _ => [(0, 0)]) (fun _ _ => 0) filt 64 true |}.
Theorem C308_applied_refuted :
  let s := {| sp_nside := None; sp_sid := [0%nat]; sp_ra := [0]; sp_dec := [0]; sp_info := [] |} in
  exists s' s1, group_points [stellar "r"; trilegal "r"] s = Ok s' /\ a_run (trilegal "r") s = Ok s1 /\
    dget String.eqb (sp_info s') "starLumFunc_r"%string = Some (Rows [[1; 2]]) /\
    dget String.eqb (sp_info s1) "starLumFunc_r"%string = Some (Rows [[5; 7]]).
Proof. do 2 eexists. repeat split; reflexivity. Qed.
Print Assumptions C308_applied_refuted.
(** the maps of the other files add their keys and depend on positions only *)
Theorem C308_stellar_map ang2pix load npix2nside startype filt :
  let m := {| a_keys := ["starLumFunc_" ++ filt; "starMapBins_" ++ filt]%string; a_run := star_run ang2pix load npix2nside startype filt |} in
  Adds m /\ ByPosition m.
Proof.
  assert (Kd : ("starMapBins_" ++ filt)%string <> ("starLumFunc_" ++ filt)%string) by discriminate.
  assert (E : forall s s', star_run ang2pix load npix2nside startype filt s = Ok s' -> exists rows bins,
    s' = put (put s ("starLumFunc_" ++ filt)%string (Rows rows)) ("starMapBins_" ++ filt)%string (Num bins) /\
    forall s2, sp_nside s = sp_nside s2 -> sp_ra s = sp_ra s2 -> sp_dec s = sp_dec s2 ->
      star_run ang2pix load npix2nside startype filt s2 = Ok (put (put s2 ("starLumFunc_" ++ filt)%string (Rows rows)) ("starMapBins_" ++ filt)%string (Num bins))).
  { intros s s'. unfold star_run. destruct (load _) as [[table bins]|]; [|discriminate]. cbn [bind fst snd].
    destruct (npix2nside (length table)) as [nside|]; [|discriminate]. cbn [bind].
    match goal with |- bind ?r _ = _ -> _ => destruct r as [rows|] eqn:Er end; [|discriminate]. cbn [bind]. intro H. injection H as <-.
    exists rows, bins. split; [reflexivity|]. intros s2 E1 E2 E3. rewrite <- E1, <- E2, <- E3, Er. reflexivity. }
  split.
  - intros s s' H. destruct (E s s' H) as (rows & bins & -> & _). repeat (split; [reflexivity|]). unfold put; simpl. split.
    + intros k N. rewrite !dget_dset_other; [reflexivity | |]; intros ->; apply N; [now left | right; now left].
    + intros k [<-|[<-|[]]].
      * rewrite dget_dset_other by (intro X; now apply Kd). rewrite dget_dset_same. discriminate.
      * rewrite dget_dset_same. discriminate.
  - intros s1 s2 s1' E1 E2 E3 E4 H. destruct (E s1 s1' H) as (rows & bins & -> & G). eexists. split; [apply G; assumption|].
    intros k [<-|[<-|[]]]; unfold put; simpl.
    + rewrite !(dget_dset_other _ _ _ _ (fun X => Kd (eq_sym X))), !dget_dset_same. reflexivity.
    + now rewrite !dget_dset_same.
Qed.
Print Assumptions C308_stellar_map.
Example C308_case : map a_keys (uniq_maps [stellar "r"; trilegal "g"; stellar "g"; trilegal "r"]) =
  [["starLumFunc_r"; "starMapBins_r"]; ["starLumFunc_g"; "starMapBins_g"]]%string.
Proof. reflexivity. Qed.
