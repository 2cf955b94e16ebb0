(** C306: stellar density maps.  C307: galactic plane priority maps. *)
From Coq Require Import String Ascii Reals ZArith List Lra Lia Bool.
From Verif Require Import Base Depth_Model Template_Model Sky_Proofs Maps_Model Maps_Spec Maps_Proofs.
Import ListNotations.
Open Scope R_scope.

(** * C306 *)
Section Stars.
Context (ang2pix : Z -> R -> R -> nat) (load : string -> result (list (list R) * list R)) (npix2nside : nat -> result Z).
Notation run := (star_run ang2pix load npix2nside).
Lemma put2_keys s k1 v1 k2 v2 : k1 <> k2 ->
  dget String.eqb (sp_info (put (put s k1 v1) k2 v2)) k1 = Some v1 /\ dget String.eqb (sp_info (put (put s k1 v1) k2 v2)) k2 = Some v2 /\
  (forall k, k <> k1 -> k <> k2 -> dget String.eqb (sp_info (put (put s k1 v1) k2 v2)) k = dget String.eqb (sp_info s) k).
Proof.
  intro N. unfold put; simpl. split; [rewrite dget_dset_other by exact N; apply dget_dset_same|].
  split; [apply dget_dset_same|]. intros k N1 N2. now rewrite !dget_dset_other by assumption.
Qed.
(** each slice point gets the luminosity function of the pixel it is in, for a slicer of the map's own resolution the whole map,
    and the bins of the map; nothing else changes *)
Theorem C306_stars startype filt s s' : run startype filt s = Ok s' ->
  exists rows bins table nside,
    load (star_file startype filt) = Ok (table, bins) /\ npix2nside (length table) = Ok nside /\
    dget String.eqb (sp_info s') ("starLumFunc_" ++ filt)%string = Some (Rows rows) /\
    dget String.eqb (sp_info s') ("starMapBins_" ++ filt)%string = Some (Num bins) /\
    (forall k, k <> ("starLumFunc_" ++ filt)%string -> k <> ("starMapBins_" ++ filt)%string ->
       dget String.eqb (sp_info s') k = dget String.eqb (sp_info s) k) /\
    sp_nside s' = sp_nside s /\ sp_sid s' = sp_sid s /\ sp_ra s' = sp_ra s /\ sp_dec s' = sp_dec s /\
    (sp_nside s = Some nside -> rows = table) /\
    (sp_nside s <> Some nside -> length (sp_ra s) = length (sp_dec s) -> length rows = length (sp_ra s) /\
       forall k r d, nth_error (sp_ra s) k = Some r -> nth_error (sp_dec s) k = Some d ->
         nth_error rows k = nth_error table (ang2pix nside (PI / 2 - d) r)).
Proof.
  unfold star_run. destruct (load _) as [[table bins]|] eqn:El; [|discriminate]. cbn [bind fst snd].
  destruct (npix2nside (length table)) as [nside|] eqn:En; [|discriminate]. cbn [bind].
  match goal with |- bind ?r _ = _ -> _ => destruct r as [rows|] eqn:Er end; [|discriminate]. cbn [bind].
  intro H. injection H as <-. exists rows, bins, table, nside.
  destruct (put2_keys s ("starLumFunc_" ++ filt)%string (Rows rows) ("starMapBins_" ++ filt)%string (Num bins)) as (P1 & P2 & P3); [discriminate|].
  repeat (split; [assumption || reflexivity|]). split.
  - intro Es. rewrite Es, Z.eqb_refl in Er. now injection Er as ->.
  - intros Ns Len. assert (Et : take table (radec2pix ang2pix nside (sp_ra s) (sp_dec s)) = Ok rows).
    { destruct (sp_nside s) as [n|]; [|exact Er]. destruct (n =? nside)%Z eqn:E; [apply Z.eqb_eq in E; congruence | exact Er]. }
    apply take_spec in Et. unfold radec2pix in Et. split.
    + rewrite (values_length _ _ _ Et), map_length, combine_length. lia.
    + intros k r d Hr Hd. rewrite (values_nth _ _ _ k Et), nth_error_map.
      replace (nth_error (combine (sp_ra s) (sp_dec s)) k) with (Some (r, d)); [reflexivity|]. symmetry.
      clear -Hr Hd. revert k Hr Hd. generalize (sp_dec s). induction (sp_ra s) as [|a l IH]; intros [|b m] [|k] Hr Hd; try discriminate; simpl in *.
      * now injection Hr as ->; injection Hd as ->.
      * now apply IH.
Qed.
(** a slicer of the map's resolution gets what the positions of its pixels would give *)
Theorem C306_same_resolution startype filt s s' s'' nside table bins :
  load (star_file startype filt) = Ok (table, bins) -> npix2nside (length table) = Ok nside -> sp_nside s = Some nside ->
  length (sp_ra s) = length table -> length (sp_dec s) = length table ->
  (forall k r d, nth_error (sp_ra s) k = Some r -> nth_error (sp_dec s) k = Some d -> ang2pix nside (PI / 2 - d) r = k) ->
  run startype filt s = Ok s' ->
  run startype filt {| sp_nside := None; sp_sid := sp_sid s; sp_ra := sp_ra s; sp_dec := sp_dec s; sp_info := sp_info s |} = Ok s'' ->
  sp_info s' = sp_info s''.
Proof.
  intros L N Es La Ld C. unfold star_run. rewrite L. cbn [bind fst snd]. rewrite N. cbn [bind sp_nside sp_ra sp_dec]. rewrite Es, Z.eqb_refl.
  assert (E : radec2pix ang2pix nside (sp_ra s) (sp_dec s) = seq 0 (length table)).
  { unfold radec2pix. apply nth_ext with (d := O) (d' := O); [rewrite map_length, combine_length, seq_length; lia|].
    rewrite map_length, combine_length. intros k Lk. rewrite seq_nth by lia. simpl.
    rewrite (nth_map_at _ _ (0, 0)) by (rewrite combine_length; lia). rewrite combine_nth by lia. simpl.
    apply C; apply nth_error_nth'; lia. }
  rewrite E. replace (take table (seq 0 (length table))) with (Ok table) by (symmetry; apply take_spec, values_all).
  cbn [bind]. intros H1 H2. injection H1 as <-. injection H2 as <-. reflexivity.
Qed.
(** the TRILEGAL map: the row of the centre nearest to the slice point *)
Theorem C306_trilegal showz centres dist filt nside ext s s' : length (sp_ra s) = length (sp_dec s) ->
  tri_run load npix2nside showz centres dist filt nside ext s = Ok s' ->
  exists rows bins table, load (tri_file filt (showz nside) ext) = Ok (table, bins) /\
    dget String.eqb (sp_info s') ("starLumFunc_" ++ filt)%string = Some (Rows rows) /\
    dget String.eqb (sp_info s') ("starMapBins_" ++ filt)%string = Some (Num bins) /\
    (forall k, k <> ("starLumFunc_" ++ filt)%string -> k <> ("starMapBins_" ++ filt)%string ->
       dget String.eqb (sp_info s') k = dget String.eqb (sp_info s) k) /\
    length rows = length (sp_ra s) /\
    forall k r d, nth_error (sp_ra s) k = Some r -> nth_error (sp_dec s) k = Some d ->
      exists i c row, nth_error (centres nside) i = Some c /\ nth_error table i = Some row /\ nth_error rows k = Some row /\
        forall c', In c' (centres nside) -> dist (r, d) c <= dist (r, d) c'.
Proof.
  intro Len. unfold tri_run. destruct (load _) as [[table bins]|] eqn:El; [|discriminate]. cbn [bind fst snd].
  destruct (npix2nside (length table)) as [nn|] eqn:En; [|discriminate]. cbn [bind].
  destruct (query dist (centres nside) (combine (sp_ra s) (sp_dec s))) as [ix|] eqn:Eq; [|discriminate]. cbn [bind].
  destruct (take table ix) as [rows|] eqn:Er; [|discriminate]. cbn [bind]. intro H. injection H as <-.
  destruct (put2_keys s ("starLumFunc_" ++ filt)%string (Rows rows) ("starMapBins_" ++ filt)%string (Num bins)) as (P1 & P2 & P3); [discriminate|].
  exists rows, bins, table. repeat (split; [assumption || reflexivity|]). apply take_spec in Er. clear P1 P2 P3 El En.
  revert Len ix rows Eq Er. generalize (sp_dec s). induction (sp_ra s) as [|r0 l IH]; intros [|d0 m] Len ix rows Eq Er; try discriminate.
  - simpl in Eq. injection Eq as <-. inversion Er; subst. split; [reflexivity|]. intros [|k]; discriminate.
  - injection Len as Len. simpl in Eq. destruct (argmin _) as [i|] eqn:Ei; [|discriminate]. cbn [bind] in Eq.
    destruct (query dist (centres nside) (combine l m)) as [r|] eqn:Eq'; [|discriminate]. cbn [bind] in Eq. injection Eq as <-.
    inversion Er as [|? row ? rows' Hrow Hrest]; subst. destruct (IH m Len r rows' Eq' Hrest) as [Hl Hk].
    split; [simpl; congruence|]. intros [|k] rr dd Hr Hd; simpl in *; [|eauto].
    injection Hr as ->. injection Hd as ->. apply argmin_spec in Ei. destruct Ei as (a & Ea & M & _).
    rewrite nth_error_map in Ea. destruct (nth_error (centres nside) i) as [c|] eqn:Ec; [|discriminate]. simpl in Ea. injection Ea as <-.
    exists i, c, row. repeat (split; [assumption || reflexivity|]). intros c' Hc. apply In_nth_error in Hc. destruct Hc as [j Hj].
    apply (M j). now rewrite nth_error_map, Hj.
Qed.
End Stars.
Print Assumptions C306_stars.
Print Assumptions C306_same_resolution.
Print Assumptions C306_trilegal.
Example C306_case :
  let s := {| sp_nside := None; sp_sid := [0%nat; 1%nat]; sp_ra := [0; 1]; sp_dec := [0; 0]; sp_info := [] |} in
  exists s', star_run (fun _ _ _ => 1%nat) (fun _ => Ok ([[1]; [2; 3]], [20; 21])) (fun _ => Ok 64%Z) "allstars" "r" s = Ok s' /\
    dget String.eqb (sp_info s') "starLumFunc_r"%string = Some (Rows [[2; 3]; [2; 3]]).
Proof. eexists. split; reflexivity. Qed.

(** * C307 *)
(** ** Names *)
Lemma prefix_app a b : String.prefix a (a ++ b)%string = true.
Proof. induction a as [|c a IH]; simpl; [destruct b; reflexivity|]. destruct (ascii_dec c c); [exact IH | congruence]. Qed.
Lemma prefix_true a s : String.prefix a s = true -> exists b, s = (a ++ b)%string.
Proof.
  revert s. induction a as [|c a IH]; intros s; simpl; [exists s; reflexivity|].
  destruct s as [|c' s]; simpl; [discriminate|]. destruct (ascii_dec c c') as [<-|]; intro H; [|discriminate].
  destruct (IH _ H) as [b ->]. now exists b.
Qed.
Lemma replace_cons pre c t : replace_from pre O (String c t) =
  if String.prefix pre (String c t) then replace_from pre (String.length pre - 1) t else String c (replace_from pre O t).
Proof. reflexivity. Qed.
Lemma replace_without pre s : Without pre s -> replace_from pre O s = s.
Proof.
  induction s as [|c t IH]; intro W; [reflexivity|]. rewrite replace_cons.
  destruct (String.prefix pre (String c t)) eqn:E.
  - apply prefix_true in E. destruct E as [b E]. exfalso. exact (W EmptyString b E).
  - f_equal. apply IH. intros a b E'. apply (W (String c a) b). simpl. now f_equal.
Qed.
Lemma replace_skip pre a s : replace_from pre (String.length a) (a ++ s)%string = replace_from pre O s.
Proof. induction a as [|c a IH]; [reflexivity|]. simpl. exact IH. Qed.
Lemma replace_prefix pre s : pre <> EmptyString -> Without pre s -> replace_from pre O (pre ++ s)%string = s.
Proof.
  intros N W. destruct pre as [|c p]; [congruence|].
  assert (E : replace_from (String c p) O (String c p ++ s)%string = replace_from (String c p) (String.length p) (p ++ s)%string).
  { change (String c p ++ s)%string with (String c (p ++ s)%string).
    assert (P : String.prefix (String c p) (String c (p ++ s)%string) = true) by exact (prefix_app (String c p) s).
    rewrite replace_cons, P. simpl String.length. now rewrite Nat.sub_succ, Nat.sub_0_r. }
  rewrite E, replace_skip. now apply replace_without.
Qed.
Lemma split_none sep s : Without (String sep EmptyString) s -> split sep s = [s].
Proof.
  induction s as [|c t IH]; intro W; [reflexivity|]. simpl. destruct (Ascii.eqb c sep) eqn:E.
  - apply Ascii.eqb_eq in E. subst. exfalso. exact (W EmptyString t eq_refl).
  - rewrite IH; [reflexivity|]. intros a b E'. apply (W (String c a) b). simpl. now f_equal.
Qed.
Lemma split_two sep a b : Without (String sep EmptyString) a -> Without (String sep EmptyString) b ->
  split sep (a ++ String sep b)%string = [a; b].
Proof.
  intros Wa Wb. induction a as [|c t IH]; simpl.
  - rewrite Ascii.eqb_refl. now rewrite split_none.
  - destruct (Ascii.eqb c sep) eqn:E.
    + apply Ascii.eqb_eq in E. subst. exfalso. exact (Wa EmptyString t eq_refl).
    + rewrite IH; [reflexivity|]. intros x y E'. apply (Wa (String c x) y). simpl. now f_equal.
Qed.
(** the name of a map gives back its filter and its science map, if these do not contain the separators *)
Theorem C307_names filt science : Without ":" filt -> Without ":" science -> Without gp_prefix (science ++ ":" ++ filt)%string ->
  gp_components (gp_key filt science) = Ok (filt, science).
Proof.
  intros Wf Ws Wp. unfold gp_components, gp_key. rewrite replace_prefix; [|discriminate | exact Wp].
  change (":" ++ filt)%string with (String ":" filt). now rewrite split_two.
Qed.
Print Assumptions C307_names.
(** different maps have different names *)
Theorem C307_names_differ filt science filt' science' :
  Without ":" filt -> Without ":" science -> Without gp_prefix (science ++ ":" ++ filt)%string ->
  Without ":" filt' -> Without ":" science' -> Without gp_prefix (science' ++ ":" ++ filt')%string ->
  gp_key filt science = gp_key filt' science' -> filt = filt' /\ science = science'.
Proof.
  intros A B C A' B' C' E. pose proof (C307_names _ _ A B C) as H. rewrite E, C307_names in H by assumption. now injection H as <- <-.
Qed.
Print Assumptions C307_names_differ.

(** ** Reading *)
Section Plane.
Context (ang2pix : Z -> R -> R -> nat) (neighbours : nat -> R -> R -> list (nat * R)).
Context (open : string -> bool -> string -> result table) (default_dir : string) (set : list string -> list string).
Definition KeepsElements : Prop := forall l x, In x (set l) <-> In x l.
Notation call := (galplane ang2pix neighbours open default_dir set).
Definition dir (path : option string) : string := match path with Some p => p | None => default_dir end.

Lemma read_ok op fs : KeepsElements -> forall tab maps sc, (forall f, In f fs -> op f = Ok (tab f)) ->
  (forall f t, dget String.eqb maps f = Some t -> t = tab f) ->
  exists maps' sc', gp_read op set fs maps sc = ({| gp_maps := Some maps'; gp_science := sc' |}, Ok tt) /\
    (forall f, In f fs -> dget String.eqb maps' f = Some (tab f)) /\
    (forall f t, dget String.eqb maps f = Some t -> dget String.eqb maps' f = Some t) /\
    (forall f t, dget String.eqb maps' f = Some t -> t = tab f) /\
    (fs <> [] \/ sc <> None -> exists l, sc' = Some l /\
       forall x, In x l <-> In x (match sc with Some l0 => l0 | None => [] end) \/ exists f, In f fs /\ In x (map fst (tab f))).
Proof.
  intro KE. unfold KeepsElements in KE. induction fs as [|f fs IH]; intros tab maps sc O M.
  - exists maps, sc. split; [reflexivity|]. split; [intros f []|]. split; [auto|]. split; [exact M|].
    intros [H|H]; [congruence|]. destruct sc as [l|]; [|congruence]. exists l. split; [reflexivity|].
    intro x. split; [auto|]. intros [H'|(f & [] & _)]. exact H'.
  - simpl. rewrite (O f (or_introl eq_refl)).
    assert (M1 : forall g t, dget String.eqb (dset String.eqb maps f (tab f)) g = Some t -> t = tab g).
    { intros g t. destruct (string_dec g f) as [->|Ng]; [rewrite dget_dset_same; congruence | rewrite dget_dset_other by exact Ng; apply M]. }
    destruct (IH tab (dset String.eqb maps f (tab f)) (Some (set (match sc with Some l => l | None => [] end ++ map fst (tab f))))) as (m' & s' & E & A & B & C & D);
      [intros g Hg; apply O; now right | exact M1 |].
    exists m', s'. split; [exact E|]. split.
    { intros g [<-|Hg]; [apply B, dget_dset_same | now apply A]. }
    split.
    { intros g t Hg. apply B. destruct (string_dec g f) as [->|Ng]; [rewrite dget_dset_same; now rewrite (M _ _ Hg) | now rewrite dget_dset_other]. }
    split; [exact C|]. intros _. destruct D as (l & -> & Dl); [right; discriminate|]. exists l. split; [reflexivity|].
    intro x. rewrite Dl, KE, in_app_iff. split.
    + intros [[H|H]|(g & Hg & H)]; [now left | right; exists f; split; [now left | exact H] | right; exists g; split; [now right | exact H]].
    + intros [H|(g & [<-|Hg] & H)]; [left; now left | left; now right | right; eauto].
Qed.
Lemma read_maps op fs maps sc : has (gp_maps (fst (gp_read op set fs maps sc))) = true.
Proof. revert maps sc. induction fs as [|f fs IH]; intros maps sc; simpl; [reflexivity|]. destruct (op f); [apply IH | reflexivity]. Qed.
Lemma collect_ok maps F keys : forall acc t, gp_collect maps F keys acc = Ok t ->
  (forall k, In k keys -> exists col v, gp_column maps k = Ok col /\ F col = Ok v /\ dget String.eqb t k = Some v) /\
  (forall k, ~ In k keys -> dget String.eqb t k = dget String.eqb acc k).
Proof.
  induction keys as [|k keys IH]; intros acc t; simpl.
  - intro H. injection H as <-. split; [intros k [] | auto].
  - destruct (gp_column maps k) as [col|] eqn:Ec; [|discriminate]. cbn [bind].
    destruct (F col) as [v|] eqn:Ef; [|discriminate]. cbn [bind]. intro H. destruct (IH _ _ H) as [A B]. split.
    + intros k' [<-|Hk]; [|now apply A].
      destruct (in_dec string_dec k keys) as [I|I]; [now apply A|]. exists col, v. split; [exact Ec|]. split; [exact Ef|]. rewrite (B k I). apply dget_dset_same.
    + intros k' N. simpl in N. rewrite (B k') by tauto. apply dget_dset_other. intros ->. apply N. now left.
Qed.
Lemma collect_exists maps F keys : (forall k, In k keys -> exists col v, gp_column maps k = Ok col /\ F col = Ok v) ->
  forall acc, exists t, gp_collect maps F keys acc = Ok t.
Proof.
  induction keys as [|k keys IH]; intros H acc; simpl; [eauto|].
  destruct (H k (or_introl eq_refl)) as (col & v & -> & Ev). cbn [bind]. rewrite Ev. cbn [bind]. apply IH. intros k' Hk. apply H. now right.
Qed.

Record gp_args := { v_nside : Z; v_keys : bool; v_ra : option (list R); v_dec : option (list R); v_pixels : option (list nat); v_interp : bool }.
Definition gp_step path alt (st : gp_state) (a : gp_args) : gp_state :=
  fst (call st (v_nside a) (v_keys a) (v_ra a) (v_dec a) (v_pixels a) (v_interp a) path alt).
(** all files of a directory can be read and have the same science maps, with names as in [C307_names] *)
Definition Readable (path : option string) (alt : bool) (tab : string -> table) (science : list string) : Prop :=
  (forall f, In f gp_filters -> open (dir path) alt f = Ok (tab f)) /\
  (forall f x, In f gp_filters -> (In x (map fst (tab f)) <-> In x science)) /\
  (forall f x, In f gp_filters -> In x science -> Without ":" x /\ Without gp_prefix (x ++ ":" ++ f)%string).
Lemma filters_plain f : In f gp_filters -> Without ":" f.
Proof.
  simpl. intros H a b E.
  repeat (destruct H as [<-|H]; [repeat (destruct a as [|? a]; simpl in E; try discriminate; try (injection E as ? E; try discriminate))|]); exact H || idtac.
Qed.
Definition full_state (tab : string -> table) (science : list string) (st : gp_state) : Prop :=
  exists maps l, st = {| gp_maps := Some maps; gp_science := Some l |} /\
    (forall f, In f gp_filters -> dget String.eqb maps f = Some (tab f)) /\ (forall x, In x l <-> In x science).
Lemma state_after path alt tab science st : KeepsElements -> Readable path alt tab science ->
  Reached (gp_step path alt) gp_fresh st -> st = gp_fresh \/ full_state tab science st.
Proof.
  intros KE (O & S & _) Rs. induction Rs as [|s a _ IH]; [now left|]. unfold gp_step, galplane.
  destruct (negb (v_keys a) && _); [exact IH|]. destruct (negb (v_nside a =? 64)%Z); [exact IH|]. cbv zeta.
  destruct IH as [->|IH].
  - right. unfold gp_fresh. cbn [has gp_maps].
    destruct (read_ok (open (dir path) alt) gp_filters KE tab [] None O) as (m & sc & E & A & _ & _ & D); [discriminate|].
    fold (dir path). rewrite E. simpl. destruct D as (l & -> & Dl); [left; discriminate|]. exists m, l. split; [reflexivity|].
    split; [exact A|]. intro x. rewrite Dl. split.
    + intros [[]|(f & Hf & H)]. now apply (S f).
    + intro H. right. exists "u"%string. split; [now left|]. apply (S "u"%string); [now left | exact H].
  - right. destruct IH as (m & l & -> & A & B). simpl. exists m, l. auto.
Qed.
Lemma call_full path alt tab science st nside : KeepsElements -> Readable path alt tab science ->
  st = gp_fresh \/ full_state tab science st -> nside = 64%Z -> forall keys ra dec px interp, (keys || has ra || has dec || has px = true) ->
  exists maps l, (forall f, In f gp_filters -> dget String.eqb maps f = Some (tab f)) /\ (forall x, In x l <-> In x science) /\
    snd (call st nside keys ra dec px interp path alt) =
    (let ks := flat_map (fun f => map (gp_key f) l) gp_filters in
     if keys then Ok (Keys ks)
     else do t <- gp_collect maps (fun col =>
             match px with
             | Some ix => take col ix
             | None => if interp then do d <- given dec; do r <- given ra; Ok (interp_val neighbours col r d)
                       else do d <- given dec; do r <- given ra; take col (radec2pix ang2pix nside r d)
             end) ks []; Ok (Maps t)).
Proof.
  intros KE Rd St -> keys ra dec px interp G. pose proof Rd as (O & S & _). unfold galplane.
  replace (negb keys && (negb (has ra) && negb (has dec) && negb (has px))) with false
    by (destruct keys, (has ra), (has dec), (has px); simpl in *; congruence).
  change (negb (64 =? 64)%Z) with false. cbv iota.
  destruct St as [->|(m & l & -> & A & B)].
  - unfold gp_fresh. cbn [has gp_maps].
    destruct (read_ok (open (dir path) alt) gp_filters KE tab [] None O) as (m & sc & E & A & _ & _ & D); [discriminate|].
    fold (dir path). rewrite E. destruct D as (l & -> & Dl); [left; discriminate|]. exists m, l. split; [exact A|]. split; [|reflexivity].
    intro x. rewrite Dl. split.
    + intros [[]|(f & Hf & H)]. now apply (S f).
    + intro H. right. exists "u"%string. split; [now left|]. apply (S "u"%string); [now left | exact H].
  - exists m, l. split; [exact A|]. split; [exact B|]. reflexivity.
Qed.

(** the keys are one for each filter and science map *)
Theorem C307_keys path alt tab science st : KeepsElements -> Readable path alt tab science ->
  Reached (gp_step path alt) gp_fresh st ->
  exists ks, snd (call st 64%Z true None None None false path alt) = Ok (Keys ks) /\
    forall k, In k ks <-> exists f x, In f gp_filters /\ In x science /\ k = (gp_prefix ++ x ++ ":" ++ f)%string.
Proof.
  intros KE Rd Rs. destruct (call_full path alt tab science st 64%Z KE Rd (state_after _ _ _ _ _ KE Rd Rs) eq_refl true None None None false eq_refl)
    as (m & l & A & B & E). rewrite E. cbv zeta iota. eexists. split; [reflexivity|]. intro k. rewrite in_flat_map. split.
  - intros (f & Hf & H). apply in_map_iff in H. destruct H as (x & <- & Hx). exists f, x. split; [exact Hf|]. split; [now apply B | reflexivity].
  - intros (f & x & Hf & Hx & ->). exists f. split; [exact Hf|]. apply in_map_iff. exists x. split; [reflexivity | now apply B].
Qed.
(** as long as one directory is used, each key has the values of its science map in the file of its filter, at the pixels *)
Theorem C307_values_partial path alt tab science st ix : KeepsElements -> Readable path alt tab science ->
  Reached (gp_step path alt) gp_fresh st ->
  (forall f x col, In f gp_filters -> dget String.eqb (tab f) x = Some col -> Forall (fun i => (i < length col)%nat) ix) ->
  exists t, snd (call st 64%Z false None None (Some ix) false path alt) = Ok (Maps t) /\
    forall f x, In f gp_filters -> In x science ->
      exists col v, dget String.eqb (tab f) x = Some col /\ ValuesAt col ix v /\
        dget String.eqb t (gp_prefix ++ x ++ ":" ++ f)%string = Some v.
Proof.
  intros KE Rd Rs Fx. destruct (call_full path alt tab science st 64%Z KE Rd (state_after _ _ _ _ _ KE Rd Rs) eq_refl false None None (Some ix) false eq_refl)
    as (m & l & A & B & E). rewrite E. cbv zeta iota. pose proof Rd as (O & S & W). clear E.
  assert (Col : forall f x, In f gp_filters -> In x science -> exists col, dget String.eqb (tab f) x = Some col /\ gp_column m (gp_key f x) = Ok col).
  { intros f x Hf Hx. destruct (W f x Hf Hx) as [W1 W2].
    assert (D : exists col, dget String.eqb (tab f) x = Some col).
    { apply (S f x Hf) in Hx. clear -Hx. induction (tab f) as [|[k v] t IH]; [destruct Hx|]. simpl.
      destruct (String.eqb x k) eqn:E; [eauto|]. apply IH. destruct Hx as [<-|H]; [simpl in E; rewrite String.eqb_refl in E; discriminate | exact H]. }
    destruct D as [col D]. exists col. split; [exact D|]. unfold gp_column.
    rewrite C307_names by (assumption || (apply filters_plain; assumption)). cbn [bind fst snd]. now rewrite (A f Hf), D. }
  destruct (collect_exists m (fun col => take col ix) (flat_map (fun f => map (gp_key f) l) gp_filters)) with (acc := @nil (string * list R)) as [t Et].
  { intros k Hk. apply in_flat_map in Hk. destruct Hk as (f & Hf & H). apply in_map_iff in H. destruct H as (x & <- & Hx).
    apply B in Hx. destruct (Col f x Hf Hx) as (col & D & C). exists col. specialize (Fx f x col Hf D).
    assert (T : exists v, take col ix = Ok v).
    { clear -Fx. induction Fx as [|i q H _ [v IH]]; [exists []; reflexivity|]. simpl. unfold arr_get.
      destruct (nth_error col i) eqn:Ei; [|apply nth_error_None in Ei; lia]. simpl. rewrite IH. simpl. eauto. }
    destruct T as [v T]. eauto. }
  exists t. rewrite Et. cbn [bind]. split; [reflexivity|]. destruct (collect_ok _ _ _ _ _ Et) as [P _].
  intros f x Hf Hx. destruct (Col f x Hf Hx) as (col & D & C).
  destruct (P (gp_key f x)) as (col' & v & C' & T & G).
  { apply in_flat_map. exists f. split; [exact Hf|]. apply in_map_iff. exists x. split; [reflexivity | now apply B]. }
  assert (col' = col) by congruence. subst col'. exists col, v. split; [exact D|]. split; [now apply take_spec | exact G].
Qed.
(** other resolutions are refused *)
Theorem C307_resolution st nside keys ra dec px interp path alt : nside <> 64%Z ->
  snd (call st nside keys ra dec px interp path alt) = Err RuntimeError.
Proof. intro N. apply Z.eqb_neq in N. unfold galplane. rewrite N. destruct (_ && _); reflexivity. Qed.

(** the directory given to GalacticPlanePriorityMap has no effect: once an object is made all results are those of the default *)
Theorem C307_directory_ignored st st' interp nside path m : gp_new ang2pix neighbours open default_dir set st interp nside path = (st', Ok m) ->
  forall path2 s, gp_run ang2pix neighbours open default_dir set m st' s =
    gp_run ang2pix neighbours open default_dir set {| p_keys := p_keys m; p_interp := p_interp m; p_nside := p_nside m; p_path := path2 |} st' s.
Proof.
  intros H path2 s.
  assert (X : has (gp_maps st') = true).
  { revert H. unfold gp_new, galplane. cbn [negb has andb]. change (negb (64 =? 64)%Z) with false. cbv beta iota zeta.
    destruct (has (gp_maps st)) eqn:E; cbv beta iota zeta; [intro H; injection H as <- _; exact E|].
    pose proof (read_maps (open default_dir false) gp_filters [] None) as Rm.
    destruct (gp_read (open default_dir false) set gp_filters [] None) as [s1 r]. cbv beta iota zeta. intro H. injection H as <- _. exact Rm. }
  unfold gp_run, galplane. rewrite X. reflexivity.
Qed.
(** a read that failed is not tried again: with the files back in place the call still fails *)
Theorem C307_retry st e path alt path2 alt2 nside ra dec px interp keys : st = fst (call gp_fresh 64%Z true None None None false path alt) ->
  open (dir path) alt "u"%string = Err e ->
  forall open2, keys || has ra || has dec || has px = true -> nside = 64%Z ->
  snd (galplane ang2pix neighbours open2 default_dir set st nside keys ra dec px interp path2 alt2) = Err AttributeError.
Proof.
  intros -> E open2 G ->. unfold galplane at 2. simpl. fold (dir path). rewrite E. simpl. unfold galplane. simpl.
  replace (negb keys && (negb (has ra) && negb (has dec) && negb (has px))) with false
    by (destruct keys, (has ra), (has dec), (has px); simpl in *; congruence). reflexivity.
Qed.
End Plane.
Print Assumptions C307_keys.
Print Assumptions C307_values_partial.
Print Assumptions C307_resolution.
Print Assumptions C307_directory_ignored.
Print Assumptions C307_retry.

(** the directory asked for, refuted: it has other values than those reported *)
Definition demo_plane (d : string) (alt : bool) (f : string) : result table := Ok [("x"%string, [if String.eqb d "mine" then 1 else 0])].
Theorem C307_directory_refuted : exists st m st' s', 
  gp_new (fun _ _ _ => O) (fun _ _ _ => []) demo_plane "default" (fun _ => ["x"%string]) gp_fresh false 64 (Some "mine"%string) = (st, Ok m) /\
  gp_run (fun _ _ _ => O) (fun _ _ _ => []) demo_plane "default" (fun _ => ["x"%string]) m st
    {| sp_nside := Some 64%Z; sp_sid := [0%nat]; sp_ra := [0]; sp_dec := [0]; sp_info := [] |} = (st', Ok s') /\
  dget String.eqb (sp_info s') (gp_key "u" "x") = Some (Num [0]) /\ demo_plane "mine" false "u" = Ok [("x"%string, [1])].
Proof. do 4 eexists. repeat split; reflexivity. Qed.
Print Assumptions C307_directory_refuted.
Example C307_case : gp_components (gp_key "sum" "galactic_plane_map") = Ok ("sum", "galactic_plane_map")%string.
Proof. reflexivity. Qed.
