(** C302: dust extinction at slice points.  C303: the three-dimensional dust map. *)
From Coq Require Import String Ascii Reals ZArith List Lra Lia Bool.
From Verif Require Import Base Depth_Model Template_Model Sky_Proofs Maps_Model Maps_Spec Maps_Proofs.
Import ListNotations.
Open Scope R_scope.

Section Dust.
Context (ang2pix : Z -> R -> R -> nat) (neighbours : nat -> R -> R -> list (nat * R)).
Context (load : string -> Z -> result (list R)) (default_dir : string).
Notation call := (eb_vhp ang2pix neighbours load default_dir).
(** any call of the function *)
Definition ebv_step (st : ebv_state) (c : Z * option (list R) * option (list R) * option (list nat) * bool * option string) : ebv_state :=
  let '(nside, ra, dec, pixels, interp, path) := c in fst (call st nside ra dec pixels interp path).
Notation After := (Reached ebv_step ebv_fresh).

Lemma after_dustmap st : After st -> e_dustmap st = None.
Proof.
  induction 1 as [|s [[[[[nside ra] dec] pixels] interp] path] _ IH]; [reflexivity|].
  simpl. unfold eb_vhp. destruct (negb _ && _ && _); [exact IH|].
  rewrite IH. simpl. destruct (load _ _); reflexivity.
Qed.
Lemma call_after st nside ra dec pixels interp path : After st ->
  snd (call st nside ra dec pixels interp path) = snd (call ebv_fresh nside ra dec pixels interp path).
Proof.
  intro A. unfold eb_vhp. destruct (negb _ && _ && _); [reflexivity|].
  rewrite (after_dustmap _ A). simpl. destruct (load _ _); reflexivity.
Qed.

(** the result does not depend on earlier calls, whatever maps these read *)
Theorem C302_history st nside ra dec pixels interp path : After st ->
  snd (call st nside ra dec pixels interp path) = snd (call ebv_fresh nside ra dec pixels interp path).
Proof. exact (call_after st nside ra dec pixels interp path). Qed.

Definition dir_of (path : option string) : string := match path with Some p => p | None => default_dir end.
(** pixels get the values that the file of that resolution, in that directory, has for them; IndexError if it does not *)
Theorem C302_pixels st nside ix path m : After st -> load (dir_of path) nside = Ok m ->
  (forall out, snd (call st nside None None (Some ix) false path) = Ok out <-> ValuesAt m ix out) /\
  (Forall (fun i => (i < length m)%nat) ix -> exists out, snd (call st nside None None (Some ix) false path) = Ok out) /\
  (Exists (fun i => (length m <= i)%nat) ix -> snd (call st nside None None (Some ix) false path) = Err IndexError).
Proof.
  intros A L.
  assert (E : snd (call st nside None None (Some ix) false path) = take m ix).
  { rewrite call_after by exact A. unfold eb_vhp. simpl.
    unfold dir_of in L. rewrite L. reflexivity. }
  rewrite E. split; [intro out; apply take_spec|]. split.
  - intro F. clear E. induction F as [|i t H _ [r IH]]; [exists []; reflexivity|]. simpl. unfold arr_get.
    destruct (nth_error m i) eqn:Ei; [|apply nth_error_None in Ei; lia]. simpl. rewrite IH. simpl. eauto.
  - intro X. destruct (take_dec m ix) as [[out H]|H]; [|exact H]. exfalso. apply take_spec in H.
    induction H as [|i x ix' out Hi _ IH]; [inversion X|]. inversion X as [? ? Hx|? ? Hx]; subst.
    + apply nth_error_None in Hx. congruence.
    + apply IH; auto. destruct (take_dec m ix') as [[o H]|H]; rewrite call_after by exact A; unfold eb_vhp; simpl;
        unfold dir_of in L; rewrite L; reflexivity.
Qed.

(** positions get the value of the pixel they are in *)
Theorem C302_positions st nside ra dec path m : After st -> load (dir_of path) nside = Ok m -> length ra = length dec ->
  forall out, snd (call st nside (Some ra) (Some dec) None false path) = Ok out <->
    length out = length ra /\
    (forall k r d, nth_error ra k = Some r -> nth_error dec k = Some d ->
      exists x, nth_error out k = Some x /\ nth_error m (ang2pix nside (PI / 2 - d) r) = Some x).
Proof.
  intros A L Len out.
  assert (E : snd (call st nside (Some ra) (Some dec) None false path) = take m (radec2pix ang2pix nside ra dec)).
  { rewrite call_after by exact A. unfold eb_vhp. simpl. unfold dir_of in L. rewrite L. reflexivity. }
  rewrite E, take_spec. clear E A L. unfold radec2pix. revert dec Len out.
  induction ra as [|r ra IH]; intros [|d dec] Len out; try discriminate; simpl.
  - split.
    + intro H. inversion H; subst. split; [reflexivity|]. intros [|k] r d; discriminate.
    + intros [H _]. destruct out; [constructor | discriminate].
  - injection Len as Len. split.
    + intro H. inversion H as [|i x ? ? Hx Ht]; subst. apply (IH _ Len) in Ht. destruct Ht as [Hl Hk].
      split; [simpl; congruence|]. intros [|k] r' d'; simpl; [intros E1 E2; injection E1 as ->; injection E2 as ->; eauto | apply Hk].
    + intros [Hl Hk]. destruct out as [|x out]; [discriminate|]. constructor.
      * destruct (Hk O r d eq_refl eq_refl) as (y & Ey & Em). simpl in Ey. injection Ey as <-. exact Em.
      * apply (IH _ Len). split; [now injection Hl|]. intros k r' d' E1 E2. exact (Hk (S k) r' d' E1 E2).
Qed.

(** interpolated values: the weighted mean of the neighbours, between the smallest and largest value of the map *)
Theorem C302_interpolated st nside ra dec path m : After st -> load (dir_of path) nside = Ok m -> length ra = length dec ->
  (forall r d, Forall (fun w => (fst w < length m)%nat) (neighbours (length m) (PI / 2 - d) r)) ->
  exists out, snd (call st nside (Some ra) (Some dec) None true path) = Ok out /\ length out = length ra /\
    forall k r d, nth_error ra k = Some r -> nth_error dec k = Some d ->
      exists x, nth_error out k = Some x /\ WSum m (neighbours (length m) (PI / 2 - d) r) x /\
        (Weights (neighbours (length m) (PI / 2 - d) r) -> forall lo hi, (forall y, In y m -> lo <= y <= hi) -> lo <= x <= hi).
Proof.
  intros A L Len N. exists (interp_val neighbours m ra dec). split.
  { rewrite call_after by exact A. unfold eb_vhp. simpl. unfold dir_of in L. now rewrite L. }
  clear A L. unfold interp_val. split; [rewrite map_length, combine_length; lia|].
  revert dec Len. induction ra as [|r0 ra IH]; intros [|d0 dec] Len k r d E1 E2; try discriminate; [destruct k; discriminate|].
  destruct k as [|k]; [|simpl in *; now apply IH; [injection Len|..]]. simpl in E1, E2. injection E1 as ->. injection E2 as ->.
  simpl. eexists. split; [reflexivity|]. pose proof (wsum_exists _ _ (N r d)) as W. split; [exact W|].
  intros [F HS] lo hi B. pose proof (wsum_bounds _ _ _ lo hi B F _ HS W). lra.
Qed.

(** a call needs positions or pixels; interpolation needs positions *)
Theorem C302_arguments st nside path m : After st -> load (dir_of path) nside = Ok m ->
  (forall interp, snd (call st nside None None None interp path) = Err RuntimeError) /\
  (forall ix, snd (call st nside None None (Some ix) true path) = Err TypeError) /\
  (forall ra interp, snd (call st nside (Some ra) None None interp path) = Err TypeError).
Proof.
  intros A L. unfold dir_of in L. repeat split; intros; rewrite call_after by exact A; unfold eb_vhp; simpl; try rewrite L; try reflexivity.
  destruct interp; reflexivity.
Qed.

(** DustMap: a healpix slicer gets the value of each slice's own pixel at the slicer's resolution, another slicer that of the
    pixel at the map's resolution; nothing else of the slice points changes *)
Theorem C302_dustmap dm st s s' : After st -> snd (dust_run ang2pix neighbours load default_dir dm st s) = Ok s' ->
  sp_nside s' = sp_nside s /\ sp_sid s' = sp_sid s /\ sp_ra s' = sp_ra s /\ sp_dec s' = sp_dec s /\
  (forall k, k <> "ebv"%string -> dget String.eqb (sp_info s') k = dget String.eqb (sp_info s) k) /\
  exists v, dget String.eqb (sp_info s') "ebv"%string = Some (Num v) /\
    (forall n m, sp_nside s = Some n -> load (dir_of (m_path dm)) n = Ok m -> ValuesAt m (sp_sid s) v) /\
    (forall m, sp_nside s = None -> m_interp dm = false -> length (sp_ra s) = length (sp_dec s) ->
       load (dir_of (m_path dm)) (m_nside dm) = Ok m -> length v = length (sp_ra s) /\
       forall k r d, nth_error (sp_ra s) k = Some r -> nth_error (sp_dec s) k = Some d ->
         exists x, nth_error v k = Some x /\ nth_error m (ang2pix (m_nside dm) (PI / 2 - d) r) = Some x) /\
    (forall m, sp_nside s = None -> m_interp dm = true -> length (sp_ra s) = length (sp_dec s) ->
       load (dir_of (m_path dm)) (m_nside dm) = Ok m ->
       (forall r d, Forall (fun w => (fst w < length m)%nat) (neighbours (length m) (PI / 2 - d) r)) ->
       forall k r d, nth_error (sp_ra s) k = Some r -> nth_error (sp_dec s) k = Some d ->
         exists x, nth_error v k = Some x /\ WSum m (neighbours (length m) (PI / 2 - d) r) x).
Proof.
  intros A H. unfold dust_run in H.
  match type of H with context [let '(_, _) := ?c in _] => destruct c as [st' r] eqn:Ec end. simpl in H.
  destruct r as [v|e]; [|discriminate]. simpl in H. injection H as <-.
  unfold put; simpl. repeat (split; [reflexivity|]). split; [intros k N; now apply dget_dset_other|].
  exists v. split; [apply dget_dset_same|]. split; [|split].
  - intros n m En L. rewrite En in Ec. destruct (C302_pixels st n (sp_sid s) (m_path dm) m A L) as [P _].
    apply P. now rewrite Ec.
  - intros m En Ei Len L. rewrite En, Ei in Ec. apply (C302_positions st (m_nside dm) _ _ (m_path dm) m A L Len). now rewrite Ec.
  - intros m En Ei Len L N k r d E1 E2. rewrite En, Ei in Ec.
    destruct (C302_interpolated st (m_nside dm) _ _ (m_path dm) m A L Len N) as (out & Eo & _ & P).
    rewrite Ec in Eo. simpl in Eo. injection Eo as ->. destruct (P k r d E1 E2) as (x & Hx & W & _). eauto.
Qed.
End Dust.
Print Assumptions C302_history.
Print Assumptions C302_pixels.
Print Assumptions C302_positions.
Print Assumptions C302_interpolated.
Print Assumptions C302_arguments.
Print Assumptions C302_dustmap.

(** two maps read one after the other, then the first again *)
Example C302_case :
  let load := fun (d : string) (n : Z) => if (n =? 1)%Z then Ok [1; 2; 3] else Ok [4; 5; 6; 7] in
  let st1 := ebv_step (fun _ _ _ => O) (fun _ _ _ => []) load "d" ebv_fresh (1%Z, None, None, Some [2%nat], false, None) in
  let st2 := ebv_step (fun _ _ _ => O) (fun _ _ _ => []) load "d" st1 (2%Z, None, None, Some [3%nat], false, None) in
  snd (eb_vhp (fun _ _ _ => O) (fun _ _ _ => []) load "d" st2 1 None None (Some [1%nat; 0%nat]) false None) = Ok [2; 1].
Proof. reflexivity. Qed.

Section Dust3d.
Context (ang2pix : Z -> R -> R -> nat) (neighbours : nat -> R -> R -> list (nat * R)).
Context (isfile : string -> bool) (data : string -> string) (open : string -> result file3d) (ring2nest : nat -> nat -> nat).
Notation call := (ebv_3d_hp ang2pix neighbours isfile data open ring2nest).
Record args3d := { c_nside : Z; c_file : option string; c_ra : option (list R); c_dec : option (list R);
                   c_pixels : option (list nat); c_interp : bool }.
Definition step3d (st : state3d) (c : args3d) : state3d :=
  fst (call st (c_nside c) (c_file c) (c_ra c) (c_dec c) (c_pixels c) (c_interp c)).

(** the rows of pixel [p] in a file, whose rows are in nested order if it says so *)
Definition RowOf (f : file3d) (rows : list (list R)) (p : nat) : option (list R) :=
  nth_error rows (if f_nested f then ring2nest (length rows) p else p).
(** ring2nest renumbers the pixels *)
Definition Renumbers : Prop := forall n i, (i < n)%nat -> (ring2nest n i < n)%nat.
Definition ordered (f : file3d) (rows : list (list R)) : list (list R) := if f_nested f then reorder ring2nest rows else rows.

Lemma ordered_row f rows p : Renumbers -> (p < length rows)%nat -> nth_error (ordered f rows) p = RowOf f rows p.
Proof.
  intros Rn L. unfold ordered, RowOf, reorder. destruct (f_nested f); [|reflexivity].
  rewrite nth_error_map, (nth_error_nth' _ O) by now rewrite seq_length. rewrite seq_nth by exact L. simpl.
  symmetry. apply nth_error_nth'. now apply Rn.
Qed.
Lemma ordered_length f rows : length (ordered f rows) = length rows.
Proof. unfold ordered, reorder. destruct (f_nested f); [now rewrite map_length, seq_length | reflexivity]. Qed.

(** states in which [f] is held or nothing *)
Definition holds (f : file3d) (st : state3d) : Prop :=
  h_map_file st = None /\
  ((h_dists st = Some (ordered f (f_dists f)) /\ h_ebvs st = Some (ordered f (f_ebvs f))) \/ (h_dists st = None /\ h_ebvs st = None)).
Lemma step_holds f st c file : holds f st -> file_of isfile data (c_nside c) (c_file c) = Ok file -> open file = Ok f ->
  holds f (step3d st c).
Proof.
  intros [M H] E O. unfold step3d, ebv_3d_hp. destruct (negb _ && _ && _); [split; assumption|].
  rewrite E, M. simpl. rewrite String.eqb_refl. simpl.
  destruct H as [[-> ->]|[-> ->]]; simpl.
  - split; [reflexivity|]. left. split; reflexivity.
  - rewrite O. destruct (negb _ && _); split; simpl; try assumption; try reflexivity; auto.
Qed.
Lemma call_holds f st nside mf ra dec ix file : holds f st -> file_of isfile data nside mf = Ok file -> open file = Ok f ->
  nside = f_nside f -> forall interp, (has ra || has dec || has ix = true) ->
  snd (call st nside mf ra dec ix interp) =
  look3d ang2pix neighbours (ordered f (f_dists f)) (ordered f (f_ebvs f)) nside ra dec ix interp.
Proof.
  intros [M H] E O N interp G. unfold ebv_3d_hp.
  replace (negb (has ra) && negb (has dec) && negb (has ix)) with false
    by (destruct (has ra), (has dec), (has ix); simpl in *; congruence).
  rewrite E, M. simpl. rewrite String.eqb_refl. simpl.
  destruct H as [[-> ->]|[-> ->]]; simpl; [reflexivity|]. rewrite O, <- N, Z.eqb_refl. reflexivity.
Qed.

(** as long as only one map is read, pixels get their own rows of it, whatever was asked before *)
Theorem C303_one_map_partial f st nside mf file ix : Renumbers -> length (f_ebvs f) = length (f_dists f) ->
  Reached (fun s c => if match file_of isfile data (c_nside c) (c_file c) with Ok g => String.eqb g file | Err _ => false end
                      then step3d s c else s) fresh3d st ->
  file_of isfile data nside mf = Ok file -> open file = Ok f -> nside = f_nside f ->
  Forall (fun i => (i < length (f_dists f))%nat) ix ->
  forall interp, exists d e, snd (call st nside mf None None (Some ix) interp) = Ok (d, e) /\
    Forall2 (fun i x => RowOf f (f_dists f) i = Some x) ix d /\ Forall2 (fun i x => RowOf f (f_ebvs f) i = Some x) ix e.
Proof.
  intros Rn Le Rs E O N F interp.
  assert (H : holds f st).
  { induction Rs as [|s c _ IH]; [split; [reflexivity | now right]|].
    destruct (file_of isfile data (c_nside c) (c_file c)) as [g|] eqn:Eg; [|exact IH].
    destruct (String.eqb g file) eqn:Eq; [|exact IH]. apply String.eqb_eq in Eq. subst g.
    eapply step_holds; eassumption. }
  rewrite (call_holds f st nside mf None None (Some ix) file H E O N interp eq_refl). simpl.
  assert (T : forall rows, length rows = length (f_dists f) -> exists d, take (ordered f rows) ix = Ok d /\
              Forall2 (fun i x => RowOf f rows i = Some x) ix d).
  { intros rows Lr. clear -F Rn Lr. induction F as [|i t Hi _ (d & Et & Ft)]; [exists []; split; [reflexivity | constructor]|].
    simpl. unfold arr_get. rewrite ordered_row by (try exact Rn; lia).
    destruct (RowOf f rows i) as [x|] eqn:Ex.
    - simpl. rewrite Et. simpl. exists (x :: d). split; [reflexivity | constructor; auto].
    - unfold RowOf in Ex. apply nth_error_None in Ex. destruct (f_nested f); [|lia].
      assert (i < length rows)%nat as L2 by lia. pose proof (Rn _ _ L2). lia. }
  destruct (T (f_dists f) eq_refl) as (d & -> & Fd). destruct (T (f_ebvs f) Le) as (e & -> & Fe). simpl. eauto.
Qed.

(** the first map read is used ever after: later calls get its rows, whatever file they name *)
Theorem C303_first_map_stays f st0 nside0 mf0 ra0 dec0 px0 i0 out0 file0 : h_map_file st0 = None -> h_dists st0 = None ->
  file_of isfile data nside0 mf0 = Ok file0 -> open file0 = Ok f ->
  snd (call st0 nside0 mf0 ra0 dec0 px0 i0) = Ok out0 ->
  forall st, Reached step3d (fst (call st0 nside0 mf0 ra0 dec0 px0 i0)) st ->
  forall nside mf file ix interp, file_of isfile data nside mf = Ok file ->
    snd (call st nside mf None None (Some ix) interp) =
    (do d <- take (ordered f (f_dists f)) ix; do e <- take (ordered f (f_ebvs f)) ix; Ok (d, e)).
Proof.
  intros M D E O H st Rs nside mf file ix interp E'.
  assert (I : h_map_file st = None /\ h_dists st = Some (ordered f (f_dists f)) /\ h_ebvs st = Some (ordered f (f_ebvs f))).
  { induction Rs as [|s c _ IH].
    - revert H. unfold ebv_3d_hp. destruct (negb _ && _ && _); [discriminate|]. rewrite E, M. simpl. rewrite D. simpl. rewrite O.
      destruct (negb _ && _); [discriminate|]. simpl. auto.
    - destruct IH as (I1 & I2 & I3). unfold step3d, ebv_3d_hp. destruct (negb _ && _ && _); [auto|].
      destruct (file_of isfile data (c_nside c) (c_file c)); [|auto]. rewrite I1. simpl. rewrite I2, I3, String.eqb_refl. simpl. auto. }
  destruct I as (I1 & I2 & I3). unfold ebv_3d_hp. simpl. rewrite E', I1. simpl. rewrite I2, I3, String.eqb_refl. reflexivity.
Qed.

(** a first call with pixels of another resolution than the file's raises, and is not remembered *)
Theorem C303_other_resolution nside mf file f ix interp : file_of isfile data nside mf = Ok file -> open file = Ok f ->
  nside <> f_nside f ->
  snd (call fresh3d nside mf None None (Some ix) interp) = Err ValueError /\
  h_dists (fst (call fresh3d nside mf None None (Some ix) interp)) = None.
Proof.
  intros E O N. apply Z.eqb_neq in N. unfold ebv_3d_hp. simpl. rewrite E. simpl. rewrite O, N. simpl. auto.
Qed.
End Dust3d.
Print Assumptions C303_one_map_partial.
Print Assumptions C303_first_map_stays.
Print Assumptions C303_other_resolution.

(** the map asked for, refuted: after a map of 3 pixels was read, pixel 1 of another file has the row of the first *)
Definition demo_file (n : Z) (v : R) : file3d :=
  {| f_nside := n; f_nested := false; f_dists := [[1]; [2]; [3]]; f_ebvs := [[v]; [v]; [v]] |}.
Definition demo_open (f : string) : result file3d := if String.eqb f "a" then Ok (demo_file 64 0) else Ok (demo_file 128 1).
Theorem C303_map_asked_refuted :
  exists open st, Reached (step3d (fun _ _ _ => O) (fun _ _ _ => []) (fun _ => true) (fun x => x) open (fun _ i => i)) fresh3d st /\
  exists f d, open "b"%string = Ok f /\ f_ebvs f = [[1]; [1]; [1]] /\
    snd (ebv_3d_hp (fun _ _ _ => O) (fun _ _ _ => []) (fun _ => true) (fun x => x) open (fun _ i => i) st
           (f_nside f) (Some "b"%string) None None (Some [1%nat]) false) = Ok (d, [[0]]).
Proof.
  exists demo_open. eexists. split.
  - apply Next with (c := {| c_nside := 64; c_file := Some "a"%string; c_ra := None; c_dec := None; c_pixels := Some [0%nat]; c_interp := false |}).
    apply Start.
  - exists (demo_file 128 1), [[2]]. repeat split.
Qed.
Print Assumptions C303_map_asked_refuted.

(** the same call twice, refuted: positions are looked up at the file's resolution the first time and at the asked one after *)
Theorem C303_twice_refuted :
  exists ang2pix open, let call := ebv_3d_hp ang2pix (fun _ _ _ => []) (fun _ => true) (fun x => x) open (fun _ i => i) in
  exists d1 d2, snd (call fresh3d 64%Z (Some "b"%string) (Some [0]) (Some [0]) None false) = Ok d1 /\
    snd (call (fst (call fresh3d 64%Z (Some "b"%string) (Some [0]) (Some [0]) None false)) 64%Z (Some "b"%string) (Some [0]) (Some [0]) None false)
    = Ok d2 /\ d1 <> d2.
Proof.
  exists (fun n _ _ => if (n =? 128)%Z then 2%nat else 1%nat), demo_open.
  exists ([[3]], [[1]]), ([[2]], [[1]]). split; [reflexivity|]. split; [reflexivity|].
  intro H. injection H as H. lra.
Qed.
Print Assumptions C303_twice_refuted.

Example C303_case :
  let call := ebv_3d_hp (fun _ _ _ => O) (fun _ _ _ => []) (fun _ => true) (fun x => x)
     (fun _ => Ok {| f_nside := 64; f_nested := true; f_dists := [[1]; [2]]; f_ebvs := [[3]; [4]] |}) (fun n i => (n - 1 - i)%nat) in
  snd (call (fst (call fresh3d 64%Z None None None (Some [0%nat]) false)) 64%Z None None None (Some [0%nat]) false) = Ok ([[2]], [[4]]).
Proof. reflexivity. Qed.
