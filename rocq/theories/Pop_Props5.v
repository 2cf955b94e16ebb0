(** Theorems about the choice of kilonova files: C344. *)
From Coq Require Import String Ascii Reals Lra Lia ZArith List Bool Permutation.
From Verif Require Import Base Depth_Model Template_Model Sky_Proofs Pop_Model Pop_Spec Runs_Spec Plane_Spec Pop_Props.
From Verif Require Maps_Model.
Import ListNotations.
Open Scope R_scope.

(** * Names *)
Fixpoint Free (c : ascii) (s : string) : Prop := match s with EmptyString => True | String a t => a <> c /\ Free c t end.
Lemma split_free c a b : Free c a -> Maps_Model.split c (a ++ String c b) = a :: Maps_Model.split c b.
Proof.
  induction a as [|x a IH]; cbn.
  - intros _. rewrite Ascii.eqb_refl. reflexivity.
  - intros [N F]. apply Ascii.eqb_neq in N. rewrite N. rewrite (IH F). reflexivity.
Qed.
Lemma split_last c a : Free c a -> Maps_Model.split c a = [a].
Proof.
  induction a as [|x a IH]; cbn; [reflexivity|]. intros [N F]. apply Ascii.eqb_neq in N. rewrite N. rewrite (IH F). reflexivity.
Qed.
Lemma last_split c a b : Free c b -> last (Maps_Model.split c (a ++ String c b)) EmptyString = b.
Proof.
  intros F. induction a as [|x a IH]; cbn.
  - rewrite Ascii.eqb_refl. rewrite (split_last c b F). reflexivity.
  - destruct (Ascii.eqb x c).
    + destruct (Maps_Model.split c (a ++ String c b)) as [|h r] eqn:E; [destruct a; cbn in E; [rewrite Ascii.eqb_refl in E; discriminate|]; destruct (Ascii.eqb a c); [discriminate|]; destruct (Maps_Model.split c (a0 ++ String c b)); discriminate|].
      exact IH.
    + destruct (Maps_Model.split c (a ++ String c b)) as [|h r] eqn:E.
      * destruct a as [|y a]; cbn in E; [rewrite Ascii.eqb_refl in E; discriminate|]. destruct (Ascii.eqb y c); [discriminate|]. destruct (Maps_Model.split c (a ++ String c b)); discriminate.
      * destruct r as [|h' r]; [|exact IH]. exfalso.
        assert (G : (2 <= length (Maps_Model.split c (a ++ String c b)))%nat); [|rewrite E in G; cbn in G; lia].
        clear. induction a as [|x a IH]; cbn.
        -- rewrite Ascii.eqb_refl. destruct (Maps_Model.split c b) eqn:E; cbn; [|lia]. destruct b; cbn in E; [discriminate|]. destruct (Ascii.eqb a c); [discriminate|]. destruct (Maps_Model.split c b); discriminate.
        -- destruct (Ascii.eqb x c); [cbn; lia|]. destruct (Maps_Model.split c (a ++ String c b)) as [|u [|w z]]; cbn in *; lia.
Qed.
(** dropping a word *)
Lemma replace_skip w : forall x d, Maps_Model.replace_from w (String.length x) (x ++ d) = Maps_Model.replace_from w O d.
Proof. induction x as [|a x IH]; intros d; [reflexivity|]. cbn. apply IH. Qed.
Lemma prefix_app w s : String.prefix w (w ++ s) = true.
Proof. induction w as [|a w IH]; cbn; [destruct s; reflexivity|]. rewrite IH. destruct (ascii_dec a a); congruence. Qed.
Lemma replace_head c w d : Maps_Model.replace_from (String c w) O (String c w ++ d) = Maps_Model.replace_from (String c w) O d.
Proof.
  change (String c w ++ d)%string with (String c (w ++ d))%string at 1. cbn [Maps_Model.replace_from].
  assert (P : String.prefix (String c w) (String c (w ++ d)) = true) by (apply (prefix_app (String c w) d)). rewrite P.
  cbn [String.length]. replace (S (String.length w) - 1)%nat with (String.length w) by lia. apply replace_skip.
Qed.
Lemma replace_free c w s : Free c s -> Maps_Model.replace_from (String c w) O s = s.
Proof.
  induction s as [|a s IH]; [reflexivity|]. intros [N F]. cbn [Maps_Model.replace_from].
  assert (P : String.prefix (String c w) (String a s) = false) by (cbn; destruct (ascii_dec c a); congruence). rewrite P. rewrite (IH F). reflexivity.
Qed.
(** a name without the extension in it *)
Fixpoint NoExt (s : string) : Prop := match s with EmptyString => True | String _ t => String.prefix ".dat" s = false /\ NoExt t end.
Lemma prefix_cons c w a s : String.prefix (String c w) (String a s) = Ascii.eqb c a && String.prefix w s.
Proof. cbn. destruct (ascii_dec c a) as [->|N]; [rewrite Ascii.eqb_refl; reflexivity|]. apply Ascii.eqb_neq in N. rewrite N. reflexivity. Qed.
Lemma drop_ext s : NoExt s -> Maps_Model.replace_from ".dat" O (s ++ ".dat") = s.
Proof.
  induction s as [|a s IH]; intros H; [reflexivity|]. destruct H as [P N].
  assert (Q : String.prefix ".dat" (String a s ++ ".dat") = false).
  { destruct s as [|b [|c [|d s]]]; cbn [append] in P |- *; rewrite !prefix_cons in *.
    - destruct (Ascii.eqb "." a); reflexivity.
    - destruct (Ascii.eqb "." a), (Ascii.eqb "d" b); reflexivity.
    - destruct (Ascii.eqb "." a), (Ascii.eqb "d" b), (Ascii.eqb "a" c); reflexivity.
    - destruct (Ascii.eqb "." a), (Ascii.eqb "d" b), (Ascii.eqb "a" c), (Ascii.eqb "t" d); try reflexivity. destruct s; discriminate P. }
  change (String a s ++ ".dat")%string with (String a (s ++ ".dat"))%string in *. cbn [Maps_Model.replace_from]. rewrite Q. f_equal. apply IH. exact N.
Qed.

(** a file of the grid of models: its directory and what its name says *)
Definition GridName (dir kind a d w p t : string) : string :=
  (dir ++ "/" ++ kind ++ "_" ++ a ++ "_mejdyn" ++ d ++ "_mejwind" ++ w ++ "_phi" ++ p ++ "_" ++ t ++ ".dat")%string.
Definition Plain (s : string) : Prop := Free "_" s /\ Free "/" s /\ Free "m" s /\ Free "p" s.
Definition Says (to_float : string -> option R) (file : string) (d w p t : R) : Prop :=
  exists dir kind a sd sw sp st, file = GridName dir kind a sd sw sp st /\ (kind = "nsns" \/ kind = "nsbh")%string
  /\ Free "_" a /\ Free "/" a /\ Plain sd /\ Plain sw /\ Plain sp /\ Plain st
  /\ NoExt (dir ++ "/" ++ kind ++ "_" ++ a ++ "_mejdyn" ++ sd ++ "_mejwind" ++ sw ++ "_phi" ++ sp ++ "_" ++ st)
  /\ to_float sd = Some d /\ to_float sw = Some w /\ to_float sp = Some p /\ to_float st = Some t.

Lemma free_app c a b : Free c (a ++ b) <-> Free c a /\ Free c b.
Proof. induction a as [|x a IH]; cbn; [tauto|]. rewrite IH. tauto. Qed.
Lemma append_assoc' (a b c : string) : ((a ++ b) ++ c = a ++ (b ++ c))%string.
Proof. induction a as [|x a IH]; cbn; [reflexivity|]. rewrite IH. reflexivity. Qed.

(** C344: the parameters are read off the name *)
Theorem C344_says : forall to_float file d w p t, Says to_float file d w p t ->
  file_params to_float (file_key file) = Ok [("mej_dyn", d); ("mej_wind", w); ("phi", p); ("theta", t)]%string.
Proof.
  intros to_float file d w p t (dir & kind & a & sd & sw & sp & st & -> & K & Pa & Pa' & Pd & Pw & Pp & Pt & NE & Fd & Fw & Fp & Ft).
  set (stem := (kind ++ "_" ++ a ++ "_mejdyn" ++ sd ++ "_mejwind" ++ sw ++ "_phi" ++ sp ++ "_" ++ st)%string).
  assert (G : GridName dir kind a sd sw sp st = ((dir ++ "/" ++ stem) ++ ".dat")%string).
  { unfold GridName, stem. repeat (rewrite append_assoc'; cbn [append]). reflexivity. }
  assert (Key : file_key (GridName dir kind a sd sw sp st) = stem).
  { unfold file_key. rewrite G. rewrite drop_ext by exact NE. apply last_split. unfold stem. repeat (rewrite free_app; cbn [Free append]).
    unfold Plain in *. destruct K as [-> | ->]; cbn; repeat split; try tauto; discriminate. }
  rewrite Key. unfold stem.
  assert (Sp : Maps_Model.split "_" stem = [kind; a; ("mejdyn" ++ sd)%string; ("mejwind" ++ sw)%string; ("phi" ++ sp)%string; st]).
  { unfold Plain in *.
    assert (EE : stem = (kind ++ String "_" (a ++ String "_" ("mejdyn" ++ (sd ++ String "_" ("mejwind" ++ (sw ++ String "_" ("phi" ++ (sp ++ String "_" st))))))))%string) by reflexivity.
    rewrite EE.
    rewrite split_free by (destruct K as [-> | ->]; cbn; repeat split; discriminate). f_equal.
    rewrite split_free by tauto. f_equal.
    rewrite <- (append_assoc' "mejdyn"). rewrite split_free by (apply free_app; split; [cbn; repeat split; discriminate|tauto]). f_equal.
    rewrite <- (append_assoc' "mejwind"). rewrite split_free by (apply free_app; split; [cbn; repeat split; discriminate|tauto]). f_equal.
    rewrite <- (append_assoc' "phi"). rewrite split_free by (apply free_app; split; [cbn; repeat split; discriminate|tauto]). f_equal.
    apply split_last. tauto. }
  fold stem. unfold file_params. cbv zeta. rewrite Sp.
  assert (KK : String.eqb kind "nsns" || String.eqb kind "nsbh" = true) by (destruct K as [-> | ->]; reflexivity). rewrite KK.
  unfold field, Plain in *. cbn [arr_get nth_error bind].
  rewrite (replace_head "m" "ejdyn" sd), (replace_free "m" "ejdyn" sd) by tauto. rewrite Fd. cbn [bind].
  rewrite (replace_head "m" "ejwind" sw), (replace_free "m" "ejwind" sw) by tauto. rewrite Fw. cbn [bind].
  rewrite (replace_head "p" "hi" sp), (replace_free "p" "hi" sp) by tauto. rewrite Fp. cbn [bind]. rewrite Ft. reflexivity.
Qed.
Print Assumptions C344_says.

(** * The choice *)
(** a set of parameters that fits a file: every parameter asked for is within 1e-8 + 1e-5 of its size *)
Definition Fits (d w p t : R) (asked : list (string * R)) : Prop :=
  forall name x, In (name, x) asked -> exists y, In (name, y) [("mej_dyn", d); ("mej_wind", w); ("phi", p); ("theta", t)]%string /\ Rabs (y - x) <= 0.00000001 + 0.00001 * Rabs x.
Definition Asks (asked : list (string * R)) : Prop := forall name x, In (name, x) asked -> OneOf ["mej_dyn"; "mej_wind"; "phi"; "theta"]%string name.

Lemma isclose_spec a b : isclose a b = true <-> Rabs (a - b) <= 0.00000001 + 0.00001 * Rabs b.
Proof. unfold isclose. rewrite rleb_true. split; intros H; lra. Qed.
Lemma matches_spec d w p t asked : Asks asked -> exists m, matches [("mej_dyn", d); ("mej_wind", w); ("phi", p); ("theta", t)]%string asked = Ok m /\ (m = true <-> Fits d w p t asked).
Proof.
  induction asked as [|[name x] l IH]; intros A; cbn [matches].
  - exists true. split; [reflexivity|]. split; [intros _ n y []|reflexivity].
  - destruct IH as (m & E & H); [intros n y I; apply (A n y); right; exact I|].
    assert (N := A name x (or_introl eq_refl)). unfold OneOf in N. cbn [In] in N.
    assert (F : exists y, lookup [("mej_dyn", d); ("mej_wind", w); ("phi", p); ("theta", t)]%string name = Ok y /\ String.eqb name "filename" = false
      /\ forall z, In (name, z) [("mej_dyn", d); ("mej_wind", w); ("phi", p); ("theta", t)]%string <-> z = y).
    { destruct N as [<-|[<-|[<-|[<-|[]]]]]; eexists; (split; [reflexivity|]); (split; [reflexivity|]); intros z; cbn [In]; split.
      all: try (intros ->; auto 6).
      all: intros [H1|[H1|[H1|[H1|[]]]]]; congruence. }
    destruct F as (y & L & NF & U). rewrite NF, L, E. cbn [bind]. eexists. split; [reflexivity|]. rewrite andb_true_iff, isclose_spec, H. split.
    + intros [H1 H2] n z [I|I]; [injection I as <- <-; exists y; split; [apply U; reflexivity|exact H1]|]. apply H2. exact I.
    + intros G. split.
      * destruct (G name x (or_introl eq_refl)) as (z & Iz & Hz). apply U in Iz. subst. exact Hz.
      * intros n z I. apply G. right. exact I.
Qed.

(** how often a file is listed: once for each set that fits it *)
Definition Listing (to_float : string -> option R) (sets : list (list (string * R))) (file : string) (n : nat) : Prop :=
  exists d w p t, Says to_float file d w p t /\ CountP (Fits d w p t) sets n.
Lemma match_sets_spec file d w p t : forall sets, (forall s, In s sets -> Asks s) ->
  exists n, match_sets file [("mej_dyn", d); ("mej_wind", w); ("phi", p); ("theta", t)]%string sets = Ok (repeat file n) /\ CountP (Fits d w p t) sets n.
Proof.
  induction sets as [|s sets IH]; intros A; cbn [match_sets].
  - exists 0%nat. split; [reflexivity|constructor].
  - destruct (matches_spec d w p t s) as (m & E & H); [apply A; left; reflexivity|]. destruct IH as (n & E' & C); [intros; apply A; right; assumption|].
    rewrite E, E'. cbn [bind]. destruct m.
    + exists (S n). split; [reflexivity|]. constructor; [apply H; reflexivity|exact C].
    + exists n. split; [reflexivity|]. constructor; [|exact C]. intros F. apply H in F. discriminate.
Qed.
Lemma dset_new {V} (d : list (string * V)) k v : (forall w, ~ In (k, w) d) -> dset String.eqb d k v = d ++ [(k, v)].
Proof.
  induction d as [|[k' w] d IH]; intros H; cbn [dset app]; [reflexivity|]. destruct (String.eqb k k') eqn:E.
  - apply String.eqb_eq in E. subst. exfalso. apply (H w). left. reflexivity.
  - rewrite IH; [reflexivity|]. intros u I. apply (H u). right. exact I.
Qed.
Lemma read_params_spec to_float : forall files acc, (forall f, In f files -> exists d w p t, Says to_float f d w p t) -> NoDup (map file_key files) ->
  (forall f v, In f files -> ~ In (file_key f, v) acc) ->
  exists more, read_params to_float files acc = Ok (acc ++ more) /\ Forall2 (fun f e => exists d w p t, Says to_float f d w p t /\ e = (file_key f, (f, [("mej_dyn", d); ("mej_wind", w); ("phi", p); ("theta", t)]%string))) files more.
Proof.
  induction files as [|f files IH]; intros acc A N D; cbn [read_params].
  - exists []. rewrite app_nil_r. split; [reflexivity|constructor].
  - destruct (A f (or_introl eq_refl)) as (d & w & p & t & S1). rewrite (C344_says _ _ _ _ _ _ S1). cbn [bind].
    rewrite dset_new by (intros v; apply D; left; reflexivity). inversion N as [|? ? N1 N2]. subst.
    destruct (IH (acc ++ [(file_key f, (f, [("mej_dyn", d); ("mej_wind", w); ("phi", p); ("theta", t)]%string))])) as (more & E & F).
    + intros g G. apply A. right. exact G.
    + exact N2.
    + intros g v G I. apply in_app_or in I. destruct I as [I|[I|[]]]; [apply (D g v); [right; exact G|exact I]|].
      injection I as K _. apply N1. rewrite K. apply in_map. exact G.
    + eexists. split.
      * rewrite E. rewrite <- app_assoc. reflexivity.
      * cbn [app]. constructor; [exists d, w, p, t; auto|exact F].
Qed.
Lemma match_files_spec to_float sets : (forall s, In s sets -> Asks s) -> forall files more,
  Forall2 (fun f e => exists d w p t, Says to_float f d w p t /\ e = (file_key f, (f, [("mej_dyn", d); ("mej_wind", w); ("phi", p); ("theta", t)]%string))) files more ->
  exists ns, match_files more sets = Ok (concat (map (fun p => repeat (fst p) (snd p)) (combine files ns))) /\ Forall2 (Listing to_float sets) files ns.
Proof.
  intros A files more F. induction F as [|f e files more (d & w & p & t & S1 & ->) F IH]; cbn [match_files].
  - exists []. split; [reflexivity|constructor].
  - destruct (match_sets_spec f d w p t sets A) as (n & E & C). destruct IH as (ns & E' & L). rewrite E, E'. cbn [bind].
    exists (n :: ns). split; [reflexivity|]. constructor; [exists d, w, p, t; auto|exact L].
Qed.

(** every file is listed as often as there are sets of parameters that fit it, in the order of the files *)
Theorem C344_listed : forall to_float files sets, sets <> [] -> (forall f, In f files -> exists d w p t, Says to_float f d w p t) -> NoDup (map file_key files) ->
  (forall s, In s sets -> Asks s) ->
  exists ns, get_kne_filename to_float files (Some sets) = Ok (concat (map (fun p => repeat (fst p) (snd p)) (combine files ns)))
  /\ Forall2 (Listing to_float sets) files ns.
Proof.
  intros to_float files sets NE A N Q. unfold get_kne_filename. destruct sets as [|s sets]; [contradiction|].
  destruct (read_params_spec to_float files [] A N) as (more & E & F); [intros f v _ []|]. rewrite E. cbn [bind app].
  apply (match_files_spec to_float (s :: sets) Q files more F).
Qed.
Print Assumptions C344_listed.

(** without parameters every file *)
Theorem C344_all : forall to_float files, get_kne_filename to_float files None = Ok files /\ get_kne_filename to_float files (Some []) = Ok files.
Proof. split; reflexivity. Qed.
Print Assumptions C344_all.

(** * An example, and what is not so *)
Definition kfloat (s : string) : option R :=
  if String.eqb s "0.005" then Some 0.005 else if String.eqb s "0.050" then Some 0.05 else if String.eqb s "30" then Some 30 else if String.eqb s "25.84" then Some 25.84 else None.
Definition kfile : string := "/data/maf/bns/nsns_nph1.0e+06_mejdyn0.005_mejwind0.050_phi30_25.84.dat".
Example C344_case : Says kfloat kfile 0.005 0.05 30 25.84.
Proof.
  exists "/data/maf/bns"%string, "nsns"%string, "nph1.0e+06"%string, "0.005"%string, "0.050"%string, "30"%string, "25.84"%string.
  split; [reflexivity|]. split; [left; reflexivity|]. unfold Plain. cbn. repeat split; discriminate.
Qed.

(** two sets that fit one file list it twice *)
Theorem C344_once_refuted : ~ (forall to_float files sets out, (forall f, In f files -> exists d w p t, Says to_float f d w p t) -> NoDup (map file_key files) ->
  (forall s, In s sets -> Asks s) -> get_kne_filename to_float files (Some sets) = Ok out -> NoDup out).
Proof.
  intros H. pose (sets := [[("phi", 30)]; [("theta", 25.84)]]%string).
  assert (A : forall f, In f [kfile] -> exists d w p t, Says kfloat f d w p t) by (intros f [<-|[]]; exists 0.005, 0.05, 30, 25.84; exact C344_case).
  assert (Q : forall s, In s sets -> Asks s) by (intros s [<-|[<-|[]]] n x [E|[]]; injection E as <- <-; cbn; auto).
  assert (G : get_kne_filename kfloat [kfile] (Some sets) = Ok [kfile; kfile]).
  { unfold get_kne_filename, sets. cbn [read_params]. rewrite (C344_says _ _ _ _ _ _ C344_case). cbn [bind dset match_files match_sets matches String.eqb Ascii.eqb Bool.eqb].
    unfold lookup. cbn [dget String.eqb Ascii.eqb Bool.eqb bind].
    assert (X : forall x, isclose x x = true) by (intros x; apply isclose_spec; replace (x - x) with 0 by ring; rewrite Rabs_R0; pose proof (Rabs_pos x); lra). rewrite !X. reflexivity. }
  pose proof (H kfloat [kfile] sets _ A ltac:(repeat constructor; intros []) Q G) as N. inversion N as [|? ? N1]. apply N1. left. reflexivity.
Qed.
Print Assumptions C344_once_refuted.
(** a file of another kind in the directory makes every request an error, unless nothing is asked of it *)
Theorem C344_other_refuted : ~ (forall to_float files s, (forall f, In f files -> f <> kfile -> file_key f = "readme"%string) -> Asks s ->
  exists out, get_kne_filename to_float files (Some [s]) = Ok out).
Proof.
  intros H. destruct (H kfloat ["/data/readme.dat"]%string [("phi", 30)]%string) as [out E].
  - intros f [<-|[]] _. reflexivity.
  - intros n x [E|[]]. injection E as <- <-. cbn. auto.
  - vm_compute in E. discriminate E.
Qed.
Print Assumptions C344_other_refuted.
