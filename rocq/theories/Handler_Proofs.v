(** Texts, dictionaries and the order of the bundles. *)
From Coq Require Import Ascii String Permutation Lia.
From Verif Require Import Base Maps_Model Archive_Proofs Handler_Model Handler_Spec.
Import List. Import ListNotations.
Open Scope string_scope.

Lemma append_nil : forall s, s ++ "" = s. Proof. induction s; simpl; congruence. Qed.
Lemma append_assoc' : forall a b c, (a ++ b) ++ c = a ++ (b ++ c). Proof. induction a; simpl; intros; congruence. Qed.
Lemma append_inj : forall a b c, a ++ b = a ++ c -> b = c. Proof. induction a; simpl; intros; auto. injection H; auto. Qed.
Lemma lacks_cons : forall c x s, Lacks c (String x s) <-> x <> c /\ Lacks c s.
Proof.
  intros c x s. split.
  - intro L. split; [intros ->; now apply (L "" s) | intros a b ->; now apply (L (String x a) b)].
  - intros [N L] [|y a] b E; cbn in E; injection E as -> ->; [easy | now apply (L a b)].
Qed.
Lemma lacks_nil : forall c, Lacks c "". Proof. intros c [|x a] b; discriminate. Qed.

(* ----- split ----- *)
Lemma split_lacks : forall c s, Lacks c s -> Maps_Model.split c s = [s].
Proof.
  induction s as [|x s IH]; intro L; cbn; [reflexivity|]. apply lacks_cons in L. destruct L as [N L].
  destruct (Ascii.eqb_spec x c); [contradiction|]. now rewrite (IH L).
Qed.
Lemma split_app : forall c a b, Lacks c a -> Maps_Model.split c (a ++ String c b) = a :: Maps_Model.split c b.
Proof.
  induction a as [|x a IH]; intros b L; cbn.
  - now rewrite Ascii.eqb_refl.
  - apply lacks_cons in L. destruct L as [N L]. destruct (Ascii.eqb_spec x c); [contradiction|]. now rewrite (IH b L).
Qed.
Lemma concat_cons : forall sep a b t, String.concat sep (a :: b :: t) = a ++ sep ++ String.concat sep (b :: t).
Proof. reflexivity. Qed.
Lemma split_parts : forall c s ps, Parts c s ps -> Maps_Model.split c s = ps.
Proof.
  intros c s ps (N & -> & F). induction ps as [|a [|b t] IH]; [easy | now apply split_lacks; inversion F |].
  rewrite concat_cons. change (String c "" ++ String.concat (String c "") (b :: t)) with (String c (String.concat (String c "") (b :: t))).
  rewrite split_app by now inversion F. f_equal. apply IH; [easy | now inversion F].
Qed.
Lemma words_parts : forall s ps, Parts " " s ps -> ~ In "" ps -> words s = ps.
Proof.
  intros s ps P N. unfold words. rewrite (split_parts _ _ _ P). clear P s. induction ps as [|x t IH]; [reflexivity|].
  cbn [filter]. destruct (String.eqb_spec x ""); [subst; exfalso; apply N; now left|]. cbn. f_equal. apply IH. intro I. apply N. now right.
Qed.

(* ----- dictionaries ----- *)
Lemma get_put : forall d k v k', get (put k v d) k' = if String.eqb k' k then Some v else get d k'.
Proof. intros. apply dget_dset. intros; apply String.eqb_eq. Qed.
Lemma get_in : forall (d : dict) k v, NoDup (map fst d) -> In (k, v) d -> get d k = Some v.
Proof.
  induction d as [|[k0 v0] d IH]; intros k v N I; [easy|]. cbn. inversion N; subst. destruct I as [E | I].
  - injection E as <- <-. now rewrite String.eqb_refl.
  - destruct (String.eqb_spec k k0); [subst; exfalso; apply H1; now apply (in_map fst) in I | now apply IH].
Qed.
Lemma get_none : forall (d : dict) k, ~ In k (map fst d) -> get d k = None.
Proof.
  induction d as [|[k0 v0] d IH]; intros k N; [reflexivity|]. cbn. destruct (String.eqb_spec k k0); [subst; exfalso; apply N; now left|].
  apply IH. intro; apply N; now right.
Qed.
Lemma get_update : forall e d k, NoDup (map fst e) -> get (update d e) k = match get e k with Some v => Some v | None => get d k end.
Proof.
  unfold update. induction e as [|[k0 v0] e IH]; intros d k N; [reflexivity|]. inversion N; subst. cbn [fold_left fst snd].
  rewrite (IH _ _ H2), get_put. cbn [get]. unfold get at 3. cbn [dget]. destruct (String.eqb_spec k k0).
  - subst. rewrite (get_none e k0); [reflexivity | exact H1].
  - reflexivity.
Qed.
Lemma get_filter : forall d k, NoDup (map fst d) ->
  get (filter (fun kv => negb (is_none (snd kv))) d) k = match get d k with Some VNone => None | o => o end.
Proof.
  induction d as [|[k0 v0] d IH]; intros k N; [reflexivity|]. inversion N; subst. cbn [filter snd]. unfold get at 2. cbn [dget]. 
  destruct (String.eqb_spec k k0).
  - subst. destruct v0; cbn; rewrite ?String.eqb_refl; try reflexivity. rewrite IH by assumption. now rewrite (get_none d k0).
  - destruct v0; cbn; try (destruct (String.eqb_spec k k0); [contradiction|]); exact (IH k H2).
Qed.
Lemma nodup_filter : forall (d : dict) f, NoDup (map fst d) -> NoDup (map fst (filter f d)).
Proof.
  induction d as [|[k v] d IH]; intros f N; [constructor|]. inversion N; subst. cbn. destruct (f (k, v)); [|now apply IH]. cbn. constructor; [|now apply IH].
  intro I. apply H1. apply in_map_iff in I. destruct I as (x & E & I). apply filter_In in I. destruct I as [I _]. apply in_map_iff. now exists x.
Qed.

(* ----- the order of the bundles ----- *)
Lemma insert_perm : forall {A} p (x : A) l, Permutation (insert_at p x l) (x :: l).
Proof.
  intros A p x l. unfold insert_at. set (n := Z.to_nat _). rewrite <- (firstn_skipn n l) at 3. symmetry. apply Permutation_middle.
Qed.
Lemma ordered_perm : forall bs, Permutation (ordered bs) bs.
Proof.
  intro bs. unfold ordered. enough (H : forall acc, Permutation (fold_left add_bundle bs acc) (acc ++ bs)) by exact (H []).
  induction bs as [|b t IH]; intro acc; cbn [fold_left]; [now rewrite app_nil_r|]. rewrite IH. unfold add_bundle. rewrite insert_perm. apply Permutation_middle.
Qed.
Lemma insert_end : forall {A} p (x : A) l, (Z.of_nat (length l) <= p)%Z -> insert_at p x l = (l ++ [x])%list.
Proof.
  intros A p x l L. unfold insert_at. destruct (Z.ltb_spec p 0); [lia|]. rewrite firstn_all2, skipn_all2 by lia. reflexivity.
Qed.
Lemma ordered_kept : forall bs, (forall i b, nth_error bs i = Some b -> (Z.of_nat i <= place b i)%Z) -> ordered bs = bs.
Proof.
  intros bs. unfold ordered.
  enough (G : forall done, (forall i b, nth_error bs i = Some b -> (Z.of_nat (length done + i) <= place b (length done + i))%Z) ->
                         fold_left add_bundle bs done = (done ++ bs)%list) by (intro H; exact (G [] H)).
  induction bs as [|b t IH]; intros done H; cbn [fold_left]; [now rewrite app_nil_r|].
  unfold add_bundle at 2. pose proof (H 0%nat b eq_refl) as H0. rewrite Nat.add_0_r in H0. rewrite insert_end by exact H0.
  rewrite IH, <- app_assoc; [reflexivity|]. intros i b' E. specialize (H (S i) b' E). rewrite app_length. cbn. now rewrite <- Nat.add_assoc.
Qed.
(* the order of the last band in the name *)
Lemma order_none : forall p, ~ In p (" " :: Bands) -> filter_order p = None.
Proof.
  intros p N. unfold filter_order. cbn [dget].
  repeat (match goal with |- context [String.eqb p ?x] => destruct (String.eqb_spec p x); [subst; exfalso; apply N; cbn; tauto|] end). reflexivity.
Qed.
Lemma some_all_app : forall {A B} (f : A -> option B) a b, some_all f (a ++ b) = (some_all f a ++ some_all f b)%list.
Proof. induction a as [|x a IH]; intro b; cbn; [reflexivity|]. destruct (f x); cbn; now rewrite IH. Qed.
Lemma some_none : forall ps, Forall (fun p => ~ In p (" " :: Bands)) ps ->
  some_all filter_order (filter (fun f => Nat.eqb (String.length f) 1) ps) = [].
Proof.
  induction 1 as [|p ps N _ IH]; [reflexivity|]. cbn [filter]. destruct (Nat.eqb _ _); [|exact IH]. cbn [some_all]. now rewrite (order_none _ N).
Qed.
Lemma nth_bands : forall n f, nth_error Bands n = Some f -> filter_order f = Some (Z.of_nat n) /\ String.length f = 1.
Proof.
  intros n f E. do 6 (destruct n as [|n]; [injection E as <-; now split|]). destruct n; discriminate.
Qed.
Lemma place_band : forall b n k, BandOf (b_root b) n -> place b k = Z.of_nat n.
Proof.
  intros b n k (bef & f & aft & P & E & F). unfold place. rewrite (split_parts _ _ _ P), filter_app, some_all_app.
  apply nth_bands in E. destruct E as [E L]. cbn [filter]. rewrite L. cbn [Nat.eqb some_all]. rewrite E, (some_none _ F).
  set (l := some_all _ _). destruct (l ++ [Z.of_nat n])%list eqn:Q; [now destruct l|]. rewrite <- Q. apply last_last.
Qed.
Lemma place_none : forall b k, NoBand (b_root b) -> place b k = Z.of_nat k.
Proof. intros b k (ps & P & F). unfold place. now rewrite (split_parts _ _ _ P), (some_none _ F). Qed.

(* ----- all-or-nothing maps ----- *)
Lemma map_res_ok : forall {A B} (f : A -> result B) l r, map_res f l = Ok r -> forall i x, nth_error l i = Some x -> exists y, nth_error r i = Some y /\ f x = Ok y.
Proof.
  induction l as [|a t IH]; intros r E i x Hx; [destruct i; discriminate|]. cbn in E. destruct (f a) as [y|] eqn:Ea; [|discriminate]. cbn in E.
  destruct (map_res f t) as [r'|] eqn:Er; [|discriminate]. cbn in E. injection E as <-. destruct i as [|i].
  - injection Hx as ->. now exists y.
  - apply (IH r' eq_refl i x Hx).
Qed.
Lemma map_res_len : forall {A B} (f : A -> result B) l r, map_res f l = Ok r -> length r = length l.
Proof.
  induction l as [|a t IH]; intros r E; cbn in E; [now injection E as <-|]. destruct (f a); [|discriminate]. cbn in E.
  destruct (map_res f t) eqn:Er; [|discriminate]. cbn in E. injection E as <-. cbn. now rewrite (IH _ eq_refl).
Qed.
