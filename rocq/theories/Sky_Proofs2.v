(** Lemmas for the sky brightness: the sum of the components and the magnitudes. *)
From Coq Require Import String Reals ZArith Lra Lia Psatz List Permutation Sorted.
From Verif Require Import Base Depth_Model Depth_Proofs Template_Model Template_Spec Template_Proofs Sky_Model Sky_Spec Sky_Proofs.
Import ListNotations.
Open Scope R_scope.

Lemma good_spec limit p : good limit p = true <-> 1 <= p_airmass p <= limit.
Proof. unfold good. rewrite andb_true_iff, !rleb_true. tauto. Qed.

Lemma scatter_map limit (s r : point -> row) points :
  scatter (map (good limit) points) (map s points) (map r (filter (good limit) points))
  = map (fun p => if good limit p then add_rows (s p) (r p) else s p) points.
Proof.
  induction points as [|p t IH]; [reflexivity|]. cbn [map filter scatter]. destruct (good limit p); cbn [map scatter]; now rewrite IH.
Qed.
Lemma add_rows_map (a b : string -> num) filters : add_rows (map a filters) (map b filters) = map (fun f => nadd (a f) (b f)) filters.
Proof. unfold add_rows. induction filters as [|f t IH]; [reflexivity|]. cbn. now rewrite IH. Qed.
Lemma nadd_assoc a b c : nadd (nadd a b) c = nadd a (nadd b c).
Proof. destruct a, b, c; cbn; try reflexivity. f_equal. ring. Qed.
Lemma nadd_total x l : nadd x (Total l) = Total (x :: l).
Proof. cbn. destruct x, (Total l); reflexivity. Qed.
Lemma nadd_0_r x : nadd x (Some 0) = x. Proof. destruct x; cbn; [f_equal; ring|reflexivity]. Qed.
Lemma nadd_0_l x : nadd (Some 0) x = x. Proof. destruct x; cbn; [f_equal; ring|reflexivity]. Qed.

(** the keys that are switched on *)
Definition on_keys (comps : list (string * bool)) : list string := map fst (filter snd comps).
Lemma on_keys_in comps k : In k (on_keys comps) <-> In (k, true) comps.
Proof.
  unfold on_keys. rewrite in_map_iff. split.
  - intros ([k' b] & <- & I). apply filter_In in I as [I E]. cbn in *. now subst b.
  - intro I. exists (k, true). split; [reflexivity|]. apply filter_In. now split.
Qed.

Definition rows_ok (limit : R) (objs : list (string * component)) (h : string -> point -> string -> num) (comps : list (string * bool)) : Prop :=
  forall k, In (k, true) comps -> dget String.eqb objs k = Some (of_columns (h k)).

Lemma concat_not_nil (h : point -> string -> num) pts filters : pts <> [] -> filters <> [] ->
  exists x l, concat (map (fun p => map (h p) filters) pts) = x :: l.
Proof. intros Np Nf. destruct pts as [|p t]; [now elim Np|]. destruct filters as [|f fs]; [now elim Nf|]. cbn. eauto. Qed.

Lemma add_components_ok limit objs h points filters : forallb known_filter filters = true -> filters <> [] ->
  filter (good limit) points <> [] -> forall comps (a : point -> string -> num) mask, rows_ok limit objs h comps ->
  exists mask', add_components objs (filter (good limit) points) filters (map (good limit) points) comps
      (map (fun p => map (a p) filters) points) mask
    = Ok (inl (map (fun p => map (fun f => if good limit p then nadd (a p f) (Total (map (fun k => h k p f) (on_keys comps))) else a p f) filters) points, mask')).
Proof.
  intros Kf Nf Np comps. induction comps as [|[k b] rest IH]; intros a mask RK.
  - exists mask. cbn. do 3 f_equal. apply map_ext. intro p. apply map_ext. intro f. rewrite nadd_0_r. now destruct (good limit p).
  - assert (RK' : rows_ok limit objs h rest) by (intros k' I; apply RK; now right).
    cbn [add_components]. destruct b.
    + rewrite (RK k (or_introl eq_refl)). unfold of_columns. rewrite Kf. cbn [bind].
      destruct (concat_not_nil (h k) (filter (good limit) points) filters Np Nf) as (x & l & E). rewrite E. clear E x l.
      rewrite scatter_map.
      replace (map (fun p => if good limit p then add_rows (map (a p) filters) (map (h k p) filters) else map (a p) filters) points)
        with (map (fun p => map ((fun p f => if good limit p then nadd (a p f) (h k p f) else a p f) p) filters) points).
      2:{ apply map_ext. intro p. destruct (good limit p); [now rewrite add_rows_map|reflexivity]. }
      destruct (IH (fun p f => if good limit p then nadd (a p f) (h k p f) else a p f)
                  (if max_positive (map (fun p => map (h k p) filters) (filter (good limit) points))
                   then clear_mask mask (map (fun p => map (h k p) filters) (filter (good limit) points)) else mask) RK') as (m' & E).
      exists m'. etransitivity; [exact E|]. do 3 f_equal. apply map_ext. intro p. apply map_ext. intro f.
      destruct (good limit p); [|reflexivity]. cbn [on_keys filter snd map fst]. unfold on_keys. cbn [filter snd map fst]. rewrite <- nadd_total. apply nadd_assoc.
    + destruct (IH a mask RK') as (m' & E). exists m'. rewrite E. unfold on_keys. cbn [filter snd]. reflexivity.
Qed.

Lemma nan_rows_map limit (s : point -> row) points :
  nan_rows (map (good limit) points) (map s points) = map (fun p => if good limit p then s p else map (fun _ => None) (s p)) points.
Proof. unfold nan_rows. induction points as [|p t IH]; [reflexivity|]. cbn. now rewrite IH. Qed.

Definition sky_rows (limit : R) (h : string -> point -> string -> num) (keys filters : list string) (points : list point) : list row :=
  map (fun p => map (fun f => if good limit p then Total (map (fun k => h k p f) keys) else None) filters) points.

Lemma interp_sky_ok limit objs comps h npix filters points : 25/10 < limit -> rows_ok limit objs h comps -> npix = length filters ->
  forallb known_filter filters = true -> filters <> [] -> filter (good limit) points <> [] ->
  interp_sky limit objs comps npix filters points = Ok (sky_rows limit h (on_keys comps) filters points).
Proof.
  intros L RK -> Kf Nf Np. unfold interp_sky.
  replace (map (fun _ : point => repeat (Some 0) (length filters)) points) with (map (fun p : point => map ((fun (_ : point) (_ : string) => Some 0) p) filters) points).
  2:{ apply map_ext. intros _. clear. induction filters as [|f t IH]; cbn; [reflexivity|]. now rewrite IH. }
  destruct (add_components_ok limit objs h points filters Kf Nf Np comps (fun _ _ => Some 0) (map (fun _ => true) points) RK) as (m' & E).
  match type of E with _ = ?rhs => match goal with |- bind ?r _ = _ => replace r with rhs by (symmetry; exact E) end end. cbn [bind]. rewrite (proj2 (rleb_false _ _) L). rewrite nan_rows_map. unfold sky_rows. f_equal. apply map_ext. intro p.
  destruct (good limit p).
  - apply map_ext. intro f. apply nadd_0_l.
  - rewrite map_map. reflexivity.
Qed.

(** ** Small airmass limits *)
Definition all_true (n : nat) : list bool := repeat true n.
Lemma clear_mask_all rows : Forall (fun r => row_zero r = false) rows -> forall n, clear_mask (all_true n) rows = all_true n.
Proof.
  induction rows as [|r t IH]; intros F n; [destruct n; reflexivity|]. inversion F as [|? ? Z F']; subst. destruct n as [|n]; [reflexivity|].
  cbn. rewrite Z. cbn. f_equal. now apply IH.
Qed.
Lemma row_zero_pos (g : string -> num) filters : filters <> [] -> (forall f, In f filters -> exists v, g f = Some v /\ 0 < v) -> row_zero (map g filters) = false.
Proof.
  intros N P. assert (K : exists s, fold_right nadd (Some 0) (map g filters) = Some s /\ 0 <= s /\ (filters <> [] -> 0 < s)).
  { clear N. induction filters as [|f t IH]; [exists 0; cbn; split; [reflexivity|]; split; [lra|now intros []]|].
    destruct IH as (s & E & Ps & _); [intros; apply P; now right|]. destruct (P f (or_introl eq_refl)) as (v & Ev & Pv).
    exists (v + s). cbn. rewrite E, Ev. split; [reflexivity|]. split; [lra|]. intros _. lra. }
  destruct K as (s & E & _ & P'). unfold row_zero. rewrite E. apply reqb_false. pose proof (P' N). lra.
Qed.
Lemma add_components_pos limit objs h points filters : forallb known_filter filters = true -> filters <> [] ->
  filter (good limit) points <> [] -> forall comps (a : point -> string -> num), rows_ok limit objs h comps ->
  (forall k p f, In (k, true) comps -> In p points -> good limit p = true -> In f filters -> exists v, h k p f = Some v /\ 0 < v) ->
  add_components objs (filter (good limit) points) filters (map (good limit) points) comps
      (map (fun p => map (a p) filters) points) (all_true (length points))
    = Ok (inl (map (fun p => map (fun f => if good limit p then nadd (a p f) (Total (map (fun k => h k p f) (on_keys comps))) else a p f) filters) points, all_true (length points))).
Proof.
  intros Kf Nf Np comps. induction comps as [|[k b] rest IH]; intros a RK P.
  - cbn. do 3 f_equal. apply map_ext. intro p. apply map_ext. intro f. rewrite nadd_0_r. now destruct (good limit p).
  - assert (RK' : rows_ok limit objs h rest) by (intros k' I; apply RK; now right).
    cbn [add_components]. destruct b.
    + rewrite (RK k (or_introl eq_refl)). unfold of_columns. rewrite Kf. cbn [bind].
      destruct (concat_not_nil (h k) (filter (good limit) points) filters Np Nf) as (x & l & E). rewrite E. clear E x l.
      rewrite scatter_map.
      replace (map (fun p => if good limit p then add_rows (map (a p) filters) (map (h k p) filters) else map (a p) filters) points)
        with (map (fun p => map ((fun p f => if good limit p then nadd (a p f) (h k p f) else a p f) p) filters) points).
      2:{ apply map_ext. intro p. destruct (good limit p); [now rewrite add_rows_map|reflexivity]. }
      rewrite clear_mask_all.
      2:{ apply Forall_forall. intros r I. apply in_map_iff in I as (p & <- & I). apply filter_In in I as [I G]. apply row_zero_pos; [exact Nf|].
          intros f If. apply P; auto. now left. }
      match goal with |- context [if ?b then all_true ?n else all_true ?n] => replace (if b then all_true n else all_true n) with (all_true n) by (now destruct b) end.
      rewrite (IH (fun p f => if good limit p then nadd (a p f) (h k p f) else a p f) RK'). 2:{ intros; apply P; auto. now right. }
      do 3 f_equal. apply map_ext. intro p. apply map_ext. intro f.
      destruct (good limit p); [|reflexivity]. unfold on_keys. cbn [filter snd map fst]. rewrite <- nadd_total. apply nadd_assoc.
    + rewrite IH; [reflexivity|exact RK'|]. intros; apply P; auto. now right.
Qed.
Lemma all_true_map (points : list point) : map (fun _ : point => true) points = all_true (length points).
Proof. induction points as [|p t IH]; [reflexivity|]. cbn [map length all_true repeat]. rewrite IH. reflexivity. Qed.
Lemma zero_rows_all (l : list row) n : length l = n -> zero_rows (all_true n) l = l.
Proof. intros <-. unfold zero_rows, all_true. induction l as [|r t IH]; [reflexivity|]. cbn [length repeat zip]. now rewrite IH. Qed.
Lemma interp_sky_pos limit objs comps h npix filters points : rows_ok limit objs h comps -> npix = length filters ->
  forallb known_filter filters = true -> filters <> [] -> filter (good limit) points <> [] ->
  (forall k p f, In (k, true) comps -> In p points -> good limit p = true -> In f filters -> exists v, h k p f = Some v /\ 0 < v) ->
  interp_sky limit objs comps npix filters points = Ok (sky_rows limit h (on_keys comps) filters points).
Proof.
  intros RK -> Kf Nf Np P. unfold interp_sky.
  replace (map (fun _ : point => repeat (Some 0) (length filters)) points) with (map (fun p : point => map ((fun (_ : point) (_ : string) => Some 0) p) filters) points).
  2:{ apply map_ext. intros _. clear. induction filters as [|f t IH]; cbn; [reflexivity|]. now rewrite IH. }
  rewrite (all_true_map points).
  pose proof (add_components_pos limit objs h points filters Kf Nf Np comps (fun _ _ => Some 0) RK P) as E. match type of E with _ = ?rhs => match goal with |- bind ?r _ = _ => replace r with rhs by (symmetry; exact E) end end. cbn [bind].
  assert (Z : forall l : list row, length l = length points -> (if rleb limit (25/10) then zero_rows (all_true (length points)) l else l) = l).
  { intros l Ll. destruct (rleb limit (25/10)); [now apply zero_rows_all|reflexivity]. }
  rewrite Z by now rewrite map_length. rewrite nan_rows_map. unfold sky_rows. f_equal. apply map_ext. intro p.
  destruct (good limit p).
  - apply map_ext. intro f. apply nadd_0_l.
  - rewrite map_map. reflexivity.
Qed.

(** ** Magnitudes *)
Lemma by_filter_map (g : point -> string -> mag) points : forall fs pre, by_filter (length pre) fs (map (fun p => map (g p) (pre ++ fs)) points)
  = Ok (map (fun f => (f, map (fun p => g p f) points)) fs).
Proof.
  induction fs as [|f fs IH]; intro pre; [reflexivity|]. cbn [by_filter].
  assert (C : col (length pre) (map (fun p => map (g p) (pre ++ f :: fs)) points) = Ok (map (fun p => g p f) points)).
  { unfold col. replace (forallb _ _) with true.
    2:{ symmetry. apply forallb_forall. intros r I. apply in_map_iff in I as (p & <- & I). rewrite map_length, app_length. cbn. apply Nat.ltb_lt. lia. }
    f_equal. rewrite map_map. apply map_ext. intro p. rewrite map_app, app_nth2 by (rewrite map_length; lia). rewrite map_length, Nat.sub_diag. reflexivity. }
  rewrite C. cbn [bind]. specialize (IH (pre ++ [f])). rewrite app_length in IH. cbn in IH. rewrite Nat.add_1_r in IH.
  rewrite <- app_assoc in IH. cbn in IH. rewrite IH. reflexivity.
Qed.
Lemma mask_mags_map limit (g : point -> list mag) points :
  mask_mags (map (good limit) points) (map g points) = Ok (map (fun p => if good limit p then g p else map (fun _ => MNan) (g p)) points).
Proof. induction points as [|p t IH]; [reflexivity|]. cbn. rewrite IH. cbn. now destruct (good limit p). Qed.

Definition mag_table (limit : R) (h : string -> point -> string -> num) (keys filters : list string) (points : list point) : list (string * list mag) :=
  map (fun f => (f, map (fun p => mag_of (if good limit p then Total (map (fun k => h k p f) keys) else None)) points)) filters.
Lemma return_mags_ok o points h keys filters : s_points o = Some points -> s_filters o = filters ->
  s_spec o = Some (sky_rows (s_limit o) h keys filters points) -> return_mags o = Ok (mag_table (s_limit o) h keys filters points).
Proof.
  intros Ep Ef Es. unfold return_mags. rewrite Ep, Es, Ef. unfold sky_rows. rewrite map_map. rewrite mask_mags_map. cbn [bind].
  set (g := fun p f => mag_of (if good (s_limit o) p then Total (map (fun k => h k p f) keys) else None)).
  match goal with |- by_filter 0 _ ?l = _ => replace l with (map (fun p => map (g p) ([] ++ filters)) points) end.
  - change O with (length (@nil string)). apply by_filter_map.
  - apply map_ext. intro p. cbn [app]. unfold g. rewrite !map_map. destruct (good (s_limit o) p); reflexivity.
Qed.
