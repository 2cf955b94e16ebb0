(** Lemmas about the visits of the microlensing metric and counts of pairs. *)
From Coq Require Import String Reals Lra Lia List Bool Permutation.
From Verif Require Import Base Depth_Model Template_Model Sky_Proofs Plane_Spec Plane_Props Micro_Model Micro_Spec Micro_Props.
From Verif Require Web_Model Web_Proofs Pop_Props2 Astrom_Model.
Import ListNotations.
Open Scope R_scope.

(** ** Dictionaries *)
Lemma entry_get d k x : Entry d k x <-> dget String.eqb d k = Some x.
Proof.
  split.
  - induction 1 as [|k k' x y d N E IH]; cbn; [ rewrite String.eqb_refl; reflexivity | ].
    destruct (String.eqb k k') eqn:Q; [ apply String.eqb_eq in Q; congruence | exact IH ].
  - induction d as [|[k' y] d IH]; cbn; [ discriminate | ]. destruct (String.eqb k k') eqn:Q.
    + apply String.eqb_eq in Q. subst. injection 1 as ->. constructor.
    + intro H. constructor; [ intros ->; rewrite String.eqb_refl in Q; discriminate | apply IH, H ].
Qed.
Lemma noentry_get d k : NoEntry d k <-> dget String.eqb d k = None.
Proof.
  unfold NoEntry. induction d as [|[k' y] d IH]; cbn; [ split; auto | ]. destruct (String.eqb k k') eqn:Q.
  - apply String.eqb_eq in Q. subst. split; [ intro H; exfalso; apply (H y); auto | discriminate ].
  - rewrite <- IH. split; intros H x K; apply (H x); [ auto | ]. destruct K as [K|K]; auto. injection K as -> ->. rewrite String.eqb_refl in Q. discriminate.
Qed.
Lemma entry_unique d k x y : Entry d k x -> Entry d k y -> x = y.
Proof. rewrite !entry_get. congruence. Qed.

(** ** Times *)
Lemma least_spec x l : (least x l = x \/ In (least x l) l) /\ least x l <= x /\ forall y, In y l -> least x l <= y.
Proof.
  unfold least. induction l as [|a l (M & L & B)]; cbn; [ repeat split; auto; [ lra | contradiction ] | ].
  repeat split.
  - destruct (Rle_dec a (fold_right Rmin x l)); [ rewrite Rmin_left by lra; auto | rewrite Rmin_right by lra; destruct M as [M|M]; auto ].
  - pose proof (Rmin_r a (fold_right Rmin x l)). lra.
  - intros y [->|K]; [ apply Rmin_l | ]. pose proof (Rmin_r a (fold_right Rmin x l)). specialize (B y K). lra.
Qed.
Lemma times_first l first : First l first -> times l = Ok (map (fun v => v_mjd v - first) l).
Proof.
  intros [(v & I & E) B]. destruct l as [|w r]; [ contradiction | ]. unfold times. f_equal. set (n := least (v_night w) (map v_night r)). clearbody n.
  cbv zeta. set (f := fun u => v_mjd u - n). change (map (fun w0 => v_mjd w0 - n) (w :: r)) with (map f (w :: r)). rewrite map_map.
  assert (Q : least (hd 0 (map f (w :: r))) (tl (map f (w :: r))) = first - n).
  { cbn [map hd tl]. destruct (least_spec (f w) (map f r)) as (M & L & K). apply Rle_antisym.
    - rewrite <- E. destruct I as [<-|I]; [ exact L | ]. apply K. apply (in_map f), I.
    - destruct M as [->|M]; [ | apply in_map_iff in M; destruct M as (u & <- & Iu) ]; unfold f; [ specialize (B w (or_introl eq_refl)) | specialize (B u (or_intror Iu)) ]; lra. }
  rewrite Q. apply map_ext. intro u. unfold f. lra.
Qed.
Lemma first_exists l : l <> [] -> exists x, First l x.
Proof.
  intro N. destruct l as [|v r]; [ congruence | ]. exists (least (v_mjd v) (map v_mjd r)). destruct (least_spec (v_mjd v) (map v_mjd r)) as (M & L & K). split.
  - destruct M as [M|M]; [ exists v; rewrite M; split; [ left | ]; reflexivity | ]. apply in_map_iff in M. destruct M as (u & E & I). exists u. rewrite E. split; [ right | ]; auto.
  - intros u [->|I]; [ exact L | apply K, in_map, I ].
Qed.
(** ** Points *)
Lemma amplified_shows mags sp e t band m : read sp = Ok e -> (amplified mags e t band = Ok m <-> Shows mags sp t band m).
Proof.
  unfold read, lookup. intro R.
  destruct (dget String.eqb sp "impact_parameter"%string) as [u0|] eqn:Eu; cbn [bind] in R; [ | discriminate ].
  destruct (dget String.eqb sp "crossing_time"%string) as [te|] eqn:Ec; cbn [bind] in R; [ | discriminate ].
  destruct (dget String.eqb sp "peak_time"%string) as [t0|] eqn:Ep; cbn [bind] in R; [ | discriminate ]. injection R as <-. unfold amplified. cbn [ev_own ev_blend ev_u0 ev_te ev_peak].
  change (no_blend_key "u"%string) with "apparent_m_no_blend_u"%string.
  destruct (dget String.eqb sp "apparent_m_no_blend_u"%string) as [mu|] eqn:Eo.
  - unfold own, lookup, no_blend_key, total_key. split.
    + destruct (dget String.eqb sp ("apparent_m_no_blend_" ++ band)%string) as [a|] eqn:Ea; cbn [bind fst snd]; [ | discriminate ].
      destruct (dget String.eqb sp ("apparent_m_" ++ band)%string) as [b|] eqn:Eb; cbn [bind fst snd]; [ | discriminate ]. injection 1 as <-.
      unfold amplified_fsfb, log10. replace (4 / 10) with (2 / 5) by lra.
      replace (magnification (separation u0 te t0 t)) with (amplification u0 te t0 1 t) by (unfold amplification; ring).
      apply (S_own mags sp t band mu a b u0 te t0); apply entry_get; assumption.
    + intro S. destruct S as [m u0' te' t0' A B C D E F|m u0' te' t0' b A B C D E F|mu' m n u0' te' t0' A B C D E F];
        try (apply noentry_get in A; congruence).
      apply entry_get in A, B, C, D, E, F. rewrite B. cbn [bind fst snd]. rewrite C. cbn [bind fst snd]. rewrite Eu in D. rewrite Ec in E. rewrite Ep in F. injection D as ->. injection E as ->. injection F as ->.
      unfold amplified_fsfb, log10. replace (4 / 10) with (2 / 5) by lra.
      replace (magnification (separation u0' te' t0' t)) with (amplification u0' te' t0' 1 t) by (unfold amplification; ring). reflexivity.
  - unfold lookup. split.
    + destruct (dget String.eqb mags band) as [x|] eqn:Em; cbn [bind fst snd]; [ | discriminate ]. injection 1 as <-. unfold log10.
      destruct (dget String.eqb sp "blending_factor"%string) as [b|] eqn:Eb.
      * apply (S_blend mags sp t band x u0 te t0 b); try (apply entry_get; assumption). apply noentry_get; assumption.
      * apply (S_mean mags sp t band x u0 te t0); try (apply entry_get; assumption); apply noentry_get; assumption.
    + intro S. destruct S as [m u0' te' t0' A B C D E F|m u0' te' t0' b A B C D E F|mu' m n u0' te' t0' A B C D E F];
        [ apply noentry_get in B | apply entry_get in B | apply entry_get in A; congruence ];
        apply entry_get in C, D, E, F; rewrite C; cbn [bind fst snd]; rewrite B; rewrite Eu in D; rewrite Ec in E; rewrite Ep in F; injection D as ->; injection E as ->; injection F as ->; reflexivity.
Qed.
Lemma shows_read mags sp t band m : Shows mags sp t band m -> exists e u0 te t0, read sp = Ok e /\ ev_u0 e = u0 /\ ev_te e = te /\ ev_peak e = t0 /\
  Entry sp "impact_parameter" u0 /\ Entry sp "crossing_time" te /\ Entry sp "peak_time" t0.
Proof.
  intro S. assert (K : exists u0 te t0, Entry sp "impact_parameter" u0 /\ Entry sp "crossing_time" te /\ Entry sp "peak_time" t0)
    by (destruct S; do 3 eexists; repeat split; eassumption).
  destruct K as (u0 & te & t0 & A & B & C). unfold read, lookup. do 4 eexists. pose proof A as A'. pose proof B as B'. pose proof C as C'. apply entry_get in A', B', C'.
  rewrite A', B', C'. cbn. repeat split; assumption.
Qed.
(** what a visit is worth *)
Definition point_of (M : lens_visit -> R) (first : R) (v : lens_visit) : point :=
  {| o_t := v_mjd v - first; o_mag := M v; o_unc := Error (M v) (v_m5 v); o_snr := Ratio (M v) (v_m5 v); o_band := v_band v |}.
Lemma points_shows mags sp l first M : First l first -> (forall v, In v l -> Shows mags sp (v_mjd v - first) (v_band v) (M v)) ->
  exists e u0 te t0, points mags sp l = Ok (e, map (point_of M first) l) /\ read sp = Ok e /\ ev_u0 e = u0 /\ ev_te e = te /\ ev_peak e = t0 /\
    Entry sp "impact_parameter" u0 /\ Entry sp "crossing_time" te /\ Entry sp "peak_time" t0.
Proof.
  intros F S. destruct F as [(v & I & E) B] eqn:FF. destruct (shows_read _ _ _ _ _ (S v I)) as (e & u0 & te & t0 & R & K).
  exists e, u0, te, t0. split; [ | split; [ exact R | exact K ] ]. unfold points. rewrite (times_first l first F). cbn [bind]. rewrite R. cbn [bind].
  assert (G : each (observed mags e) (combine l (map (fun v => v_mjd v - first) l)) = Ok (map (point_of M first) l)).
  { clear FF F I E B. revert S. induction l as [|w l IH]; intro S; [ reflexivity | ]. cbn [map combine each]. unfold observed at 1. cbn [fst snd].
    rewrite (proj2 (amplified_shows mags sp e _ _ _ R) (S w (or_introl eq_refl))). cbn [bind].
    rewrite IH by (intros; apply S; right; assumption). cbn [bind]. unfold point_of at 2, Error, Ratio, log10. rewrite !Pop_Props2.snr_pow. reflexivity. }
  rewrite G. reflexivity.
Qed.
(** ** Pairs *)
Fixpoint pairs {A} (g : A -> A -> bool) (l : list A) : nat := match l with [] => 0%nat | x :: t => (length (filter (g x) t) + pairs g t)%nat end.
Lemma pairs_spec {A} (P : A -> A -> Prop) (g : A -> A -> bool) l : (forall x y, g x y = true <-> P x y) -> Pairs P l (pairs g l).
Proof. intro H. induction l as [|x t IH]; [ constructor | ]. cbn. constructor; [ apply countP_filter; intro; apply H | exact IH ]. Qed.
Lemma countP_unique {A} (P : A -> Prop) l n m : CountP P l n -> CountP P l m -> n = m.
Proof. intro H. revert m. induction H; intros m K; inversion K; subst; try tauto; f_equal; auto. Qed.
Lemma pairs_unique {A} (P : A -> A -> Prop) l n m : Pairs P l n -> Pairs P l m -> n = m.
Proof.
  intro H. revert m. induction H as [|x l n m C H IH]; intros k K; inversion K; subst; auto. f_equal; [ eapply countP_unique; eassumption | auto ].
Qed.
Lemma pairs_ext {A} (g h : A -> A -> bool) l : (forall x y, g x y = h x y) -> pairs g l = pairs h l.
Proof. intro E. induction l as [|x t IH]; cbn; auto. rewrite IH. f_equal. f_equal. apply filter_ext. intro; apply E. Qed.
Lemma pairs_map {A B} (f : A -> B) (g : B -> B -> bool) l : pairs g (map f l) = pairs (fun x y => g (f x) (f y)) l.
Proof.
  induction l as [|x t IH]; cbn; auto. rewrite IH. f_equal. clear IH. induction t as [|y t IH]; cbn; auto. destruct (g (f x) (f y)); cbn; rewrite IH; reflexivity.
Qed.
Lemma filter_both {A} (h g : A -> bool) l : filter g (filter h l) = filter (fun x => h x && g x) l.
Proof. induction l as [|x t IH]; cbn; auto. destruct (h x) eqn:E; cbn; [ destruct (g x); rewrite IH; reflexivity | exact IH ]. Qed.
Lemma filter_none {A} (l : list A) : filter (fun _ => false) l = [].
Proof. induction l; auto. Qed.
Lemma pairs_filter {A} (h : A -> bool) (g : A -> A -> bool) l : pairs g (filter h l) = pairs (fun x y => h x && (h y && g x y)) l.
Proof.
  induction l as [|x t IH]; cbn; auto. destruct (h x) eqn:E; cbn; rewrite IH; [ rewrite filter_both; reflexivity | ].
  rewrite filter_none. reflexivity.
Qed.
Definition nsum (l : list nat) : nat := fold_right Nat.add 0%nat l.
Lemma nsum_add {A} (f g : A -> nat) l : nsum (map (fun x => (f x + g x)%nat) l) = (nsum (map f l) + nsum (map g l))%nat.
Proof. induction l as [|x t IH]; cbn; auto. unfold nsum in IH. rewrite IH. lia. Qed.
Lemma nsum_zero {A} (f : A -> nat) l : (forall x, In x l -> f x = 0%nat) -> nsum (map f l) = 0%nat.
Proof. induction l as [|x t IH]; intro H; auto. change ((f x + nsum (map f t))%nat = 0%nat). rewrite (H x), IH; auto; [ intros; apply H; right; assumption | left; reflexivity ]. Qed.
Lemma nsum_one (fs : list string) (b : string) (f : string -> nat) : NoDup fs -> In b fs -> (forall x, x <> b -> f x = 0%nat) -> nsum (map f fs) = f b.
Proof.
  intros ND I Z. induction ND as [|a fs NI ND IH]; [ contradiction | ]. change ((f a + nsum (map f fs))%nat = f b). destruct I as [->|I].
  - replace (nsum (map f fs)) with 0%nat; [ lia | ]. symmetry. apply nsum_zero. intros x K. apply Z. intros ->. contradiction.
  - rewrite (Z a) by (intros ->; contradiction). apply IH, I.
Qed.
(** a pair within a band belongs to one band *)
Lemma pairs_bands {A} (band : A -> string) (g : A -> A -> bool) (fs : list string) l : NoDup fs -> (forall x, In x l -> In (band x) fs) ->
  nsum (map (fun f => pairs g (filter (fun x => String.eqb (band x) f) l)) fs) = pairs (fun x y => String.eqb (band x) (band y) && g x y) l.
Proof.
  intros ND H. induction l as [|x t IH]; [ apply nsum_zero; reflexivity | ].
  cbn [pairs]. rewrite <- IH by (intros; apply H; right; assumption).
  transitivity (nsum (map (fun f => ((if String.eqb (band x) f then length (filter (g x) (filter (fun y => String.eqb (band y) f) t)) else 0) + pairs g (filter (fun y => String.eqb (band y) f) t))%nat) fs)).
  - f_equal. apply map_ext. intro f. cbn [filter]. destruct (String.eqb (band x) f); reflexivity.
  - rewrite nsum_add. f_equal. rewrite (nsum_one fs (band x)); [ | assumption | apply H; left; reflexivity | ].
    + rewrite String.eqb_refl, filter_both. f_equal. apply filter_ext. intro y. rewrite (String.eqb_sym (band y)). reflexivity.
    + intros f N. destruct (String.eqb (band x) f) eqn:E; auto. apply String.eqb_eq in E. congruence.
Qed.
Lemma count_bands {A} (band : A -> string) (g : A -> bool) (fs : list string) l : NoDup fs -> (forall x, In x l -> In (band x) fs) ->
  nsum (map (fun f => length (filter g (filter (fun x => String.eqb (band x) f) l))) fs) = length (filter g l).
Proof.
  intros ND H. induction l as [|x t IH]; [ apply nsum_zero; reflexivity | ].
  transitivity (nsum (map (fun f => ((if String.eqb (band x) f then (if g x then 1 else 0) else 0) + length (filter g (filter (fun y => String.eqb (band y) f) t)))%nat) fs)).
  - f_equal. apply map_ext. intro f. cbn [filter]. destruct (String.eqb (band x) f); cbn [filter]; [ destruct (g x); reflexivity | reflexivity ].
  - rewrite nsum_add, IH by (intros; apply H; right; assumption). rewrite (nsum_one fs (band x)); [ | assumption | apply H; left; reflexivity | ].
    + rewrite String.eqb_refl. cbn [filter]. destruct (g x); reflexivity.
    + intros f N. destruct (String.eqb (band x) f) eqn:E; auto. apply String.eqb_eq in E. congruence.
Qed.
(** ordered pairs are twice as many *)
Lemma prod_cons {A} (g : A * A -> bool) (l m : list A) x : length (filter g (list_prod l (x :: m))) = (length (filter (fun y => g (y, x)) l) + length (filter g (list_prod l m)))%nat.
Proof.
  induction l as [|a l IH]; [ reflexivity | ]. cbn [list_prod]. rewrite !filter_app, !app_length, IH. cbn [map filter].
  destruct (g (a, x)); cbn [length]; lia.
Qed.
Lemma filter_map_pair {A} (g : A * A -> bool) x (l : list A) : length (filter g (map (fun y => (x, y)) l)) = length (filter (fun y => g (x, y)) l).
Proof. induction l as [|y l IH]; cbn; auto. destruct (g (x, y)); cbn; rewrite IH; reflexivity. Qed.
Lemma prod_pairs {A} (g : A -> A -> bool) l : (forall x y, g x y = g y x) -> (forall x, g x x = false) ->
  length (filter (fun p => g (fst p) (snd p)) (list_prod l l)) = (2 * pairs g l)%nat.
Proof.
  intros Sy Ir. induction l as [|x t IH]; [ reflexivity | ]. cbn [list_prod pairs]. rewrite filter_app, app_length, filter_map_pair, prod_cons, IH.
  cbn [fst snd filter]. rewrite Ir. rewrite (filter_ext (fun y => g y x) (g x)) by (intro; apply Sy). change (fun y => g x y) with (g x). lia.
Qed.
Lemma rsum_INR {A} (f : A -> nat) l : rsum (map (fun x => INR (f x)) l) = INR (nsum (map f l)).
Proof. induction l as [|x t IH]; cbn; auto. unfold rsum, nsum in IH. rewrite IH, <- plus_INR. reflexivity. Qed.
Lemma ratio_pos m m5 : 0 < Ratio m m5.
Proof. unfold Ratio. apply Rmult_lt_0_compat; [ lra | apply exp_pos ]. Qed.
Lemma error_pos m m5 : 0 < Error m m5.
Proof.
  unfold Error. apply Rmult_lt_0_compat; [ lra | ]. apply Rdiv_lt_0_compat; rewrite <- ln_1; apply ln_increasing; try lra.
  pose proof (ratio_pos m m5). assert (0 < 1 / Ratio m m5) by (apply Rdiv_lt_0_compat; lra). lra.
Qed.
Lemma above_sym sigma p q : above sigma p q = above sigma q p.
Proof. unfold above. rewrite Rabs_minus_sym. f_equal. f_equal. f_equal. ring. Qed.
Lemma above_irr sigma p : 0 <= sigma -> above sigma p p = false.
Proof. intro H. unfold above. apply rltb_false. rewrite Rminus_diag_eq, Rabs_R0 by reflexivity. unfold Rdiv. rewrite Rmult_0_l. assumption. Qed.
Lemma n_above_pairs sigma l : 0 <= sigma -> n_above sigma l = INR (pairs (above sigma) l).
Proof. intro H. unfold n_above. rewrite prod_pairs; [ rewrite mult_INR; simpl; lra | apply above_sym | intro; apply above_irr, H ]. Qed.
Lemma bands_nodup l : NoDup (bands l).
Proof. apply Web_Proofs.unique_nodup. Qed.
Lemma bands_in l p : In p l -> In (o_band p) (bands l).
Proof. intro H. apply Web_Proofs.unique_in, in_map, H. Qed.
(** the number that is compared with pts_needed *)
Lemma npts_pairs sigma (h : point -> bool) l : 0 <= sigma ->
  rsum (map (fun f => n_above sigma (filter h (of_band f l))) (bands l)) =
  INR (pairs (fun x y => String.eqb (o_band x) (o_band y) && (h x && (h y && above sigma x y))) l).
Proof.
  intro H. rewrite <- (pairs_bands o_band (fun x y => h x && (h y && above sigma x y)) (bands l) l (bands_nodup l) (bands_in l)).
  rewrite <- rsum_INR. f_equal. apply map_ext. intro f. rewrite n_above_pairs by assumption. unfold of_band. rewrite pairs_filter. reflexivity.
Qed.
