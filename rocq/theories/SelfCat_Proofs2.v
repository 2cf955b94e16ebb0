(** Proofs: the catalogue visit by visit. *)
From Coq Require Import Reals Lra Lia.
From Verif Require Import Base Astrom_Model Orbits_Model DirectObs_Spec DirectObs_Proofs SelfCat_Model SelfCat_Spec SelfCat_Proofs.
Open Scope R_scope.

Lemma all_ok_forall2 : forall {A} (l : list (result A)) r, all_ok l = Ok r -> Forall2 (fun x y => x = Ok y) l r.
Proof.
  induction l as [|x l IH]; intros r E; [injection E as <-; constructor|]. cbn [all_ok] in E. destruct x as [x|]; [|discriminate E]. cbn [bind] in E.
  destruct (all_ok l) as [y|]; [|discriminate E]. injection E as <-. constructor; [reflexivity|]. apply IH. reflexivity.
Qed.
Lemma forall2_all_ok : forall {A} (l : list (result A)) r, Forall2 (fun x y => x = Ok y) l r -> all_ok l = Ok r.
Proof. intros A l r F. induction F as [|x y l r E F IH]; [reflexivity|]. cbn [all_ok]. rewrite E, IH. reflexivity. Qed.
Lemma forall2_map_l : forall {A B C} (f : A -> B) (P : B -> C -> Prop) l r, Forall2 P (map f l) r <-> Forall2 (fun x => P (f x)) l r.
Proof.
  intros A B C f P l. induction l as [|x l IH]; intros r; split; intros F; inversion F; subst; try constructor; try assumption; apply IH; assumption.
Qed.

Section Catalogue.
  Context (proj : R -> R -> R -> R -> R * R) (stars : list star) (offs : list offset) (band : string) (n : Z) (radius fl : R).
  Let cat (visits : list visit) := generate_catalog proj visits stars (Some offs) band n radius fl.
  Let obs := observe proj stars offs band n radius fl.

  Lemma cat_one : forall v b, cat [v] = Ok (Some b) <-> build_tree stars = Ok tt /\ obs v = Ok b.
  Proof.
    intros v b. unfold cat, obs, generate_catalog. destruct (build_tree stars) as [[]|e]; [|split; [discriminate|intros [X _]; discriminate X]]. cbn [bind map all_ok].
    destruct (observe proj stars offs band n radius fl v) as [x|e]; cbn [bind concat].
    - rewrite app_nil_r. split; [intros E; injection E as <-; split; reflexivity|intros [_ E]; injection E as <-; reflexivity].
    - split; [discriminate|intros [_ X]; discriminate X].
  Qed.
  Lemma cat_many : forall visits rows, cat visits = Ok (Some rows) <->
    visits <> [] /\ exists blocks, rows = concat blocks /\ Forall2 (fun v b => cat [v] = Ok (Some b)) visits blocks.
  Proof.
    intros visits rows. split.
    - intros E. unfold cat, generate_catalog in E. destruct (build_tree stars) as [[]|e] eqn:T; [|discriminate E]. cbn [bind] in E.
      destruct (all_ok (map (observe proj stars offs band n radius fl) visits)) as [l|] eqn:A; [|discriminate E]. cbn [bind] in E.
      apply all_ok_forall2 in A. apply forall2_map_l in A. split.
      + intros ->. inversion A. subst l. discriminate E.
      + exists l. split; [destruct l; [discriminate E|injection E as <-; reflexivity]|].
        clear - A T obs. induction A as [|v b vs bs V A IH]; constructor; [|exact IH]. apply cat_one. split; [exact T|exact V].
    - intros [N [blocks [-> F]]]. unfold cat, generate_catalog.
      assert (T : build_tree stars = Ok tt) by (destruct F as [|v b vs bs V F]; [destruct (N eq_refl)|]; apply cat_one in V; apply V). rewrite T. cbn [bind].
      rewrite (forall2_all_ok _ blocks).
      + cbn [bind]. destruct F; [destruct (N eq_refl)|reflexivity].
      + apply forall2_map_l. clear - F obs. induction F as [|v b vs bs V F IH]; constructor; [|exact IH]. apply cat_one in V. apply V.
  Qed.

  Lemma obs_inv : forall v b, obs v = Ok b -> exists dmags m,
    let seen := map (assign_patch proj v n 1.8) (filter (in_ball radius v) stars) in
    call_offsets offs seen v [] = Ok dmags /\ add_all (map (fun f => s_mag (f_star f) band) seen) dmags = Ok m /\ length m = length seen /\
    b = map (fun q => let '(f, m) := q in
          {| r_id := s_id (f_star f); r_patch := f_patch f; r_obs := m; r_unc := sqrt ((mag_error m (v_m5 v)) ^ 2 + fl ^ 2);
             r_mag := s_mag (f_star f) band; r_ra := s_ra (f_star f); r_dec := s_dec (f_star f) |}) (combine seen m).
  Proof.
    intros v b E. unfold obs, observe in E. cbv zeta in *. set (seen := map (assign_patch proj v n 1.8) (filter (in_ball radius v) stars)) in *.
    destruct (call_offsets offs seen v []) as [dm|] eqn:C; [|discriminate E]. cbn [bind] in E.
    destruct (add_all (map (fun f => s_mag (f_star f) band) seen) dm) as [m|] eqn:A; [|discriminate E]. cbn [bind] in E. injection E as <-.
    exists dm, m. repeat split; [exact A|]. apply add_all_length in A. rewrite map_length in A. exact A.
  Qed.
  Lemma assign_star : forall v s, f_star (assign_patch proj v n 1.8 s) = s.
  Proof. intros v s. unfold assign_patch. destruct (project proj v s). reflexivity. Qed.
  Lemma map_star : forall v l, map f_star (map (assign_patch proj v n 1.8) l) = l.
  Proof. intros v l. rewrite map_map. induction l as [|s l IH]; [reflexivity|]. cbn [map]. rewrite assign_star, IH. reflexivity. Qed.
  Lemma forall2_combine : forall {A B C} (P : A -> C -> Prop) (g : A * B -> C) l m, length m = length l -> (forall x y, In x l -> P x (g (x, y))) -> Forall2 P l (map g (combine l m)).
  Proof.
    intros A B C P g l. induction l as [|x l IH]; intros [|y m] L H; try discriminate L; [constructor|]. cbn [combine map]. constructor; [apply H; left; reflexivity|].
    apply IH; [cbn in L; lia|]. intros a b I. apply H. right. exact I.
  Qed.
  Lemma obs_stars : forall v b, obs v = Ok b -> Forall2 (of_star band) (filter (in_ball radius v) stars) b.
  Proof.
    intros v b E. apply obs_inv in E. destruct E as [dm [m [_ [_ [L ->]]]]].
    assert (F : Forall2 (fun f r => of_star band (f_star f) r) (map (assign_patch proj v n 1.8) (filter (in_ball radius v) stars))
      (map (fun q => let '(f, m) := q in
          {| r_id := s_id (f_star f); r_patch := f_patch f; r_obs := m; r_unc := sqrt ((mag_error m (v_m5 v)) ^ 2 + fl ^ 2);
             r_mag := s_mag (f_star f) band; r_ra := s_ra (f_star f); r_dec := s_dec (f_star f) |}) (combine (map (assign_patch proj v n 1.8) (filter (in_ball radius v) stars)) m))).
    { apply forall2_combine; [exact L|]. intros f y _. repeat split. }
    rewrite <- (map_star v (filter (in_ball radius v) stars)) at 1. apply forall2_map_l. exact F.
  Qed.
  Lemma obs_patches : forall v b, obs v = Ok b -> Forall2 (fun s r => r_patch r = f_patch (assign_patch proj v n 1.8 s)) (filter (in_ball radius v) stars) b.
  Proof.
    intros v b E. apply obs_inv in E. destruct E as [dm [m [_ [_ [L ->]]]]].
    apply (proj1 (forall2_map_l (assign_patch proj v n 1.8) (fun f r => r_patch r = f_patch f) _ _)). apply forall2_combine; [exact L|]. intros f y _. reflexivity.
  Qed.
  Lemma obs_unc : forall v b r, obs v = Ok b -> In r b -> r_unc r = sqrt (error_at (r_obs r) (v_m5 v) ^ 2 + fl ^ 2).
  Proof.
    intros v b r E I. apply obs_inv in E. destruct E as [dm [m [_ [_ [L ->]]]]]. apply in_map_iff in I. destruct I as [[f y] [<- I]]. cbn [r_unc r_obs]. rewrite mag_error_at. reflexivity.
  Qed.
  Lemma nth_combine_map : forall {A B C} (g : A * B -> C) l m j a b c, length m = length l -> (j < length l)%nat -> nth j (map g (combine l m)) c = g (nth j l a, nth j m b).
  Proof.
    intros A B C g l. induction l as [|x l IH]; intros [|y m] [|j] a b c L J; try discriminate L; cbn in J; try lia; [reflexivity|].
    cbn [combine map nth]. apply IH; [cbn in L; lia|lia].
  Qed.
  Lemma obs_sum : forall v b, obs v = Ok b -> NoDup (map newkey offs) ->
    (forall o seen prev d, In o offs -> call o seen v prev = Ok d -> exists l, d = Plain l) ->
    exists seen ds, map f_star seen = filter (in_ball radius v) stars /\ called seen v offs [] ds /\
      forall j r, nth_error b j = Some r -> r_obs r = r_mag r + total (map (fun d => nth j d 0) ds).
  Proof.
    intros v b E N P. apply obs_inv in E. destruct E as [dm [m [C [A [L ->]]]]]. set (seen := map (assign_patch proj v n 1.8) (filter (in_ball radius v) stars)) in *.
    destruct (call_called seen v offs [] [] dm eq_refl N (fun o prev d I => P o seen prev d I) C) as [ds [-> [LD CD]]]. cbn [app combine map] in *.
    apply add_all_added in A; [|rewrite map_length; symmetry; exact LD]. destruct A as [-> F]. rewrite map_length in F.
    exists seen, ds. split; [apply map_star|]. split; [apply CD; exact F|]. intros j r J.
    assert (JL : (j < length seen)%nat).
    { assert (X : nth_error (map (fun q => let '(f, m) := q in
          {| r_id := s_id (f_star f); r_patch := f_patch f; r_obs := m; r_unc := sqrt ((mag_error m (v_m5 v)) ^ 2 + fl ^ 2);
             r_mag := s_mag (f_star f) band; r_ra := s_ra (f_star f); r_dec := s_dec (f_star f) |}) (combine seen (added (map (fun f => s_mag (f_star f) band) seen) ds))) j <> None) by (rewrite J; discriminate).
       apply nth_error_Some in X; rewrite map_length, combine_length, L, Nat.min_id in X; exact X. }
    rewrite nth_error_map in J. destruct (nth_error (combine seen (added (map (fun f => s_mag (f_star f) band) seen) ds)) j) as [[f y]|] eqn:Q; [|discriminate J].
    cbn [option_map] in J. injection J as <-. cbn [r_obs r_mag].
    apply nth_error_nth with (d := (f, 0)) in Q. rewrite combine_nth in Q by (rewrite added_length; rewrite ?map_length; [reflexivity|exact F]). injection Q as QF QY.
    rewrite <- QY, added_nth by (rewrite map_length; exact F). f_equal.
    rewrite (nth_indep _ 0 (s_mag (f_star f) band)) by (rewrite map_length; exact JL).
    rewrite (map_nth (fun g => s_mag (f_star g) band)). rewrite QF. reflexivity.
  Qed.
End Catalogue.
