(** Lemmas on the model of the metrics of periodic stars. *)
From Coq Require Import Ascii String.
From Verif Require Import Base Period_Model Period_Spec.
From Verif Require Plane_Spec Depth_Model Astrom_Model Astrom_Proofs2 Pop_Props2.
From Coq Require Import Reals Lra Lia List.
Import ListNotations.
Open Scope R_scope.

(** *** bands *)
Lemma index_place b i : band_index b = Some i <-> Place b i.
Proof.
  unfold band_index. split.
  - intros H.
    repeat match type of H with
    | (if String.eqb b ?s then _ else _) = _ => destruct (String.eqb_spec b s); [subst b; injection H as <-; constructor|]
    end. discriminate.
  - intros H. destruct H; reflexivity.
Qed.
Lemma place_lt b i : Place b i -> (i < 6)%nat.
Proof. intros H; destruct H; lia. Qed.
Lemma place_fun b i j : Place b i -> Place b j -> i = j.
Proof. intros A B. apply index_place in A, B. congruence. Qed.
Lemma place_inj a b i : Place a i -> Place b i -> a = b.
Proof. intros A B. destruct A; inversion B; reflexivity. Qed.
Lemma place_one b i : Place b i -> u1 b = b.
Proof. intros H; destruct H; reflexivity. Qed.
Lemma begins_u1 s b i : Begins s b -> Place b i -> u1 s = b.
Proof. intros (c & r & -> & ->) _. reflexivity. Qed.
Lemma u1_begins s b i : u1 s = b -> Place b i -> Begins s b.
Proof. intros E P. destruct s as [|c r]; cbn in E; [subst b; inversion P|]. exists c, r. split; [reflexivity|symmetry; exact E]. Qed.
Lemma has_in bs b : has bs b = true <-> In b bs.
Proof.
  unfold has. rewrite existsb_exists. split.
  - intros (x & I & E). apply String.eqb_eq in E. subst x. exact I.
  - intros I. exists b. split; [exact I|apply String.eqb_refl].
Qed.

(** *** bands without visits *)
Lemma dropped bs m : length m = 6%nat -> forall i b, Place b i ->
  nth_error (fold_left (drop_band bs) band_keys m) i = (if has bs b then nth_error m i else Some None).
Proof.
  intros L. destruct m as [|m0 [|m1 [|m2 [|m3 [|m4 [|m5 [|? ?]]]]]]]; try discriminate L.
  intros i b P. unfold band_keys. cbn [fold_left]. unfold drop_band. cbn [band_index String.eqb Ascii.eqb Bool.eqb].
  destruct P; destruct (has bs "u"), (has bs "g"), (has bs "r"), (has bs "i"), (has bs "z"), (has bs "y"); reflexivity.
Qed.
Lemma set_nth_len {A} (l : list A) i x : length (set_nth l i x) = length l.
Proof. revert i. induction l as [|h t IH]; intros [|i]; cbn; [reflexivity|reflexivity|reflexivity|]. f_equal. apply IH. Qed.
Lemma drop_len bs ks m : length (fold_left (drop_band bs) ks m) = length m.
Proof.
  revert m. induction ks as [|k ks IH]; intros m; [reflexivity|]. cbn [fold_left]. rewrite IH. unfold drop_band.
  destruct (band_index k); [destruct (has bs k); [reflexivity|apply set_nth_len]|reflexivity].
Qed.

(** *** counting *)
Lemma count_indices {A} (p : A -> bool) l k :
  length (filter p l) = length (filter (fun i => match nth_error l (i - k) with Some x => p x | None => false end) (seq k (length l))).
Proof.
  revert k. induction l as [|x l IH]; intros k; [reflexivity|]. cbn [length seq filter]. rewrite Nat.sub_diag. cbn [nth_error].
  assert (E : filter (fun i => match nth_error (x :: l) (i - k) with Some x => p x | None => false end) (seq (S k) (length l)) =
              filter (fun i => match nth_error l (i - S k) with Some x => p x | None => false end) (seq (S k) (length l))).
  { apply filter_ext_in. intros i I. apply in_seq in I. replace (i - k)%nat with (S (i - S k)) by lia. reflexivity. }
  rewrite E. destruct (p x); cbn [length]; rewrite (IH (S k)); reflexivity.
Qed.
Lemma at_least {A} (p : A -> bool) l n :
  (n <= length (filter p l))%nat <->
  exists good, NoDup good /\ (n <= length good)%nat /\ forall i, In i good -> exists x, nth_error l i = Some x /\ p x = true.
Proof.
  rewrite (count_indices p l 0). set (q := fun i => match nth_error l (i - 0) with Some x => p x | None => false end). split.
  - intros H. exists (filter q (seq 0 (length l))). split; [apply NoDup_filter, seq_NoDup|]. split; [exact H|].
    intros i I. apply filter_In in I. destruct I as [_ I]. unfold q in I. rewrite Nat.sub_0_r in I.
    destruct (nth_error l i) as [x|]; [|discriminate]. exists x. split; [reflexivity|exact I].
  - intros (good & ND & L & G). eapply Nat.le_trans; [exact L|]. apply NoDup_incl_length; [exact ND|].
    intros i I. destruct (G i I) as (x & E & P). apply filter_In. split.
    + apply in_seq. split; [lia|]. apply nth_error_Some. congruence.
    + unfold q. rewrite Nat.sub_0_r, E. exact P.
Qed.
Lemma nth_combine {A B} (l : list A) (m : list B) i :
  nth_error (combine l m) i = match nth_error l i, nth_error m i with Some x, Some y => Some (x, y) | _, _ => None end.
Proof.
  revert m i. induction l as [|x l IH]; intros [|y m] [|i]; cbn [combine nth_error]; try reflexivity.
  - destruct (nth_error l i); reflexivity.
  - apply IH.
Qed.
Lemma count_filter {A} (P : A -> Prop) (p : A -> bool) l : (forall x, In x l -> p x = true <-> P x) -> Plane_Spec.CountP P l (length (filter p l)).
Proof.
  induction l as [|x l IH]; intros H; [constructor|]. cbn [filter].
  assert (I : Plane_Spec.CountP P l (length (filter p l))) by (apply IH; intros y Y; apply H; right; exact Y).
  destruct (p x) eqn:E.
  - cbn [length]. constructor; [apply H; [left; reflexivity|exact E]|exact I].
  - apply Plane_Spec.CP_out; [|exact I]. intros C. apply H in C; [congruence|left; reflexivity].
Qed.

(** *** tolerances *)
Lemma le_tol_true x tol : le_tol x tol = true <-> exists e, x = Some e /\ e <= tol.
Proof.
  unfold le_tol. destruct x as [e|].
  - destruct (Rle_dec e tol) as [L|L]; split; intros H; [exists e; auto|reflexivity|discriminate|].
    destruct H as (e' & E & L'). injection E as ->. contradiction.
  - split; [discriminate|]. intros (e & E & _). discriminate.
Qed.
Lemma within_true fit truth tol : le_tol (frac_err fit truth) tol = true <-> Within fit truth tol.
Proof.
  rewrite le_tol_true. unfold frac_err, Within. destruct fit as [f|].
  - destruct (Req_EM_T truth 0) as [Z|Z].
    + split; [intros (e & E & _); discriminate|]. intros (g & _ & N & _). contradiction.
    + pose proof (Rabs_pos_lt _ Z) as PZ.
      assert (D : Rabs ((f - truth) / truth) = Rabs (f - truth) / Rabs truth).
      { unfold Rdiv. rewrite Rabs_mult, Rabs_inv. reflexivity. }
      assert (K : Rabs (f - truth) / Rabs truth <= tol <-> Rabs (f - truth) <= tol * Rabs truth).
      { split; intros H.
        - apply (Rmult_le_compat_r (Rabs truth)) in H; [|lra]. unfold Rdiv in H. rewrite Rmult_assoc, Rinv_l, Rmult_1_r in H by lra. exact H.
        - apply (Rmult_le_reg_r (Rabs truth)); [exact PZ|]. unfold Rdiv. rewrite Rmult_assoc, Rinv_l, Rmult_1_r by lra. exact H. }
      split.
      * intros (e & E & L). injection E as <-. exists f. rewrite D in L. apply K in L. repeat split; assumption.
      * intros (g & E & _ & L). injection E as <-. eexists. split; [reflexivity|]. rewrite D. apply K. exact L.
  - split; [intros (e & E & _); discriminate|]. intros (g & E & _). discriminate.
Qed.

Lemma n_good_spec tol bs fm mags n : length fm = 6%nat ->
  (n <= n_good tol (fold_left (drop_band bs) band_keys fm) mags)%nat <->
  exists good, NoDup good /\ (n <= length good)%nat /\ forall i, In i good -> GoodBand bs fm mags tol i.
Proof.
  intros L. unfold n_good. rewrite at_least.
  assert (X : forall i, (exists x, nth_error (combine (fold_left (drop_band bs) band_keys fm) mags) i = Some x /\
                le_tol (mag_err (fst x) (snd x)) tol = true) <-> GoodBand bs fm mags tol i).
  { intros i. rewrite nth_combine. split.
    - intros (x & E & T).
      assert (I : (i < 6)%nat).
      { rewrite <- L, <- (drop_len bs band_keys). apply nth_error_Some.
        destruct (nth_error (fold_left (drop_band bs) band_keys fm) i); [congruence|discriminate E]. }
      assert (PL : exists b, Place b i).
      { do 6 (destruct i as [|i]; [eexists; constructor|]). lia. }
      destruct PL as (b & PL). rewrite (dropped bs fm L i b PL) in E.
      destruct (has bs b) eqn:HB.
      + destruct (nth_error fm i) as [q|] eqn:F; [|discriminate]. destruct (nth_error mags i) as [m|] eqn:M; [|discriminate].
        injection E as <-. cbn [fst snd] in T. apply le_tol_true in T. destruct T as (e & E & T). destruct q as [q|]; [|discriminate].
        injection E as <-. exists b, q, m. repeat split; auto. apply has_in; exact HB.
      + destruct (nth_error mags i); [|discriminate]. injection E as <-. discriminate.
    - intros (b & q & m & PL & I & F & M & T). rewrite (dropped bs fm L i b PL). apply has_in in I. rewrite I, F, M.
      eexists. split; [reflexivity|]. apply le_tol_true. eexists. split; [reflexivity|exact T]. }
  split; intros (good & ND & LE & G); exists good; (split; [exact ND|split; [exact LE|]]); intros i I; apply X, G, I.
Qed.

Lemma recovered_spec c P A mags bs f : length (f_mags f) = 6%nat -> (length (nodup string_dec bs) < 9)%nat ->
  recovered c P A mags (drop_bands bs f) = true <->
  WellFit P A (c_period_tol c) (c_amp_tol c) (c_mag_tol c) (c_bands c) bs mags (f_period f) (f_amplitude f) (f_mags f).
Proof.
  intros L N. unfold recovered, drop_bands. apply Nat.ltb_lt in N. rewrite N. cbn [f_period f_amplitude f_mags].
  rewrite !Bool.andb_true_iff, !within_true, Nat.leb_le, (n_good_spec _ _ _ _ _ L). unfold WellFit. tauto.
Qed.

(** *** trials *)
Lemma trials_spec one k n l : trials one k n = Ok l ->
  length l = n /\ forall i, (i < n)%nat -> exists f, nth_error l i = Some f /\ one (k + i)%nat = Ok f.
Proof.
  revert k l. induction n as [|n IH]; intros k l H; cbn in H.
  - injection H as <-. split; [reflexivity|]. intros; lia.
  - destruct (one k) as [f|] eqn:E; [|discriminate]. cbn in H. destruct (trials one (S k) n) as [r|] eqn:R; [|discriminate].
    cbn in H. injection H as <-. destruct (IH _ _ R) as (L & F). split; [cbn; rewrite L; reflexivity|].
    intros [|i] I; cbn [nth_error].
    + exists f. rewrite Nat.add_0_r. auto.
    + destruct (F i) as (g & A & B); [lia|]. exists g. split; [exact A|]. rewrite <- B. f_equal. lia.
Qed.
Lemma trials_ok one k n : (forall i, exists f, one i = Ok f) -> exists l, trials one k n = Ok l.
Proof.
  intros H. revert k. induction n as [|n IH]; intros k; [exists []; reflexivity|]. cbn.
  destruct (H k) as (f & ->). cbn. destruct (IH (S k)) as (l & ->). cbn. eexists; reflexivity.
Qed.
Lemma trials_ext one two k n : (forall i, one i = two i) -> trials one k n = trials two k n.
Proof. intros H. revert k. induction n as [|n IH]; intros k; [reflexivity|]. cbn. rewrite H, IH. reflexivity. Qed.
Lemma trials_const one f k n : (forall i, one i = Ok f) -> trials one k n = Ok (repeat f n).
Proof. intros H. revert k. induction n as [|n IH]; intros k; [reflexivity|]. cbn. rewrite H. cbn. rewrite IH. reflexivity. Qed.

(** *** light curves *)
Lemma arr_get_nth {A} (l : list A) i x : arr_get l i = Ok x <-> nth_error l i = Some x.
Proof. unfold arr_get. destruct (nth_error l i); split; congruence. Qed.
Lemma star_mag_spec P ph A mags t b m : star_mag P ph A mags t b = Ok m <->
  exists i mean, Place b i /\ nth_error mags i = Some mean /\ Sine P ph A mean t m.
Proof.
  unfold star_mag, Sine, wave. split.
  - destruct (band_index b) as [i|] eqn:E; [|discriminate]. destruct (arr_get mags i) as [mean|] eqn:G; [|discriminate].
    cbn. intros H. injection H as <-. exists i, mean. split; [apply index_place, E|]. split; [apply arr_get_nth, G|].
    rewrite Rplus_comm. do 3 f_equal. unfold Rdiv. ring.
  - intros (i & mean & PL & G & ->). apply index_place in PL. rewrite PL. apply arr_get_nth in G. rewrite G. cbn. f_equal.
    rewrite Rplus_comm. do 3 f_equal. unfold Rdiv. ring.
Qed.
Lemma star_lc_spec P ph A mags ts lc : star_lc P ph A mags ts = Ok lc ->
  length lc = length ts /\ forall j t b, nth_error ts j = Some (t, b) -> exists m, nth_error lc j = Some m /\ star_mag P ph A mags t b = Ok m.
Proof.
  revert lc. induction ts as [|[t b] ts IH]; intros lc H; cbn in H.
  - injection H as <-. split; [reflexivity|]. intros [|j]; discriminate.
  - destruct (star_mag P ph A mags t b) as [m|] eqn:E; [|discriminate]. cbn in H.
    destruct (star_lc P ph A mags ts) as [l|] eqn:R; [|discriminate]. cbn in H. injection H as <-.
    destruct (IH _ eq_refl) as (L & F). split; [cbn; rewrite L; reflexivity|].
    intros [|j] t' b' N; cbn [nth_error] in N |- *.
    + injection N as <- <-. exists m. auto.
    + apply F, N.
Qed.
Lemma star_lc_ok P ph A mags ts : length mags = 6%nat -> (forall t b, In (t, b) ts -> exists i, Place b i) ->
  exists lc, star_lc P ph A mags ts = Ok lc.
Proof.
  intros L. induction ts as [|[t b] ts IH]; intros H; [exists []; reflexivity|]. cbn.
  destruct (H t b) as (i & PL); [left; reflexivity|].
  destruct (nth_error mags i) as [mean|] eqn:N; [|apply nth_error_None in N; apply place_lt in PL; lia].
  assert (E : star_mag P ph A mags t b = Ok (mean + A * sin (2 * PI * (t + ph) / P))).
  { apply star_mag_spec. exists i, mean. split; [exact PL|split; [exact N|reflexivity]]. }
  rewrite E. cbn. destruct IH as (lc & ->); [intros; eapply H; right; eassumption|]. cbn. eexists; reflexivity.
Qed.
Lemma dmag_is m m5 : MagError m m5 (dmag m m5).
Proof.
  unfold MagError, dmag, Depth_Model.log10. rewrite Pop_Props2.snr_pow. do 4 f_equal.
  replace (2/5 * (m5 - m)) with (- (2/5 * (m - m5))) by field. rewrite Rpower_Ropp. field.
  apply Rgt_not_eq, exp_pos.
Qed.
Lemma noisy_nth noise lc errs j m e : nth_error lc j = Some m -> nth_error errs j = Some e ->
  nth_error (noisy noise lc errs) j = Some (m + noise j * e).
Proof.
  intros A B. unfold noisy. rewrite nth_error_map, nth_combine, nth_combine, A, B.
  assert (I : (j < length lc)%nat) by (apply nth_error_Some; congruence).
  assert (S : nth_error (seq 0 (length lc)) j = Some j).
  { rewrite (nth_error_nth' (seq 0 (length lc)) 0%nat) by (rewrite seq_length; exact I). rewrite seq_nth by exact I. reflexivity. }
  rewrite S. reflexivity.
Qed.
