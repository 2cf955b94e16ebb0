(** Lemmas about the cache of spectra and about sums over grids. *)
From Verif Require Import Base Astrom_Model MoMag_Model Astrom_Proofs MoMag_Proofs Resample_Model Resample_Spec Resample_Proofs Resample_Proofs3 Phot_Model Phot_Spec Phot_Proofs Phot_Proofs2 Sed_Model Sed_Spec Sed_Proofs Sed_Proofs2.
From Coq Require Import Reals Lra Lia.
Open Scope R_scope.

Lemma set_nth_nth {A} (l : list A) i j x d : i <> j -> nth j (set_nth l i x) d = nth j l d.
Proof. revert i j. induction l as [|a l IH]; intros [|i] [|j] H; cbn; try reflexivity; try lia. apply IH. lia. Qed.
Lemma set_nth_in {A} (l : list A) i x y : In y (set_nth l i x) -> y = x \/ In y l.
Proof. revert i. induction l as [|a l IH]; intros [|i] H; cbn in *; auto; destruct H as [<-|H]; auto. destruct (IH i H); auto. Qed.
Lemma nth_error_set {A} (l : list A) i x : (i < length l)%nat -> nth_error (set_nth l i x) i = Some x.
Proof. revert i. induction l as [|a l IH]; intros [|i] H; cbn in *; try lia; [reflexivity|apply IH; lia]. Qed.

(** what the cache holds is what the disk has, apart from the arrays of the Seds *)
Definition sound (d : disk) (m : memory) : Prop :=
  (forall w f, In (w, f) (m_seds m) -> (w < length (m_heap m))%nat /\ (f < length (m_heap m))%nat) /\
  (forall n cw cf, In (n, (cw, cf)) (m_cache m) ->
     (cw < length (m_heap m))%nat /\ (cf < length (m_heap m))%nat /\ source d n = Some (nth cw (m_heap m) [], nth cf (m_heap m) []) /\
     forall w f, In (w, f) (m_seds m) -> cw <> w /\ cw <> f /\ cf <> w /\ cf <> f).
Lemma lookup_in c n v : lookup c n = Some v -> In (n, v) c.
Proof.
  induction c as [|[k u] c IH]; cbn; [discriminate|]. unfold name_eqb. destruct k as [a b], n as [a' b']; cbn in *.
  destruct (Nat.eqb_spec a a'), (Bool.eqb_spec b b'); cbn; try (intros H; right; apply IH, H). intros [= ->]. subst. left; reflexivity.
Qed.
Lemma cached_sound d m n cw cf : sound d m -> cached (m_cache m) n = Some (cw, cf) -> exists n', In (n', (cw, cf)) (m_cache m) /\ source d n' = source d n.
Proof.
  intros S H. unfold cached in H. destruct (lookup (m_cache m) (fst n, false)) eqn:E; [injection H as ->|]; eapply lookup_in in E || eapply lookup_in in H; eexists; split; eauto.
Qed.
Lemma sound_empty d : sound d {| m_heap := []; m_cache := []; m_seds := [] |}. Proof. split; intros; contradiction. Qed.
(** two new arrays *)
Lemma sound_new d m w f seds : sound d m ->
  (forall p, In p seds -> p = (length (m_heap m), S (length (m_heap m))) \/ In p (m_seds m)) ->
  sound d {| m_heap := (m_heap m ++ [w]) ++ [f]; m_cache := m_cache m; m_seds := seds |}.
Proof.
  intros [A B] H. split; cbn.
  - intros a b I. rewrite !app_length; cbn. destruct (H _ I) as [[= -> ->]|I']; [lia|]. apply A in I'. lia.
  - intros n cw cf I. destruct (B n cw cf I) as (L1 & L2 & S & D). rewrite !app_length; cbn. split; [lia|]. split; [lia|]. split.
    + rewrite <- app_assoc, !app_nth1 by assumption. exact S.
    + intros a b J. destruct (H _ J) as [[= -> ->]|J']; [lia|]. apply D, J'.
Qed.
Lemma mstep_sound d m o : sound d m -> sound d (mstep d m o).
Proof.
  intros S. destruct o; cbn [mstep alloc].
  - rewrite app_length. cbn [length]. apply sound_new; [exact S|]. intros p I. apply in_app_or in I as [I|[<-|[]]]; [auto|left; f_equal; lia].
  - unfold read_cached. destruct (cached (m_cache m) n) as [[aw af]|] eqn:E; cbn [alloc].
    + cbn [fst]. rewrite app_length. cbn [length]. apply sound_new; [exact S|]. intros p I. apply set_nth_in in I as [->|I]; [left; f_equal; lia|auto].
    + destruct (source d n) as [[xw xf]|] eqn:Es; [|exact S]. destruct cache_sed; cbn [fst alloc]; rewrite !app_length; cbn [length].
      * pose proof (sound_new d m xw xf (set_nth (m_seds m) k (length (m_heap m), (length (m_heap m) + 1)%nat)) S) as T.
        assert (sound d {| m_heap := (m_heap m ++ [xw]) ++ [xf]; m_cache := m_cache m; m_seds := set_nth (m_seds m) k (length (m_heap m), (length (m_heap m) + 1)%nat) |}) as U.
        { apply T. intros p I. apply set_nth_in in I as [->|I]; [left; f_equal; lia|auto]. }
        pose proof (sound_new d _ xw xf (set_nth (m_seds m) k (length (m_heap m), (length (m_heap m) + 1)%nat)) U ltac:(cbn; auto)) as V. cbn [m_heap m_cache m_seds] in V.
        destruct U as [U1 _]. cbn [m_heap m_seds] in U1. destruct V as [V1 V2]. cbn [m_heap m_cache m_seds] in V1, V2. split; cbn [m_heap m_cache m_seds]; [exact V1|].
        intros n' cw cf [E1|I]; [|apply V2, I]. injection E1 as <- <- <-. rewrite !app_length; cbn [length]. split; [lia|]. split; [lia|]. split.
        -- rewrite Es. f_equal. f_equal.
           ++ rewrite app_nth1 by (rewrite !app_length; cbn; lia). rewrite app_nth2 by (rewrite !app_length; cbn; lia). rewrite !app_length; cbn [length].
              replace (length (m_heap m) + 1 + 1 - (length (m_heap m) + 1 + 1))%nat with O by lia. reflexivity.
           ++ rewrite app_nth2 by (rewrite !app_length; cbn; lia). rewrite !app_length; cbn [length].
              replace (length (m_heap m) + 1 + 1 + 1 - (length (m_heap m) + 1 + 1 + 1))%nat with O by lia. reflexivity.
        -- intros a b J. apply U1 in J. rewrite !app_length in J; cbn [length] in J. lia.
      * apply sound_new; [exact S|]. intros p I. apply set_nth_in in I as [->|I]; [left; f_equal; lia|auto].
  - destruct (nth_error (m_seds m) k) as [[w f]|] eqn:E; [|exact S]. apply nth_error_In in E. destruct S as [A B]. split; cbn.
    + intros a b I. rewrite set_nth_length'. apply A, I.
    + intros n cw cf I. destruct (B n cw cf I) as (L1 & L2 & S & D). rewrite set_nth_length'. split; [exact L1|]. split; [exact L2|]. split; [|exact D].
      destruct (D w f E) as (D1 & D2 & D3 & D4). rewrite !set_nth_nth by (destruct wave; congruence). exact S.
  - rewrite app_length. cbn [length]. apply sound_new; [exact S|]. intros p I. apply set_nth_in in I as [->|I]; [left; f_equal; lia|auto].
Qed.
Lemma mrun_sound d os : sound d (mrun d os).
Proof.
  unfold mrun. generalize (sound_empty d). generalize {| m_heap := []; m_cache := []; m_seds := [] |}. induction os as [|o os IH]; intros m S; cbn; [exact S|].
  apply IH, mstep_sound, S.
Qed.
Lemma read_sound d m k n c : sound d m -> (k < length (m_seds m))%nat ->
  match read_cached d m k n c with
  | (m', Ok _) => contents m' k = source d n /\ source d n <> None
  | (m', Err _) => m' = m /\ source d n = None
  end.
Proof.
  intros S K. unfold read_cached. destruct (cached (m_cache m) n) as [[aw af]|] eqn:E; cbn [alloc].
  - destruct (cached_sound d m n aw af S E) as (n' & I & Es). destruct S as [_ B]. destruct (B n' aw af I) as (L1 & L2 & Sr & _).
    unfold contents; cbn [m_seds m_heap]. rewrite nth_error_set by exact K. rewrite <- Es, Sr. split; [|discriminate]. f_equal. f_equal.
    + rewrite <- app_assoc, app_nth2 by lia. rewrite Nat.sub_diag. reflexivity.
    + rewrite app_nth2 by lia. rewrite Nat.sub_diag. reflexivity.
  - destruct (source d n) as [[xw xf]|] eqn:Es; [|auto]. assert (forall h t, contents {| m_heap := ((h ++ [xw]) ++ [xf]) ++ t; m_cache := m_cache m; m_seds := set_nth (m_seds m) k (length h, length (h ++ [xw])) |} k = Some (xw, xf)) as C.
    { intros h t. unfold contents; cbn [m_seds m_heap]. rewrite nth_error_set by exact K. f_equal. f_equal.
      - rewrite <- !app_assoc. rewrite app_nth2 by lia. rewrite Nat.sub_diag. reflexivity.
      - rewrite <- (app_assoc (h ++ [xw])). rewrite app_nth2 by lia. rewrite Nat.sub_diag. reflexivity. }
    destruct c; cbn [alloc]; (split; [|discriminate]).
    + specialize (C (m_heap m) ([xw] ++ [xf])). rewrite app_assoc in C. exact C.
    + specialize (C (m_heap m) []). rewrite app_nil_r in C. exact C.
Qed.

(** sums and trapezoids on a grid with equal steps *)
Lemma trapz_uniform h : forall w y, (forall i, (S i < length w)%nat -> nth (S i) w 0 - nth i w 0 = h) -> length y = length w -> (1 <= length w)%nat ->
  rsum y * h = trapz y w + h / 2 * (nth 0 y 0 + nth (length y - 1) y 0).
Proof.
  induction w as [|a w IH]; intros y U L N; [cbn in N; lia|]. destruct y as [|p y]; [cbn in L; lia|]. destruct w as [|b w].
  - destruct y; [|cbn in L; lia]. unfold trapz, rsum, zip_with. cbn. lra.
  - destruct y as [|r y]; [cbn in L; lia|]. specialize (IH (r :: y) ltac:(intros i I; apply (U (S i)); cbn in *; lia) ltac:(cbn in *; lia) ltac:(cbn; lia)).
    assert (b - a = h) as E by (apply (U 0%nat); cbn; lia).
    replace (nth (length (p :: r :: y) - 1) (p :: r :: y) 0) with (nth (length (r :: y) - 1) (r :: y) 0) by (cbn [length]; replace (S (S (length y)) - 1)%nat with (S (S (length y) - 1)) by lia; reflexivity).
    cbn [nth] in *. assert (trapz (p :: r :: y) (a :: b :: w) = (b - a) * ((r + p) / 2) + trapz (r :: y) (b :: w)) as -> by reflexivity.
    assert (rsum (p :: r :: y) = p + rsum (r :: y)) as -> by reflexivity. set (l := nth (length (r :: y) - 1) (r :: y) 0) in *. clearbody l.
    set (S1 := rsum (r :: y)) in *. set (T := trapz (r :: y) (b :: w)) in *. clearbody S1 T. rewrite E. lra.
Qed.
