(** C213: fitted positions. *)
From Verif Require Import Base Astrom_Model Cheby_Model Cheby_Spec Cheby_Proofs Cheby_Proofs2 Cheby_Proofs3 Cheby_Proofs4 Cheby_Proofs5
  ChebyEph_Model ChebyEph_Spec ChebyEph_Proofs.
From Coq Require Import Reals Lra Lia.
Open Scope R_scope.

(** C213: evaluated at the first and at the last ephemeris time of its segment, a fit gives back the ephemeris: the right ascension
    up to a full turn, the declination and both velocities *)
Theorem C213_ends_partial : forall inv xm dxm m w e cra cdec r i, inverts inv -> from_matrix inv (length e) m w xm dxm ->
  let first := nth 0 e p0 in let final := nth (length e - 1) e p0 in
  p_time first <> p_time final -> (i = 0 \/ i = length e - 1)%nat ->
  get_coeffs_position inv xm dxm m e = Ok (cra, cdec, r) ->
  let s := nth i e p0 in exists ra v, (ra = p_ra s \/ ra = p_ra s - 360) /\
    eval_position (p_time first) (p_time final) cra cdec (p_time s) false = Ok (Some ra, Some v, Some (p_dec s), Some (p_ddecdt s)) /\
    (cos (radians (p_dec s)) <> 0 -> v = p_dradt s).
Proof.
  intros inv xm dxm m w e cra cdec r i HI HF first final HT Hi H s.
  destruct (ends_position inv xm dxm m w e cra cdec r i HI HF HT Hi H) as [ra [v [_ X]]]. exists ra, v. exact X.
Qed.
Print Assumptions C213_ends_partial.
(** the position residual that is compared with sky_tolerance is the largest distance, over the ephemeris times of the segment,
    between the ephemeris and what is evaluated there: a segment that is kept is within the tolerance at all of them *)
Theorem C213_within_tolerance : forall inv xm dxm m e cra cdec r,
  let first := nth 0 e p0 in let final := nth (length e - 1) e p0 in p_time first <> p_time final ->
  get_coeffs_position inv xm dxm m e = Ok (cra, cdec, r) ->
  let dist i := fun d => exists ra v dec v' k, (k = 0 \/ k = 360) /\
    eval_position (p_time first) (p_time final) cra cdec (p_time (nth i e p0)) false = Ok (Some ra, Some v, Some dec, Some v') /\
    d = offset (nth i e p0) (ra + k) dec in
  (forall i, (i < length e)%nat -> exists d, dist i d /\ d <= r) /\ (exists i, (i < length e)%nat /\ dist i r).
Proof. exact within. Qed.
Print Assumptions C213_within_tolerance.
(** right ascensions of a track within an arc of less than 90 degrees are brought to one turn, so that the track is as smooth as it is *)
Theorem C213_turns_partial : forall c us l, length us = length l ->
  (forall i, (i < length l)%nat -> c <= nth i us 0 < c + 90 /\ wrapped (nth i us 0) (nth i l 0)) ->
  exists k : Z, forall i, (i < length l)%nat -> nth i (three_sixty_to_neg l) 0 = nth i us 0 + 360 * IZR k.
Proof. exact wrap_arc. Qed.
Print Assumptions C213_turns_partial.
(** a wider one is not *)
Theorem C213_turns_refuted : ~ (forall c us l, length us = length l ->
  (forall i, (i < length l)%nat -> c <= nth i us 0 < c + 120 /\ wrapped (nth i us 0) (nth i l 0)) ->
  exists k : Z, forall i, (i < length l)%nat -> nth i (three_sixty_to_neg l) 0 = nth i us 0 + 360 * IZR k).
Proof.
  intros C. destruct (C 260 [265; 350; 365] [265; 350; 5] eq_refl) as [k K].
  - intros i Hi. destruct i as [|[|[|i]]]; cbn [nth]; [| | |cbn in Hi; lia]; (split; [lra|]; split; [lra|]);
      [exists 0%Z|exists 0%Z|exists (-1)%Z]; lra.
  - assert (E : three_sixty_to_neg [265; 350; 5] = [265; 350 - 360; 5]).
    { unfold three_sixty_to_neg, some_below, some_above. cbn [existsb map].
      repeat match goal with |- context [Rlt_dec ?a ?b] => destruct (Rlt_dec a b); try lra end. reflexivity. }
    rewrite E in K. pose proof (K 0%nat ltac:(cbn; lia)) as A. pose proof (K 1%nat ltac:(cbn; lia)) as B. cbn [nth] in A, B. lra.
Qed.
Print Assumptions C213_turns_refuted.
Definition crossing : list eph := [
  {| p_time := 0; p_ra := 350; p_dradt := 10; p_dec := 0; p_ddecdt := 1 |};
  {| p_time := 1; p_ra := 0; p_dradt := 10; p_dec := 1; p_ddecdt := 1 |};
  {| p_time := 2; p_ra := 10; p_dradt := 10; p_dec := 2; p_ddecdt := 1 |}].
Lemma crossing_fits : exists cra cdec r, get_coeffs_position exact_inv None None 4 crossing = Ok (cra, cdec, r).
Proof.
  unfold get_coeffs_position.
  destruct (fit_total (map p_time crossing) (three_sixty_to_neg (map p_ra crossing)) (Some (map (fun p => p_dradt p / cos (radians (p_dec p))) crossing)) None None 4) as [[[[a b] c] d] E1];
    [rewrite wrap_length; reflexivity|cbn; lia|]. rewrite E1. cbn [bind].
  destruct (fit_total (map p_time crossing) (map p_dec crossing) (Some (map p_ddecdt crossing)) None None 4 eq_refl) as [[[[a' b'] c'] d'] E2];
    [cbn; lia|]. rewrite E2. cbn [bind]. do 3 eexists. reflexivity.
Qed.
(** and the right ascension that is evaluated need not lie between 0 and 360 degrees *)
Theorem C213_range_refuted : ~ (forall xm dxm m w e cra cdec r t ra v dec v', from_matrix exact_inv (length e) m w xm dxm ->
  p_time (nth 0 e p0) <> p_time (nth (length e - 1) e p0) -> (forall p, In p e -> 0 <= p_ra p < 360) ->
  get_coeffs_position exact_inv xm dxm m e = Ok (cra, cdec, r) ->
  eval_position (p_time (nth 0 e p0)) (p_time (nth (length e - 1) e p0)) cra cdec t false = Ok (Some ra, v, dec, v') -> 0 <= ra < 360).
Proof.
  intros C. destruct crossing_fits as [cra [cdec [r H]]].
  assert (HF : from_matrix exact_inv (length crossing) 4 default_weight None None) by (left; split; [left; exact I|reflexivity]).
  assert (HT : p_time (nth 0 crossing p0) <> p_time (nth (length crossing - 1) crossing p0)) by (cbn; lra).
  destruct (ends_position exact_inv None None 4 default_weight crossing cra cdec r 0%nat exact_inverts HF HT (or_introl eq_refl) H) as [ra [v [E [_ [X _]]]]].
  assert (B : 0 <= ra < 360).
  { apply (C None None 4%nat default_weight crossing cra cdec r _ ra _ _ _ HF HT) with (3 := X); [|exact H]. intros p I. cbn in I. destruct I as [<-|[<-|[<-|[]]]]; cbn; lra. }
  assert (E' : ra = 350 - 360).
  { rewrite E. unfold three_sixty_to_neg, some_below, some_above, crossing. cbn [existsb map p_ra].
    repeat match goal with |- context [Rlt_dec ?a ?b] => destruct (Rlt_dec a b); try lra end. reflexivity. }
  lra.
Qed.
Print Assumptions C213_range_refuted.
Example C213_case : (exists cra cdec r, get_coeffs_position exact_inv None None 4 crossing = Ok (cra, cdec, r)) /\ inverts exact_inv /\
  from_matrix exact_inv (length crossing) 4 default_weight None None /\ cos (radians (p_dec (nth 0 crossing p0))) <> 0 /\
  (forall i, (i < 3)%nat -> -10 <= nth i [-10; 0; 10] 0 < -10 + 90 /\ wrapped (nth i [-10; 0; 10] 0) (nth i (map p_ra crossing) 0)).
Proof.
  split; [exact crossing_fits|]. split; [exact exact_inverts|]. split; [left; split; [left; exact I|reflexivity]|]. split.
  - cbn. unfold radians. replace (0 * PI / 180) with 0 by field. rewrite cos_0. lra.
  - intros i Hi. destruct i as [|[|[|i]]]; cbn [nth map crossing p_ra]; [| | |lia]; (split; [lra|]; split; [lra|]);
      [exists 1%Z|exists 0%Z|exists 0%Z]; lra.
Qed.
