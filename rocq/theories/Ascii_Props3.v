(** Transients given by a spectrum: the light curves that are returned with output_data. *)
From Coq Require Import Reals Lra.
From Verif Require Import Base Technical_Model Technical_Proofs Technical_Proofs3 Transient_Proofs MoObs_Proofs2 Ascii_Model Plane_Spec Plane_Props Ascii_Spec Ascii_Proofs Ascii_Proofs2 Ascii_Proofs3 Ascii_Proofs4 Ascii_Props.
From Coq Require Import Lia Permutation Sorted.
Open Scope Z_scope.

Lemma last_step search c dur start vs acc n : exists a, fold_left (step search c dur start vs) (seq 0 (S n)) acc = step search c dur start vs a n.
Proof. rewrite seq_S. rewrite fold_left_app. cbn [fold_left]. eexists. reflexivity. Qed.
(** C373: the flags are of the transients in the order of their numbers, for the last phase *)
Theorem C373_flags : forall search c L s visits s' vs lp start, Long c L -> run search c s visits = (s', Ok (vs, lp)) -> Starts s visits start ->
  (filter_time c = None \/ num_filters_arg c <= 1 \/ num_per c = 0) ->
  Permutation vs visits /\ StronglySorted (fun a b => at_ a <= at_ b) vs /\ length (ids lp) = length vs /\
  (forall p q i j v w, nth_error (ids lp) p = Some i -> nth_error (ids lp) q = Some j -> nth_error vs p = Some v -> nth_error vs q = Some w -> (i = j <-> exists g, Of L start g v /\ Of L start g w)) /\
  exists U, StronglySorted Z.lt U /\ (forall u, In u U <-> In u (ids lp)) /\ length (flags lp) = length U /\
  forall k u b p v g, nth_error U k = Some u -> nth_error (flags lp) k = Some b -> nth_error (ids lp) p = Some u -> nth_error vs p = Some v -> Of L start g v ->
    (b = true <-> Counts c L start visits (phases c - 1) g).
Proof.
  intros search c L s visits s' vs lp start HL HR HS HF. destruct (run_ok _ _ _ _ _ _ _ HR) as (st & lo & hi & HS' & _ & _ & _ & Ev & El & _). rewrite (starts_unique _ _ _ _ HS' HS) in *. clear HS'. destruct (duration_long _ _ HL) as [ED PL].
  pose proof (sort_perm visits) as HP. pose proof (sort_sorted visits) as HO. rewrite <- Ev in HP, HO. destruct (phases c) as [|n] eqn:En; [destruct HL as (_ & _ & X); lia|]. replace (S n - 1)%nat with n by lia.
  destruct (last_step search c (Z.max (hi - lo) (survey_duration s)) start vs (initial c start lo) n) as (a & Ea). rewrite Ea in El. clear Ea.
  pose proof (flags_of search c (Z.max (hi - lo) (survey_duration s)) start vs a n ltac:(lia) HO) as Ef. rewrite <- El in Ef.
  assert (ids lp = map (fun x => x + id_start a) (map (number c start) vs)) as Ei by (rewrite El; cbn [step ids]; rewrite map_map; reflexivity).
  set (K := id_start a) in *. clearbody K. clear El a.
  assert (forall p i v, nth_error (ids lp) p = Some i -> nth_error vs p = Some v -> i = number c start v + K) as HI.
  { intros p i v E1 E2. rewrite Ei, map_map, (map_nth_error _ _ _ E2) in E1. now injection E1 as <-. }
  split; [exact HP|]. split; [exact HO|]. split; [rewrite Ei, !map_length; reflexivity|]. split.
  - intros p q i j v w E1 E2 E3 E4. rewrite (HI p i v E1 E3), (HI q j w E2 E4). split.
    + intros E. exists (number c start v). split; apply (number_of c L start _ _ HL); [reflexivity | lia].
    + intros (g & G1 & G2). apply (number_of c L start _ _ HL) in G1. apply (number_of c L start _ _ HL) in G2. lia.
  - exists (unique_z (ids lp)). split; [apply unique_z_sorted|]. split; [intros u; apply unique_z_in|]. rewrite Ei, unique_shift. split; [rewrite Ef, !map_length; reflexivity|].
    intros k u b p v g EU Eb Ep Ev' Ho. rewrite Ef in Eb. rewrite nth_error_map in EU, Eb. destruct (nth_error (unique_z (map (number c start) vs)) k) as [h|]; [|discriminate]. cbn in EU, Eb. injection EU as <-. injection Eb as <-.
    rewrite <- Ei in Ep. pose proof (HI p _ v Ep Ev') as Eh. apply (number_of c L start _ _ HL) in Ho. assert (h = g) as -> by lia.
    pose proof (detected_split search c L start vs n g HL) as HD. rewrite in_time_trivial in HD by exact HF.
    assert (exists v, In v vs /\ number c start v = g) as HX by (exists v; split; [apply (nth_error_In _ _ Ev') | exact Ho]). split.
    + intros H. eapply counts_perm; [exact HP|]. apply (proj1 HD). split; assumption.
    + intros H. apply (proj2 HD). split; [eapply counts_perm; [symmetry; exact HP | exact H] | reflexivity].
Qed.
Print Assumptions C373_flags.
(** with one phase the numbers are counted from the transient of the first visit *)
Theorem C373_zero_partial : forall search c L s visits s' vs lp start, Long c L -> phases c = 1%nat -> run search c s visits = (s', Ok (vs, lp)) -> Starts s visits start ->
  forall p i v v0 g g0, nth_error (ids lp) p = Some i -> nth_error vs p = Some v -> Of L start g v -> In v0 visits -> (forall w, In w visits -> at_ v0 <= at_ w) -> Of L start g0 v0 -> i = g - g0.
Proof.
  intros search c L s visits s' vs lp start HL H1 HR HS p i v v0 g g0 Ep Ev Ho Hin Hmin Ho0. destruct (run_ok _ _ _ _ _ _ _ HR) as (st & lo & hi & HS' & (A1 & A2) & _ & _ & _ & El & _). rewrite (starts_unique _ _ _ _ HS' HS) in *. clear HS'. destruct (duration_long _ _ HL) as [ED PL].
  rewrite H1 in El. cbn [seq fold_left] in El. assert (ids lp = map (fun v => number c start v + - ((lo - start) / duration c)) vs) as Ei by (rewrite El; reflexivity). rewrite Ei, (map_nth_error _ _ _ Ev) in Ep. injection Ep as <-.
  assert (lo = at_ v0) as ->. { apply in_map_iff in A1. destruct A1 as (x & <- & Hx). specialize (Hmin x Hx). specialize (A2 _ (in_map at_ _ _ Hin)). lia. }
  apply (number_of c L start _ _ HL) in Ho. apply (number_of c L start _ _ HL) in Ho0. unfold number in *. lia.
Qed.
Print Assumptions C373_zero_partial.
Definition edges0 := [vis 0 "g"; vis 10 "r"].
(** the number is not the place of the flag when a transient has no visits *)
Definition gap := [vis 0 "g"; vis 21 "r"].
Theorem C373_place_refuted : ~ (forall search c L s visits s' vs lp p i, Long c L -> run search c s visits = (s', Ok (vs, lp)) -> nth_error (ids lp) p = Some i -> exists b, nth_error (flags lp) (Z.to_nat i) = Some b).
Proof.
  intros H. pose (c := metric 1 10 1 None). destruct (run counting c fresh gap) as [s' r] eqn:HR. pose proof HR as HR'. unfold c in HR'. cbn in HR'. injection HR' as <- <-.
  destruct (H counting c 10 fresh gap _ _ _ 1%nat 2 ltac:(unfold Long; cbn; lia) HR eq_refl) as (b & E). cbn in E. discriminate.
Qed.
Print Assumptions C373_place_refuted.
(** with more phases the numbers do not start from zero *)
Theorem C373_zero_refuted : ~ (forall search c L s visits s' vs lp, Long c L -> run search c s visits = (s', Ok (vs, lp)) -> nth_error (ids lp) 0 = Some 0).
Proof.
  intros H. pose (c := metric 2 5 1 None). destruct (run counting c fresh edges0) as [s' r] eqn:HR. pose proof HR as HR'. unfold c in HR'. cbn in HR'. injection HR' as <- <-.
  specialize (H counting c 10 fresh edges0 _ _ _ ltac:(unfold Long; cbn; lia) HR). cbn in H. discriminate.
Qed.
Print Assumptions C373_zero_refuted.
Example C373_case : exists s' vs lp, Long (metric 1 10 1 None) 10 /\ run counting (metric 1 10 1 None) fresh gap = (s', Ok (vs, lp)) /\ Starts fresh gap 0 /\ ids lp = [0; 2] /\ flags lp = [true; true].
Proof.
  do 3 eexists. split; [unfold Long; cbn; lia|]. split; [reflexivity|]. split; [right; cbn; split; [reflexivity|]; split; [exists (vis 0 "g"); cbn; tauto | intros v [<-|[<-|[]]]; cbn; lia]|]. split; [reflexivity|]. all_seen.
Qed.

(** C369: whatever searchsorted gives, the limit of time never adds a transient *)
Definition no_limit (c : conf) : conf :=
  {| unit := unit c; phases := phases c; mags := mags c; detect_snr := detect_snr c; num_pre := num_pre c; pre_time := pre_time c; num_filters_arg := num_filters_arg c; filter_time := None; num_per := num_per c |}.
Theorem C369_restricts : forall search search' c L s visits s1 vs1 lp1 s2 vs2 lp2, Long c L ->
  run search c s visits = (s1, Ok (vs1, lp1)) -> run search' (no_limit c) s visits = (s2, Ok (vs2, lp2)) -> num lp1 <= num lp2.
Proof.
  intros search search' c L s visits s1 vs1 lp1 s2 vs2 lp2 HL R1 R2. destruct (run_ok _ _ _ _ _ _ _ R1) as (start & _ & _ & HS & _). destruct (run_pairs _ _ _ _ _ _ _ _ _ HL R1 HS) as [E1 H1].
  eapply howmany_le; [|exact H1|exact (C368_criteria search' (no_limit c) L s visits s2 vs2 lp2 start HL R2 HS (or_introl eq_refl))]. intros (i, g) (X1 & X2 & _). split; [exact X1|]. subst vs1. exact (counts_perm c L start _ _ i g (sort_perm visits) X2).
Qed.
Print Assumptions C369_restricts.
Example C369_restricts_case : exists s1 vs1 lp1 s2 vs2 lp2, Long (metric 1 10 2 (Some 5)) 10 /\ run counting (metric 1 10 2 (Some 5)) fresh pair2 = (s1, Ok (vs1, lp1)) /\
  run counting (no_limit (metric 1 10 2 (Some 5))) fresh pair2 = (s2, Ok (vs2, lp2)) /\ num lp1 = 0 /\ num lp2 = 1.
Proof. do 6 eexists. split; [unfold Long; cbn; lia|]. split; [reflexivity|]. split; [reflexivity|]. split; all_seen. Qed.
