(** C248-C251: two line elements of constellations. *)
From Coq Require Import Reals Ascii Lia Lra Psatz.
From Verif Require Import Base SatConst_Model SatConst_Spec SatConst_Proofs SatConst_Proofs2.
Open Scope Z_scope.

(** ** C248: TLEs are well formed, and read back *)
Theorem C248_lines : forall nr epoch inc raan ma mm, 0 <= nr < 10 ^ 5 -> 0 <= epoch < 10 ^ 13 -> 0 <= inc < 10 ^ 7 -> 0 <= raan < 10 ^ 7 -> 0 <= ma < 10 ^ 7 -> 0 <= mm < 10 ^ 10 ->
  forall name, ~ In (ascii_of_nat 10) name -> exists l1 l2,
  split_lines (tle_from_orbital_parameters name nr epoch inc raan ma mm) = [name; l1; l2] /\
  tle_line l1 /\ columns 1 2 l1 = lit "1 " /\ reads (columns 3 5 l1) nr /\ reads_places 8 (columns 19 14 l1) epoch /\
  tle_line l2 /\ columns 1 2 l2 = lit "2 " /\ reads (columns 3 5 l2) nr /\ reads_places 4 (columns 9 8 l2) inc /\ reads_places 4 (columns 18 8 l2) raan /\
  reads (columns 27 7 l2) 1000 /\ reads_places 4 (columns 35 8 l2) 0 /\ reads_places 4 (columns 44 8 l2) ma /\ reads_places 8 (columns 53 11 l2) mm.
Proof.
  intros nr epoch inc raan ma mm N E I R A M name NN. exists (tle1 nr epoch), (tle2 nr inc raan ma mm).
  destruct (line1 nr epoch N E) as [T1 H1]. assert (L2 := line2 nr inc raan ma mm N I R A M). cbv zeta in L2. destruct L2 as [T2 H2]. split.
  - unfold tle_from_orbital_parameters. rewrite split_first by exact NN. rewrite split_first by apply T1. rewrite split_free by apply T2. reflexivity.
  - split; [exact T1|]. split; [apply H1|]. split; [apply H1|]. split; [apply H1|]. split; [exact T2|]. exact H2.
Qed.
Print Assumptions C248_lines.
(** so are all of a constellation of at most 92000 satellites *)
Theorem C248_constellation_partial : forall rounded random alts incs planes sats epoch name, rounds rounded -> (forall i, 0 <= random i < 1)%R ->
  ~ In (ascii_of_nat 10) name -> (0 <= epoch <= 99999)%R -> (forall a, In a alts -> 0 <= a)%R -> (forall x, In x incs -> 0 <= x <= 360)%R ->
  let tles := create_constellation rounded random alts incs planes sats epoch name in
  Z.of_nat (length tles) <= 92000 ->
  forall i t, nth_error tles i = Some t -> exists nm l1 l2, split_lines t = [nm; l1; l2] /\ tle_line l1 /\ tle_line l2 /\
    reads (columns 3 5 l1) (8000 + Z.of_nat i) /\ reads (columns 3 5 l2) (8000 + Z.of_nat i) /\
    reads_places 8 (columns 19 14 l1) (rounded 8%nat epoch) /\
    exists a x, In a alts /\ In x incs /\ reads_places 4 (columns 9 8 l2) (rounded 4%nat x) /\ reads_places 8 (columns 53 11 l2) (rounded 8%nat (mean_motion a)).
Proof.
  intros rounded random alts incs planes sats epoch name RD R0 NN EP AL IC tles LE i t E.
  assert (IL : (i < length tles)%nat) by (apply nth_error_Some; rewrite E; discriminate).
  unfold tles, create_constellation in E. apply shells_some in E. destruct E as [alt [inc [n [s [[ma raan] [k [I [Q T]]]]]]]].
  assert (J := in_combine_l _ _ _ _ I). apply in_combine_l in J. assert (IA := AL alt (in_combine_l _ _ _ _ J)). assert (II := IC inc (in_combine_r _ _ _ _ J)).
  destruct (shell_range random k n s ma raan R0 Q) as [RM RR]. destruct (mean_motion_form alt IA) as [MP _]. assert (MS := mean_motion_small alt IA).
  subst t. unfold one_tle. cbn [fst snd].
  destruct (C248_lines (8000 + Z.of_nat i) (rounded 8%nat epoch) (rounded 4%nat inc) (rounded 4%nat raan) (rounded 4%nat ma) (rounded 8%nat (mean_motion alt))) with (name := name_of name (8000 + Z.of_nat i)) as [l1 [l2 H]].
  - split; [lia|]. change (10 ^ 5) with 100000. lia.
  - apply rounded_range; [exact RD|lra|]. change (10 ^ 13)%Z with 10000000000000. cbn [pow]. lra.
  - apply rounded_range; [exact RD|lra|]. change (10 ^ 7)%Z with 10000000. cbn [pow]. lra.
  - apply rounded_range; [exact RD|lra|]. change (10 ^ 7)%Z with 10000000. cbn [pow]. lra.
  - apply rounded_range; [exact RD|lra|]. change (10 ^ 7)%Z with 10000000. cbn [pow]. lra.
  - apply rounded_range; [exact RD|lra|]. change (10 ^ 10)%Z with 10000000000. cbn [pow]. lra.
  - unfold name_of. rewrite !in_app_iff. intros [X|[X|X]]; [exact (NN X)|cbn in X; intuition discriminate|]. exact (reads_no_newline _ _ (decimal_reads (8000 + Z.of_nat i) ltac:(lia)) X).
  - exists (name_of name (8000 + Z.of_nat i)), l1, l2. destruct H as [H1 [H2 [_ [H3 [H4 [H5 [_ [H6 [H7 [_ [_ [_ [_ H8]]]]]]]]]]]]].
    split; [exact H1|]. split; [exact H2|]. split; [exact H5|]. split; [exact H3|]. split; [exact H6|]. split; [exact H4|].
    exists alt, inc. split; [exact (in_combine_l _ _ _ _ J)|]. split; [exact (in_combine_r _ _ _ _ J)|]. split; [exact H7|exact H8].
Qed.
Print Assumptions C248_constellation_partial.
(** the numbers of larger constellations do not fit *)
Theorem C248_many_refuted : forall rounded random name, rounds rounded -> ~ In (ascii_of_nat 10) name ->
  exists t nm l1 rest, nth_error (create_constellation rounded random [550%R] [53%R] [1%nat] [Z.to_nat 92001] 23274 name) (Z.to_nat 92000) = Some t /\
    split_lines t = nm :: l1 :: rest /\ ~ tle_line l1.
Proof.
  intros rounded random name RD NN. unfold create_constellation. cbn [combine].
  destruct (shells_nth rounded random name 23274 [] 550 53 1 (Z.to_nat 92001) [] 8000 0) as [k H].
  assert (Q := shell_nth random k 1 (Z.to_nat 92001) 0 (Z.to_nat 92000) ltac:(lia) ltac:(lia) ltac:(lia)). rewrite Nat.mul_0_l, Nat.add_0_l in Q.
  specialize (H _ _ Q). change (size []) with 0%nat in H. rewrite Nat.add_0_l in H. cbn [app] in H. rewrite H. set (z := Z.to_nat 92000) in *.
  assert (EZ : 8000 + Z.of_nat z = 100000) by (unfold z; lia). rewrite EZ. unfold one_tle, tle_from_orbital_parameters.
  set (l1 := tle1 100000 (rounded 8%nat 23274%R)).
  assert (ER : 0 <= rounded 8%nat 23274%R < 10 ^ 13) by (apply rounded_range; [exact RD|lra|change (10 ^ 13)%Z with 10000000000000; cbn [pow]; lra]).
  assert (L := line1_long 100000 (rounded 8%nat 23274%R) ltac:(lia) ER).
  match goal with |- exists t nm l1 rest, Some ?x = Some t /\ _ => exists x end. exists (name_of name 100000). rewrite split_first.
  - assert (N1 : ~ In newline l1).
    { unfold l1, tle1. change (lit "  .00000000  00000-0  50000-4 0    0X") with (lit "  .00000000  00000-0  50000-4 0    0" ++ ["X"%char]). rewrite !app_assoc, checksum_app, <- !app_assoc. rewrite !in_app_iff.
      destruct (fmt_f_facts 14 8 (rounded 8%nat 23274%R) ltac:(lia) ltac:(lia) ER) as [RE _]. intros [I|[I|[I|[I|[I|I]]]]].
      - cbn in I. intuition discriminate.
      - vm_compute in I. intuition discriminate.
      - cbn in I. intuition discriminate.
      - exact (places_no_newline _ _ _ RE I).
      - cbn in I. intuition discriminate.
      - destruct I as [I|[]]. exact (numeral_no_newline _ (digit_numeral _) I). }
    rewrite split_first by exact N1. exists l1. eexists. split; [reflexivity|]. split; [reflexivity|]. intros [T _]. fold l1 in L. lia.
  - unfold name_of. rewrite !in_app_iff. intros [X|[X|X]]; [exact (NN X)|cbn in X; intuition discriminate|]. exact (reads_no_newline _ _ (decimal_reads 100000 ltac:(lia)) X).
Qed.
Print Assumptions C248_many_refuted.

(** ** C249: the number of satellites, and their names *)
Theorem C249_count : forall rounded random alts incs planes sats epoch name, length incs = length alts -> length planes = length alts -> length sats = length alts ->
  length (create_constellation rounded random alts incs planes sats epoch name) = zsum (map (fun q => (fst q * snd q)%nat) (combine planes sats)).
Proof.
  intros rounded random alts incs planes sats epoch name L1 L2 L3. unfold create_constellation. rewrite shells_length. unfold size. f_equal.
  revert incs planes sats L1 L2 L3. induction alts as [|a alts IH]; intros [|x incs] [|n planes] [|s sats] L1 L2 L3; try discriminate; [reflexivity|].
  cbn [combine map]. cbn [fst snd]. f_equal. cbn in L1, L2, L3. apply IH; lia.
Qed.
Print Assumptions C249_count.
(** as the documentation says *)
Theorem C249_named : forall rounded random, Z.of_nat (length (starlink_tles_v1 rounded random)) = 4408 /\ Z.of_nat (length (starlink_tles_v2 rounded random)) = 29988 /\
  Z.of_nat (length (oneweb_tles rounded random)) = 6372.
Proof.
  intros rounded random. unfold starlink_tles_v1, starlink_tles_v2, oneweb_tles. rewrite !C249_count by reflexivity.
  split; [|split]; (cbn [combine map fst snd zsum fold_right]; rewrite ?Nat2Z.inj_add, ?Nat2Z.inj_mul; reflexivity).
Qed.
Print Assumptions C249_named.
Theorem C249_names : forall rounded random alts incs planes sats epoch name i t,
  nth_error (create_constellation rounded random alts incs planes sats epoch name) i = Some t ->
  exists num rest, t = name ++ lit " " ++ num ++ [ascii_of_nat 10] ++ rest /\ plain_number num (8000 + Z.of_nat i).
Proof.
  intros rounded random alts incs planes sats epoch name i t E. unfold create_constellation in E. apply shells_some in E. destruct E as [alt [inc [n [s [q [k [_ [_ ->]]]]]]]].
  exists (decimal (8000 + Z.of_nat i)). eexists. split; [unfold one_tle, tle_from_orbital_parameters, name_of; rewrite <- !app_assoc; reflexivity|]. apply decimal_plain. lia.
Qed.
Print Assumptions C249_names.
Theorem C249_distinct : forall rounded random alts incs planes sats epoch name, NoDup (create_constellation rounded random alts incs planes sats epoch name).
Proof.
  intros rounded random alts incs planes sats epoch name. apply NoDup_nth_error. intros i j I E. set (l := create_constellation rounded random alts incs planes sats epoch name) in *.
  destruct (nth_error l i) as [t|] eqn:EI; [|apply nth_error_None in EI; lia]. symmetry in E.
  destruct (C249_names _ _ _ _ _ _ _ _ _ _ EI) as [n1 [r1 [T1 [[_ [F1 V1]] _]]]]. destruct (C249_names _ _ _ _ _ _ _ _ _ _ E) as [n2 [r2 [T2 [[_ [F2 V2]] _]]]].
  rewrite T1 in T2. apply app_inv_head in T2. apply app_inv_head in T2.
  assert (X : n1 = n2).
  { clear - T2 F1 F2. revert n2 T2 F2. induction n1 as [|c n1 IH]; intros [|d n2] T F2.
    - reflexivity.
    - injection T as T _. inversion F2 as [|? ? X _]; subst. destruct (numeral_no_newline _ X eq_refl).
    - injection T as T _. inversion F1 as [|? ? X _]; subst. destruct (numeral_no_newline _ X eq_refl).
    - injection T as <- T. f_equal. apply IH; [inversion F1; assumption|exact T|inversion F2; assumption]. }
  subst n2. rewrite V1 in V2. lia.
Qed.
Print Assumptions C249_distinct.

(** ** C250: satellites are spread evenly *)
Theorem C250_planes : forall rounded random alts incs planes sats epoch name i alt inc n s, rounds rounded -> (forall i, 0 <= random i < 1)%R -> ~ In (ascii_of_nat 10) name ->
  (0 <= epoch <= 99999)%R -> (0 <= alt)%R -> (0 <= inc <= 360)%R ->
  nth_error alts i = Some alt -> nth_error incs i = Some inc -> nth_error planes i = Some n -> nth_error sats i = Some s -> s <> 1%nat ->
  let before := zsum (map (fun q => (fst q * snd q)%nat) (firstn i (combine planes sats))) in
  exists u, (0 <= u < 1)%R /\ forall a b, (a < n)%nat -> (b < s)%nat -> 8000 + Z.of_nat (before + (a * s + b)) < 100000 ->
    exists t nm l1 l2, nth_error (create_constellation rounded random alts incs planes sats epoch name) (before + (a * s + b)) = Some t /\ split_lines t = [nm; l1; l2] /\
      reads_places 4 (columns 18 8 l2) (rounded 4%nat (INR a * 360 / INR n)%R) /\ reads_places 4 (columns 44 8 l2) (rounded 4%nat (INR b * 360 / INR s + 360 * u)%R) /\
      reads_places 4 (columns 9 8 l2) (rounded 4%nat inc) /\ reads_places 8 (columns 53 11 l2) (rounded 8%nat (mean_motion alt)).
Proof.
  intros rounded random alts incs planes sats epoch name i alt inc n s RD R0 NN EP IA II EA EI EN ES NS before.
  assert (SPL : exists l1 l2, combine (combine (combine alts incs) planes) sats = l1 ++ (alt, inc, n, s) :: l2 /\ size l1 = before).
  { unfold before. clear before. revert incs planes sats i EA EI EN ES. induction alts as [|a0 alts IH]; intros [|x0 incs] [|n0 planes] [|s0 sats] [|i] EA EI EN ES; try discriminate.
    - cbn [nth_error] in *. injection EA as <-. injection EI as <-. injection EN as <-. injection ES as <-. exists []. eexists. split; reflexivity.
    - cbn [nth_error] in *. destruct (IH _ _ _ _ EA EI EN ES) as [l1 [l2 [E1 E2]]]. exists ((a0, x0, n0, s0) :: l1), l2. cbn [combine]. rewrite E1. split; [reflexivity|].
      unfold size in *. cbn [map firstn zsum fold_right]. cbn [fst snd]. unfold zsum in E2. rewrite E2. reflexivity. }
  destruct SPL as [l1 [l2 [SE SZ]]]. destruct (shells_nth rounded random name epoch l1 alt inc n s l2 8000 0) as [k H].
  exists (random k). split; [apply R0|]. intros a b A B NR.
  assert (Q := shell_nth random k n s a b NS A B). specialize (H _ _ Q). rewrite SZ in H. unfold create_constellation. rewrite SE, H.
  destruct (shell_range random k n s _ _ R0 (nth_error_In _ _ Q)) as [RM RR]. destruct (mean_motion_form alt IA) as [MP _]. assert (MS := mean_motion_small alt IA).
  unfold one_tle. cbn [fst snd].
  set (nr := 8000 + Z.of_nat (before + (a * s + b))) in *. set (ma := (INR b * 360 / INR s + 360 * random k)%R) in *. set (raan := (INR a * 360 / INR n)%R) in *.
  destruct (C248_lines nr (rounded 8%nat epoch) (rounded 4%nat inc) (rounded 4%nat raan) (rounded 4%nat ma) (rounded 8%nat (mean_motion alt))) with (name := name_of name nr) as [m1 [m2 G]].
  - split; [unfold nr; lia|exact NR].
  - apply rounded_range; [exact RD|lra|]. change (10 ^ 13)%Z with 10000000000000. cbn [pow]. lra.
  - apply rounded_range; [exact RD|lra|]. change (10 ^ 7)%Z with 10000000. cbn [pow]. lra.
  - apply rounded_range; [exact RD|lra|]. change (10 ^ 7)%Z with 10000000. cbn [pow]. lra.
  - apply rounded_range; [exact RD|lra|]. change (10 ^ 7)%Z with 10000000. cbn [pow]. lra.
  - apply rounded_range; [exact RD|lra|]. change (10 ^ 10)%Z with 10000000000. cbn [pow]. lra.
  - unfold name_of. rewrite !in_app_iff. intros [X|[X|X]]; [exact (NN X)|cbn in X; intuition discriminate|]. assert (P : 0 <= nr) by (unfold nr; lia). exact (reads_no_newline _ _ (decimal_reads nr P) X).
  - eexists. exists (name_of name nr), m1, m2. split; [reflexivity|]. destruct G as [G1 G2]. split; [exact G1|]. repeat split; apply G2.
Qed.
Print Assumptions C250_planes.
(** mean anomalies are not kept below 360 degrees *)
Theorem C250_anomaly_refuted : forall rounded name, rounds rounded -> ~ In (ascii_of_nat 10) name ->
  exists random t nm l1 l2 ma, (forall i, 0 <= random i < 1)%R /\ In t (create_constellation rounded random [550%R] [53%R] [1%nat] [2%nat] 23274 name) /\
    split_lines t = [nm; l1; l2] /\ reads_places 4 (columns 44 8 l2) ma /\ 3600000 < ma.
Proof.
  intros rounded name RD NN. exists (fun _ => 0.75%R).
  destruct (C250_planes rounded (fun _ => 0.75%R) [550%R] [53%R] [1%nat] [2%nat] 23274%R name 0 550%R 53%R 1%nat 2%nat RD ltac:(intros; lra) NN ltac:(lra) ltac:(lra) ltac:(lra)
    eq_refl eq_refl eq_refl eq_refl ltac:(discriminate)) as [u [U H]].
  assert (X : nth_error (create_constellation rounded (fun _ => 0.75%R) [550%R] [53%R] [1%nat] [2%nat] 23274 name) 1 = Some (one_tle rounded name 23274 53 (mean_motion 550) 8001 ((INR 1 * 360 / INR 2 + 360 * 0.75)%R, (INR 0 * 360 / INR 1)%R))) by reflexivity.
  destruct (C248_lines 8001 (rounded 8%nat 23274%R) (rounded 4%nat 53%R) (rounded 4%nat (INR 0 * 360 / INR 1)%R) (rounded 4%nat (INR 1 * 360 / INR 2 + 360 * 0.75)%R) (rounded 8%nat (mean_motion 550))) with (name := name_of name 8001) as [m1 [m2 G]].
  - lia.
  - apply rounded_range; [exact RD|lra|]. change (10 ^ 13)%Z with 10000000000000. cbn [pow]. lra.
  - apply rounded_range; [exact RD|lra|]. change (10 ^ 7)%Z with 10000000. cbn [pow]. lra.
  - apply rounded_range; [exact RD|cbn; lra|]. change (10 ^ 7)%Z with 10000000. cbn [pow INR]. lra.
  - apply rounded_range; [exact RD|cbn [INR]; lra|]. change (10 ^ 7)%Z with 10000000. cbn [pow INR]. lra.
  - destruct (mean_motion_form 550 ltac:(lra)) as [MP _]. assert (MS := mean_motion_small 550 ltac:(lra)). apply rounded_range; [exact RD|lra|]. change (10 ^ 10)%Z with 10000000000. cbn [pow]. lra.
  - unfold name_of. rewrite !in_app_iff. intros [Y|[Y|Y]]; [exact (NN Y)|cbn in Y; intuition discriminate|]. exact (reads_no_newline _ _ (decimal_reads 8001 ltac:(lia)) Y).
  - eexists. exists (name_of name 8001), m1, m2. eexists. split; [intros; lra|]. split; [exact (nth_error_In _ _ X)|]. split; [apply G|]. split; [apply G|].
    specialize (RD 4%nat (INR 1 * 360 / INR 2 + 360 * 0.75)%R). cbn [INR pow] in RD. apply lt_IZR. cbn [INR]. unfold Rabs in RD. destruct (Rcase_abs _); lra.
Qed.
Print Assumptions C250_anomaly_refuted.

(** ** C251: mean motion *)
Theorem C251_kepler : forall a b, (0 <= a < b)%R -> (0 < mean_motion b < mean_motion a /\ mean_motion a < 20 /\ mean_motion a ^ 2 * (a + 6378.1) ^ 3 = mean_motion b ^ 2 * (b + 6378.1) ^ 3)%R.
Proof.
  intros a b H. destruct (mean_motion_form a) as [MA EA]; [lra|]. destruct (mean_motion_form b) as [MB EB]; [lra|].
  split; [split; [exact MB|apply mean_motion_lt; exact H]|]. split; [apply mean_motion_small; lra|]. rewrite EA, EB. reflexivity.
Qed.
Print Assumptions C251_kepler.

(** a rounding exists: the nearest integer *)
Definition nearest (d : nat) (x : R) : Z := Int_part (x * 10 ^ d + 1 / 2).
Example C248_case : rounds nearest /\ ~ In (ascii_of_nat 10) (lit "starV1") /\ (forall i : nat, 0 <= (fun _ => 0.75) i < 1)%R.
Proof.
  split; [|split; [cbn; intuition discriminate|intros; lra]]. intros d x. unfold nearest. assert (B := base_Int_part (x * 10 ^ d + 1 / 2)). unfold Rabs. destruct (Rcase_abs _); lra.
Qed.
Example C249_case : length (create_constellation nearest (fun _ => 0.75%R) [550; 540]%R [53; 53.2]%R [2; 3]%nat [4; 1]%nat 23274 (lit "starV1")) = 11%nat.
Proof. rewrite C249_count by reflexivity. reflexivity. Qed.
Example C250_case : nth_error [550; 540]%R 1 = Some 540%R /\ nth_error [2; 3]%nat 1 = Some 3%nat /\ 4%nat <> 1%nat. Proof. repeat split. discriminate. Qed.
Example C251_case : (0 <= 550 < 1200)%R. Proof. lra. Qed.
