(** C274-C276: colour-and-slope counts, AGN time lag. *)
From Coq Require Import Reals ZArith Lra Lia List Permutation Sorted.
From Verif Require Import Base Small_Model Small_Spec Small_Proofs Small_Proofs2.
Open Scope R_scope.

(** ** The checker *)
Lemma in_band_In fc b vs v : In v (in_band fc b vs) <-> In v vs /\ c_text v fc = b.
Proof. unfold in_band. rewrite filter_In, String.eqb_eq. reflexivity. Qed.

Lemma span_ge l len : 0 < len -> (len <= span l <-> exists a b, In a l /\ In b l /\ len <= a - b).
Proof.
  intro P. destruct l as [|x t]; cbn [span].
  - split; [lra|]. intros (a & b & [] & _).
  - pose proof (fold_max_le t x) as [A1 A2]. pose proof (fold_min_le t x) as [B1 B2].
    pose proof (fold_max_in t x) as MI. pose proof (fold_min_in t x) as NI.
    split.
    + intro H. exists (fold_left Rmax t x), (fold_left Rmin t x). auto.
    + intros (a & b & I & J & H).
      assert (a <= fold_left Rmax t x) by (destruct I as [<-|I]; auto).
      assert (fold_left Rmin t x <= b) by (destruct J as [<-|J]; auto). lra.
Qed.

Lemma has_slope_spec fc tc len vs : 0 < len ->
  has_slope fc tc len vs = true <-> slope (fun v => c_text v fc) (fun v => c_num v tc) len vs.
Proof.
  intro P. unfold has_slope, slope. rewrite existsb_exists. split.
  - intros (b & _ & H). apply Rle_b in H. apply span_ge in H as (x & y & I & J & H); [|exact P].
    apply in_map_iff in I as (v & <- & I). apply in_map_iff in J as (w & <- & J).
    apply in_band_In in I as [I Eb], J as [J Eb']. exists v, w. repeat split; congruence || assumption.
  - intros (v & w & I & J & E & H). exists (c_text v fc). split.
    + apply nodup_In, in_map_iff. eauto.
    + apply Rle_b, span_ge; [exact P|]. exists (c_num v tc), (c_num w tc). split; [|split; [|exact H]].
      * apply in_map_iff. exists v. split; [reflexivity|]. apply in_band_In. auto.
      * apply in_map_iff. exists w. split; [reflexivity|]. apply in_band_In. auto.
Qed.

Lemma gaps_In tc l1 l2 g : In g (gaps tc l1 l2) <-> exists v w, In v l1 /\ In w l2 /\ g = c_num v tc - c_num w tc.
Proof.
  unfold gaps. rewrite in_flat_map. split.
  - intros (w & J & I). apply in_map_iff in I as (v & <- & I). eauto 6.
  - intros (v & w & I & J & ->). exists w. split; [exact J|]. apply in_map_iff. eauto.
Qed.
Lemma has_color_spec fc tc len vs :
  has_color fc tc len vs = true <-> colour (fun v => c_text v fc) (fun v => c_num v tc) len vs.
Proof.
  unfold has_color, colour. cbv zeta. rewrite existsb_exists. split.
  - intros (b1 & _ & H). apply existsb_exists in H as (b2 & _ & H).
    destruct (String.eqb b1 b2) eqn:E; [discriminate|]. apply String.eqb_neq in E.
    destruct (positive_gaps _) as [|g t] eqn:G; [discriminate|]. apply Rle_b in H.
    pose proof (fold_min_in t g) as I. rewrite <- G in I. unfold positive_gaps in I. apply filter_In in I as [I P]. apply Rlt_b in P.
    apply gaps_In in I as (v & w & Iv & Iw & EG). apply in_band_In in Iv as [Iv Bv], Iw as [Iw Bw].
    exists v, w. rewrite <- EG. repeat split; auto. congruence.
  - intros (v & w & I & J & N & H). exists (c_text v fc). split; [apply nodup_In, in_map_iff; eauto|].
    apply existsb_exists. exists (c_text w fc). split; [apply nodup_In, in_map_iff; eauto|].
    apply String.eqb_neq in N. rewrite N.
    assert (G : In (c_num v tc - c_num w tc) (positive_gaps (gaps tc (in_band fc (c_text v fc) vs) (in_band fc (c_text w fc) vs)))).
    { unfold positive_gaps. apply filter_In. split; [|apply Rlt_b; lra]. apply gaps_In. exists v, w. repeat split; apply in_band_In; auto. }
    destruct (positive_gaps _) as [|g t]; [destruct G|]. apply Rle_b.
    pose proof (fold_min_le t g) as [A B]. destruct G as [->|G]; [lra|]. specialize (B _ G). lra.
Qed.
Lemma check_spec fc tc color len vs : 0 < len ->
  check_color_slope fc tc color len vs = 1%nat /\ colour_and_slope (fun v => c_text v fc) (fun v => c_num v tc) color len vs
  \/ check_color_slope fc tc color len vs = 0%nat /\ ~ colour_and_slope (fun v => c_text v fc) (fun v => c_num v tc) color len vs.
Proof.
  intro P. unfold check_color_slope, colour_and_slope. destruct (Nat.ltb_spec (length vs) 3).
  - right. split; [reflexivity|]. lia.
  - destruct (has_color fc tc color vs && has_slope fc tc len vs) eqn:E.
    + apply andb_true_iff in E as [E1 E2]. apply has_color_spec in E1. apply has_slope_spec in E2; [|exact P]. left. auto.
    + right. split; [reflexivity|]. intros (_ & C & S). apply has_color_spec in C. apply (has_slope_spec fc tc len vs P) in S.
      rewrite C, S in E. discriminate.
Qed.

Lemma binned_count id color len vs : 0 < len ->
  CountIs (fun k => colour_and_slope (fun v => c_text v "band"%string) (fun v => c_num v "observationStartMJD"%string) color len
                      (filter (fun v => Z.eqb (id v) k) vs)) (nodup Z.eq_dec (map id vs))
    (binned_sum id (check_color_slope "band" "observationStartMJD" color len) vs).
Proof.
  intro P. unfold binned_sum. induction (nodup Z.eq_dec (map id vs)) as [|k t IH]; [constructor|].
  cbn [map list_sum fold_right].
  destruct (check_spec "band" "observationStartMJD" color len (filter (fun v => Z.eqb (id v) k) vs) P) as [[-> C]|[-> C]].
  - now apply count_yes.
  - now apply count_no.
Qed.

(** The visits deeper than the limit of their band. *)
Definition deep_visits (mag : list (string * R)) (fc : string) (vs data : list csvisit) : Prop :=
  exists keep : csvisit -> bool, data = filter keep vs
  /\ forall v, In v vs -> (keep v = true <-> exists m, dget String.eqb mag (c_text v fc) = Some m /\ m < c_m5 v).
Lemma deep_ok fc mag vs data : deep fc mag vs = Ok data -> deep_visits mag fc vs data.
Proof.
  unfold deep. destruct (forallb _ vs); [|discriminate]. intro E. injection E as <-.
  eexists. split; [reflexivity|]. intros v _. cbn beta. destruct (dget String.eqb mag (c_text v fc)) as [m|].
  - rewrite Rlt_b. split; [eauto|]. intros (m' & Q & L). injection Q as <-. exact L.
  - split; [discriminate|]. intros (m' & Q & _). discriminate.
Qed.

(** ** C274 ColorSlopeMetric *)
(** With the default columns: the number of nights on which the visits deep enough
    number at least three and hold a colour and a slope. *)
Theorem C274_nights cols mag color len vs n :
  0 < len -> color_slope cols "band" mag color len vs = Ok n ->
  exists data nights, deep_visits mag "band" vs data /\ NoDup nights /\ (forall k, In k nights <-> exists v, In v data /\ c_night v = k)
  /\ CountIs (fun k => colour_and_slope (fun v => c_text v "band"%string) (fun v => c_num v "observationStartMJD"%string) (color / 24) (len / 24)
                         (filter (fun v => Z.eqb (c_night v) k) data)) nights n.
Proof.
  intros P H. unfold color_slope in H. destruct (deep "band" mag vs) as [data|] eqn:D; [|discriminate]. cbn [bind] in H.
  exists data, (nodup Z.eq_dec (map c_night data)). split; [now apply deep_ok|]. split; [apply NoDup_nodup|].
  split; [intro k; rewrite nodup_In, in_map_iff; split; intros (v & A & B); eauto|].
  assert (Q : n = binned_sum c_night (check_color_slope "band" "observationStartMJD" (color / 24) (len / 24)) data).
  { destruct data as [|v t]; [injection H as <-; reflexivity|].
    unfold run_checker in H. destruct (groups_big c_night (v :: t) && negb (checker_ok cols)); [discriminate|]. injection H as <-. reflexivity. }
  rewrite Q. apply binned_count; lra.
Qed.
Print Assumptions C274_nights.

(** The column names given to the metric do not reach the checker: a table without
    a column of the default name is an error as soon as a night has three visits. *)
Theorem C274_columns_refuted cols fc mag color len vs data k :
  ~ In "observationStartMJD"%string cols \/ ~ In "band"%string cols ->
  deep fc mag vs = Ok data -> (3 <= length (filter (fun v => Z.eqb (c_night v) k) data))%nat ->
  color_slope cols fc mag color len vs = Err ValueError.
Proof.
  intros NC D L. unfold color_slope. rewrite D. cbn [bind].
  assert (GB : groups_big c_night data = true).
  { unfold groups_big. apply existsb_exists. exists k. split; [|now apply Nat.leb_le].
    apply nodup_In. destruct (filter (fun v => Z.eqb (c_night v) k) data) as [|v t] eqn:F; [cbn in L; lia|].
    assert (I : In v (v :: t)) by now left. rewrite <- F in I. apply filter_In in I as [I E]. apply Z.eqb_eq in E.
    apply in_map_iff. eauto. }
  assert (CO : checker_ok cols = false).
  { unfold checker_ok. apply not_true_iff_false. intro E. apply andb_true_iff in E as [E1 E2].
    apply existsb_exists in E1 as (a & A1 & A2). apply existsb_exists in E2 as (b & B1 & B2).
    apply String.eqb_eq in A2, B2. subst. tauto. }
  destruct data as [|v t]; [cbn in L; lia|]. unfold run_checker. rewrite GB, CO. reflexivity.
Qed.
Print Assumptions C274_columns_refuted.

Definition cv (b : string) (t : R) (n : Z) : csvisit := {| c_text := fun _ => b; c_num := fun _ => t; c_night := n; c_m5 := 24 |}.
Definition mag20 : list (string * R) := [("g", 20); ("r", 20)]%string.
Definition deflt : list string := ["band"; "night"; "fiveSigmaDepth"; "observationStartMJD"]%string.
Lemma deep_cv l : (forall v, In v l -> exists b t n, v = cv b t n /\ (b = "g" \/ b = "r")%string) -> deep "band" mag20 l = Ok l.
Proof.
  intro H. unfold deep.
  assert (E : forall v, In v l -> dget String.eqb mag20 (c_text v "band") = Some 20 /\ c_m5 v = 24).
  { intros v I. destruct (H v I) as (b & t & n & -> & [-> | ->]); split; reflexivity. }
  assert (F : forallb (fun v => match dget String.eqb mag20 (c_text v "band") with Some _ => true | None => false end) l = true).
  { apply forallb_forall. intros v I. destruct (E v I) as [-> _]. reflexivity. }
  rewrite F. f_equal. clear F H. induction l as [|v t IH]; [reflexivity|]. cbn [filter].
  destruct (E v (or_introl eq_refl)) as [-> ->]. destruct (Rlt_dec 20 24); [|lra]. f_equal. apply IH. intros; apply E; now right.
Qed.
(** "The maximum length of time different filters be observed to still count as a
    color": two visits at the same moment do not count. *)
Theorem C274_simultaneous_refuted :
  exists vs, color_slope deflt "band" mag20 1 3 vs = Ok 0%nat
  /\ (exists v w, In v vs /\ In w vs /\ c_night v = c_night w /\ c_text v "band"%string <> c_text w "band"%string
       /\ 0 <= c_num v "observationStartMJD"%string - c_num w "observationStartMJD"%string <= 1 / 24)
  /\ slope (fun v => c_text v "band"%string) (fun v => c_num v "observationStartMJD"%string) (3 / 24) vs.
Proof.
  exists [cv "g" 0 7; cv "r" 0 7; cv "g" (1 / 5) 7]. split; [|split].
  - unfold color_slope. rewrite deep_cv.
    2:{ intros v [<-|[<-|[<-|[]]]]; do 3 eexists; split; try reflexivity; auto. }
    cbn [bind]. unfold run_checker. change (checker_ok deflt) with true. cbn [negb]. rewrite andb_false_r. f_equal.
    unfold binned_sum. cbn [map c_night cv nodup]. destruct (in_dec Z.eq_dec 7%Z [7; 7]%Z) as [_|N]; [|elim N; now left].
    destruct (in_dec Z.eq_dec 7%Z [7]%Z) as [_|N]; [|elim N; now left]. destruct (in_dec Z.eq_dec 7%Z []%Z) as [[]|_].
    cbn [map filter c_night cv]. rewrite !Z.eqb_refl.
    match goal with |- list_sum [?c] = _ => assert (E : c = 0%nat) end.
    { match goal with |- ?c = _ => destruct (check_spec "band" "observationStartMJD" (1 / 24) (3 / 24) [cv "g" 0 7; cv "r" 0 7; cv "g" (1 / 5) 7]) as [[_ (_ & C & _)]|[C _]] end.
      - lra.
      - destruct C as (v & w & Iv & Iw & N & G).
        destruct Iv as [<-|[<-|[<-|[]]]], Iw as [<-|[<-|[<-|[]]]]; cbn in N, G; try congruence; lra.
      - exact C. }
    rewrite E. reflexivity.
  - exists (cv "g" 0 7), (cv "r" 0 7). cbn. repeat split; auto; try discriminate; lra.
  - exists (cv "g" (1 / 5) 7), (cv "g" 0 7). cbn. repeat split; auto; lra.
Qed.
Print Assumptions C274_simultaneous_refuted.

Example C274_case : colour_and_slope (fun v => c_text v "band"%string) (fun v => c_num v "observationStartMJD"%string) (1 / 24) (3 / 24)
    [cv "g" 0 7; cv "r" (1 / 50) 7; cv "g" (1 / 5) 7]
  /\ exists n, color_slope deflt "band" mag20 1 3 [cv "g" 0 7; cv "r" (1 / 50) 7; cv "g" (1 / 5) 7] = Ok n.
Proof.
  split.
  - split; [cbn; lia|]. split.
    + exists (cv "r" (1 / 50) 7), (cv "g" 0 7). cbn. repeat split; auto; try discriminate; lra.
    + exists (cv "g" (1 / 5) 7), (cv "g" 0 7). cbn. repeat split; auto; lra.
  - unfold color_slope. rewrite deep_cv.
    2:{ intros v [<-|[<-|[<-|[]]]]; do 3 eexists; split; try reflexivity; auto. }
    cbn [bind]. unfold run_checker. change (checker_ok deflt) with true. cbn [negb]. rewrite andb_false_r. eauto.
Qed.

(** ** C275 ColorSlope2NightMetric *)
Lemma count_app {A} (P : A -> Prop) l m a b : CountIs P l a -> CountIs P m b -> CountIs P (l ++ m) (a + b).
Proof. intros H K. induction H; cbn; [exact K|now apply count_yes|now apply count_no]. Qed.
Lemma count_map {A B} (f : A -> B) (P : B -> Prop) l n : CountIs (fun x => P (f x)) l n -> CountIs P (map f l) n.
Proof. induction 1; cbn; [constructor|now apply count_yes|now apply count_no]. Qed.
Lemma nodup_app {A} (l m : list A) : NoDup l -> NoDup m -> (forall x, In x l -> In x m -> False) -> NoDup (l ++ m).
Proof.
  intros H K D. induction H as [|x t N H IH]; [exact K|]. cbn. constructor.
  - rewrite in_app_iff. intros [I|I]; [auto|apply (D x); [now left|exact I]].
  - apply IH. intros y I J. apply (D y); [now right|exact J].
Qed.
Lemma nodup_inj (f : Z -> Z) l : (forall x y, f x = f y -> x = y) -> NoDup l -> NoDup (map f l).
Proof.
  intros J H. induction H as [|x t N H IH]; cbn; constructor; [|exact IH].
  intro I. apply in_map_iff in I as (y & E & I). apply J in E. now subst.
Qed.
Lemma floor_pair n k : (n / 2 = k <-> n = 2 * k \/ n = 2 * k + 1)%Z.
Proof. pose proof (Z.div_mod n 2 ltac:(lia)). pose proof (Z.mod_pos_bound n 2 ltac:(lia)). lia. Qed.
Lemma ceil_pair n k : (- ((- n) / 2) = k <-> n = 2 * k - 1 \/ n = 2 * k)%Z.
Proof. pose proof (Z.div_mod (- n) 2 ltac:(lia)). pose proof (Z.mod_pos_bound (- n) 2 ltac:(lia)). lia. Qed.

(** The number of pairs of consecutive nights whose visits together hold a colour
    and a slope: every pair with a deep visit is looked at, once. *)
Theorem C275_pairs cols mag color len vs n :
  0 < len -> color_slope_2night cols "band" mag color len vs = Ok n ->
  exists data firsts, deep_visits mag "band" vs data /\ NoDup firsts
  /\ (forall m, In m firsts <-> exists v, In v data /\ (c_night v = m \/ c_night v = m + 1)%Z)
  /\ CountIs (fun m => colour_and_slope (fun v => c_text v "band"%string) (fun v => c_num v "observationStartMJD"%string) (color / 24) (len / 24)
                         (filter (fun v => Z.eqb (c_night v) m || Z.eqb (c_night v) (m + 1)) data)) firsts n.
Proof.
  intros P H. unfold color_slope_2night in H. destruct (deep "band" mag vs) as [data|] eqn:D; [|discriminate]. cbn [bind] in H.
  set (f1 := fun v => (c_night v / 2)%Z) in *. set (f2 := fun v => (- ((- c_night v) / 2))%Z) in *.
  set (chk := check_color_slope "band" "observationStartMJD" (color / 24) (len / 24)).
  exists data, (map (fun k => 2 * k)%Z (nodup Z.eq_dec (map f1 data)) ++ map (fun k => 2 * k - 1)%Z (nodup Z.eq_dec (map f2 data))).
  split; [now apply deep_ok|]. split; [|split].
  - apply nodup_app; [apply nodup_inj; [intros; lia|apply NoDup_nodup]|apply nodup_inj; [intros; lia|apply NoDup_nodup]|].
    intros x I J. apply in_map_iff in I as (a & <- & _). apply in_map_iff in J as (b & E & _). lia.
  - intro m. rewrite in_app_iff, !in_map_iff. split.
    + intros [(k & <- & I)|(k & <- & I)]; apply nodup_In, in_map_iff in I as (v & E & I); exists v; (split; [exact I|]).
      * apply floor_pair in E. exact E.
      * apply ceil_pair in E. lia.
    + intros (v & I & E). destruct (Z.Even_or_Odd m) as [[k K]|[k K]].
      * left. exists k. split; [lia|]. apply nodup_In, in_map_iff. exists v. split; [|exact I]. apply floor_pair. lia.
      * right. exists (k + 1)%Z. split; [lia|]. apply nodup_In, in_map_iff. exists v. split; [|exact I]. apply ceil_pair. lia.
  - assert (Q : n = (binned_sum f1 chk data + binned_sum f2 chk data)%nat).
    { destruct data as [|v t]; [injection H as <-; reflexivity|].
      unfold run_checker in H.
      destruct (groups_big f1 (v :: t) && negb (checker_ok cols)); [discriminate|]. cbn [bind] in H.
      destruct (groups_big f2 (v :: t) && negb (checker_ok cols)); [discriminate|]. cbn [bind] in H. injection H as <-. reflexivity. }
    rewrite Q. apply count_app; apply count_map.
    + eapply count_ext; [|apply binned_count; lra]. intros k _. cbn beta.
      rewrite (filter_ext (fun v => Z.eqb (f1 v) k) (fun v => Z.eqb (c_night v) (2 * k) || Z.eqb (c_night v) (2 * k + 1))); [reflexivity|].
      intro v. apply eq_true_iff_eq. rewrite orb_true_iff, !Z.eqb_eq. apply floor_pair.
    + eapply count_ext; [|apply binned_count; lra]. intros k _. cbn beta.
      rewrite (filter_ext (fun v => Z.eqb (f2 v) k) (fun v => Z.eqb (c_night v) (2 * k - 1) || Z.eqb (c_night v) (2 * k - 1 + 1))); [reflexivity|].
      intro v. apply eq_true_iff_eq. rewrite orb_true_iff, !Z.eqb_eq. replace (2 * k - 1 + 1)%Z with (2 * k)%Z by lia. apply ceil_pair.
Qed.
Print Assumptions C275_pairs.

(** A night that holds both by itself is counted twice, once with the night before
    and once with the night after. *)
Theorem C275_double_refuted mag color len vs k :
  0 < len -> vs <> [] -> (forall v, In v vs -> c_night v = k) -> deep "band" mag vs = Ok vs ->
  colour_and_slope (fun v => c_text v "band"%string) (fun v => c_num v "observationStartMJD"%string) (color / 24) (len / 24) vs ->
  color_slope_2night deflt "band" mag color len vs = Ok 2%nat /\ color_slope deflt "band" mag color len vs = Ok 1%nat.
Proof.
  intros P NE K D C.
  assert (ONE : forall id j, (forall v, In v vs -> id v = j) -> run_checker deflt id color len vs = Ok 1%nat).
  { intros id j J. unfold run_checker. change (checker_ok deflt) with true. cbn [negb]. rewrite andb_false_r. f_equal.
    unfold binned_sum.
    assert (M : nodup Z.eq_dec (map id vs) = [j]).
    { clear - NE J. induction vs as [|v t IH]; [easy|]. cbn [map nodup]. rewrite (J v (or_introl eq_refl)).
      destruct t as [|w t]; [reflexivity|].
      destruct (in_dec Z.eq_dec j (map id (w :: t))) as [_|N].
      - apply IH; [discriminate|]. intros; apply J; now right.
      - elim N. left. apply J. right. now left. }
    rewrite M. cbn [map].
    assert (F : filter (fun v => Z.eqb (id v) j) vs = vs).
    { clear - J. induction vs as [|v t IH]; [reflexivity|]. cbn [filter]. rewrite (J v (or_introl eq_refl)), Z.eqb_refl. f_equal. apply IH. intros; apply J; now right. }
    rewrite F. destruct (check_spec "band" "observationStartMJD" (color / 24) (len / 24) vs) as [[E _]|[_ N]]; [lra| |contradiction].
    rewrite E. reflexivity. }
  unfold color_slope_2night, color_slope. rewrite D. cbn [bind]. destruct vs as [|v0 t]; [easy|].
  rewrite (ONE _ (k / 2)%Z) by (intros v I; now rewrite (K v I)). cbn [bind].
  rewrite (ONE _ (- ((- k) / 2))%Z) by (intros v I; now rewrite (K v I)). cbn [bind].
  rewrite (ONE c_night k) by exact K. split; reflexivity.
Qed.
Print Assumptions C275_double_refuted.
Example C275_case : colour_and_slope (fun v => c_text v "band"%string) (fun v => c_num v "observationStartMJD"%string) (1 / 24) (15 / 24)
    [cv "g" 0 7; cv "r" (1 / 50) 7; cv "g" (7 / 10) 7]
  /\ deep "band" mag20 [cv "g" 0 7; cv "r" (1 / 50) 7; cv "g" (7 / 10) 7] = Ok [cv "g" 0 7; cv "r" (1 / 50) 7; cv "g" (7 / 10) 7].
Proof.
  split.
  - split; [cbn; lia|]. split.
    + exists (cv "r" (1 / 50) 7), (cv "g" 0 7). cbn. repeat split; auto; try discriminate; lra.
    + exists (cv "g" (7 / 10) 7), (cv "g" 0 7). cbn. repeat split; auto; lra.
  - apply deep_cv. intros v [<-|[<-|[<-|[]]]]; do 3 eexists; split; try reflexivity; auto.
Qed.

(** ** C276 AgnTimeLagMetric *)
(** The times that are looked at: positive ones of visits in ugrizy. *)
Lemma ugrizy_six b : existsb (String.eqb b) ugrizy = true <-> In b six.
Proof.
  rewrite existsb_exists. unfold ugrizy, six. split.
  - intros (x & I & E). apply String.eqb_eq in E. subst x. cbn in *. tauto.
  - intro I. exists b. split; [cbn in *; tauto|apply String.eqb_refl].
Qed.
Lemma usable_lag g r vs ts : usable_times vs ts -> ts = lag_times g r vs.
Proof.
  intros (keep & -> & H). unfold lag_times. induction vs as [|((b, t), m5) tl IH]; [reflexivity|].
  assert (IHH : forall v, In v tl -> (keep v = true <-> In (fst (fst v)) six /\ 0 < snd (fst v))) by (intros; apply H; now right).
  specialize (IH IHH). specialize (H _ (or_introl eq_refl)). cbn [fst snd] in H.
  cbn [filter map]. destruct (existsb (String.eqb b) ugrizy) eqn:U.
  - apply ugrizy_six in U. destruct (keep (b, t, m5)).
    + destruct H as [H _]. destruct (H eq_refl) as [_ P]. cbn [map fst snd]. destruct (Rlt_dec 0 t); [|contradiction]. f_equal. exact IH.
    + destruct (Rlt_dec 0 t); [|exact IH]. destruct H as [_ H]. discriminate H. auto.
  - assert (Ng : String.eqb b "g" = false) by (apply String.eqb_neq; intros ->; discriminate).
    assert (Nr : String.eqb b "r" = false) by (apply String.eqb_neq; intros ->; discriminate).
    rewrite Ng, Nr. destruct (Rlt_dec 0 0); [lra|]. destruct (keep (b, t, m5)); [|exact IH].
    destruct H as [H _]. destruct (H eq_refl) as [S _]. apply ugrizy_six in S. congruence.
Qed.

(** The depth cuts have no effect: neither the cut-offs nor the depths matter. *)
Theorem C276_cutoff_refuted ax1 dust ebv rint lag z thr c g r g' r' vs ms :
  length ms = length vs ->
  agn_time_lag ax1 dust ebv rint lag z thr c g' r' (map (fun p => let '((b, t, _), m) := p in (b, t, m)) (combine vs ms))
  = agn_time_lag ax1 dust ebv rint lag z thr c g r vs.
Proof.
  intro L. unfold agn_time_lag.
  assert (F : match map (fun p : string * R * R * R => let '((b, t, _), m) := p in (b, t, m)) (combine vs ms) with
              | [] => true | (b, _, _) :: _ => match dget String.eqb ax1 b with Some _ => true | None => false end end
            = match vs with [] => true | (b, _, _) :: _ => match dget String.eqb ax1 b with Some _ => true | None => false end end).
  { destruct vs as [|((b, t), m5) tl], ms; try discriminate; reflexivity. }
  cbv zeta. rewrite F.
  assert (T : lag_times g' r' (map (fun p : string * R * R * R => let '((b, t, _), m) := p in (b, t, m)) (combine vs ms)) = lag_times g r vs).
  { unfold lag_times. f_equal. rewrite map_map. clear F. revert ms L. induction vs as [|((b, t), m5) tl IH]; intros [|m ms] L; try discriminate; [reflexivity|].
    cbn [combine map]. f_equal; [|apply IH; now injection L].
    destruct (existsb (String.eqb b) ugrizy) eqn:U; [reflexivity|].
    assert (Ng : String.eqb b "g" = false) by (apply String.eqb_neq; intros ->; discriminate).
    assert (Nr : String.eqb b "r" = false) by (apply String.eqb_neq; intros ->; discriminate).
    now rewrite Ng, Nr. }
  rewrite T. reflexivity.
Qed.
Print Assumptions C276_cutoff_refuted.

Lemma diffs_length l : length (diffs l) = (length l - 1)%nat.
Proof. induction l as [|a [|b t] IH]; cbn in *; lia. Qed.
Lemma diffs_sum a l : rsum (diffs (a :: l)) = last (a :: l) 0 - a.
Proof.
  revert a. induction l as [|b t IH]; intro a; [cbn; lra|].
  change (diffs (a :: b :: t)) with ((b - a) :: diffs (b :: t)). cbn [rsum]. rewrite IH.
  change (last (a :: b :: t) 0) with (last (b :: t) 0). lra.
Qed.
Lemma last_max a l : StronglySorted Rle (a :: l) -> In (last (a :: l) 0) (a :: l) /\ forall x, In x (a :: l) -> x <= last (a :: l) 0.
Proof.
  revert a. induction l as [|b t IH]; intros a S; [cbn; split; [auto|intros x [<-|[]]; lra]|].
  inversion S as [|? ? S1 F]; subst. destruct (IH b S1) as [I M].
  change (last (a :: b :: t) 0) with (last (b :: t) 0). split; [now right|].
  intros x [<-|J]; [|auto]. rewrite Forall_forall in F. auto.
Qed.

(** Mean sampling: for n >= 2 times the value is lag / ((1+z) (latest - earliest)/(n-1)),
    given only when it is not below the threshold. *)
Theorem C276_mean ax1 dust ebv rint lag z thr g r vs ts first latest :
  (exists v, agn_time_lag ax1 dust ebv rint lag z thr Mean g r vs = Ok v) ->
  usable_times vs ts -> is_min first ts -> is_max latest ts -> first < latest -> -1 < z ->
  let n := lag * INR (length ts - 1) / ((1 + z) * (latest - first)) in
  agn_time_lag ax1 dust ebv rint lag z thr Mean g r vs = Ok (if Rlt_dec n thr then Bad else Fin n).
Proof.
  intros [v V] E A B O Z n. apply (usable_lag g r) in E. unfold agn_time_lag in *. cbv zeta in *.
  destruct (dust && _)%bool; [discriminate|]. clear V.
  rewrite <- E. set (s := rsort ts).
  assert (P : Permutation s ts) by apply rsort_perm.
  assert (S : StronglySorted Rle s) by apply rsort_sorted.
  destruct s as [|a [|b t]] eqn:Es.
  - apply Permutation_nil in P. subst ts. rewrite P in A. destruct A as [[] _].
  - apply Permutation_length_1_inv in P. rewrite P in A, B. destruct A as [[A|[]] _], B as [[B|[]] _]. lra.
  - assert (a = first).
    { apply Rle_antisym.
      - inversion S as [|? ? _ F]; subst. rewrite Forall_forall in F.
        destruct A as [I _]. apply (Permutation_in _ (Permutation_sym P)) in I. destruct I as [<-|I]; [lra|auto].
      - apply A. eapply Permutation_in; [exact P|now left]. }
    assert (LM : last (a :: b :: t) 0 = latest).
    { destruct (last_max a (b :: t) S) as [I M]. apply Rle_antisym.
      - apply B. eapply Permutation_in; [exact P|exact I].
      - apply M. eapply Permutation_in; [symmetry; exact P|apply B]. }
    pose proof (diffs_sum a (b :: t)) as DS. rewrite LM in DS.
    pose proof (diffs_length (a :: b :: t)) as DL. rewrite (Permutation_length P) in DL.
    assert (LT : (1 < length ts)%nat) by (rewrite <- (Permutation_length P); cbn; lia).
    change (diffs (a :: b :: t)) with ((b - a) :: diffs (b :: t)) in *.
    cbv iota. cbn [summarize]. rewrite DS, DL.
    assert (NN : 0 < INR (length ts - 1)) by (apply lt_0_INR; lia).
    subst a.
    assert (G : (latest - first) / INR (length ts - 1) <> 0).
    { apply Rgt_not_eq, Rdiv_lt_0_compat; lra. }
    destruct (Req_EM_T ((latest - first) / INR (length ts - 1)) 0); [contradiction|].
    assert (EN : lag / ((1 + z) * ((latest - first) / INR (length ts - 1))) = n) by (unfold n; field; repeat split; lra).
    rewrite EN. reflexivity.
Qed.
Print Assumptions C276_mean.

(** Minimum sampling: the smallest gap between two of the times. *)
Lemma diffs_nth s : forall i, (S i < length s)%nat -> nth i (diffs s) 0 = nth (S i) s 0 - nth i s 0.
Proof.
  induction s as [|a [|b t] IH]; intros i H; cbn in H; try lia.
  change (diffs (a :: b :: t)) with ((b - a) :: diffs (b :: t)). destruct i as [|i]; [reflexivity|].
  change (nth (S i) ((b - a) :: diffs (b :: t)) 0) with (nth i (diffs (b :: t)) 0).
  rewrite IH by (cbn; lia). reflexivity.
Qed.
Lemma sorted_nth' l : StronglySorted Rle l -> forall i j, (i <= j < length l)%nat -> nth i l 0 <= nth j l 0.
Proof.
  induction 1 as [|a t S IH F]; intros i j H; [cbn in H; lia|].
  destruct i, j; cbn in *; try lra; try lia.
  - rewrite Forall_forall in F. apply F, nth_In. lia.
  - apply IH. lia.
Qed.
Theorem C276_min ax1 dust ebv rint lag z thr g r vs x :
  forall ts, usable_times vs ts -> agn_time_lag ax1 dust ebv rint lag z thr Min g r vs = Ok (Fin x) ->
  exists s i, Permutation s ts /\ (S i < length s)%nat
  /\ x = lag / ((1 + z) * (nth (S i) s 0 - nth i s 0)) /\ thr <= x
  /\ forall j k, (j < k < length s)%nat -> nth (S i) s 0 - nth i s 0 <= nth k s 0 - nth j s 0.
Proof.
  intros ts U H. apply (usable_lag g r) in U. subst ts. unfold agn_time_lag in H. cbv zeta in H. destruct (dust && _)%bool; [discriminate|].
  set (s := rsort (lag_times g r vs)) in *.
  assert (S : StronglySorted Rle s) by apply rsort_sorted.
  destruct (diffs s) as [|d0 t] eqn:D; [discriminate|].
  cbn [summarize] in H. pose proof (fold_min_in t d0) as I. pose proof (fold_min_le t d0) as [M1 M2].
  set (m := fold_left Rmin t d0) in *.
  rewrite <- D in I. apply In_nth with (d := 0) in I as (i & Hi & E). rewrite diffs_length in Hi.
  assert (Hi' : (Datatypes.S i < length s)%nat) by lia.
  rewrite diffs_nth in E by exact Hi'.
  destruct (Req_EM_T m 0); [discriminate|]. destruct (Rlt_dec (lag / ((1 + z) * m)) thr); [discriminate|]. injection H as <-.
  exists s, i. split; [apply rsort_perm|]. split; [exact Hi'|]. rewrite E. split; [reflexivity|]. split; [lra|].
  intros j k L.
  assert (A : m <= nth (Datatypes.S j) s 0 - nth j s 0).
  { rewrite <- diffs_nth by lia.
    assert (J : In (nth j (diffs s) 0) (d0 :: t)) by (rewrite <- D; apply nth_In; rewrite diffs_length; lia).
    destruct J as [J|J]; [rewrite <- J; exact M1|auto]. }
  pose proof (sorted_nth' s S (Datatypes.S j) k ltac:(lia)). lra.
Qed.
Print Assumptions C276_min.

(** Fewer than two usable visits, or a value below the threshold: masked. *)
Theorem C276_bad ax1 dust ebv rint lag z thr c g r vs v :
  forall ts, usable_times vs ts -> agn_time_lag ax1 dust ebv rint lag z thr c g r vs = Ok v ->
  ((length ts < 2)%nat -> v = Bad) /\ (forall x, v = Fin x -> thr <= x).
Proof.
  intros ts U H. apply (usable_lag g r) in U. subst ts. unfold agn_time_lag in H. cbv zeta in H. destruct (dust && _)%bool; [discriminate|].
  pose proof (diffs_length (rsort (lag_times g r vs))) as L. rewrite (Permutation_length (rsort_perm _)) in L.
  destruct (diffs (rsort (lag_times g r vs))) as [|d t] eqn:D.
  - injection H as <-. split; [reflexivity|discriminate].
  - split; [intro Q; cbn in L; lia|]. destruct (Req_EM_T _ 0); [injection H as <-; discriminate|].
    match type of H with Ok (if Rlt_dec ?n thr then _ else _) = _ => destruct (Rlt_dec n thr); injection H as <- end; [discriminate|].
    intros x E. injection E as <-. lra.
Qed.
Print Assumptions C276_bad.

(** Two visits at the same time give an infinite value with calc_type "min". *)
Theorem C276_repeat_refuted : forall rint lag z thr, agn_time_lag [] false 0 rint lag z thr Min 22 21.8 [("r", 5, 24); ("i", 5, 24)]%string = Ok Inf.
Proof.
  intros. unfold agn_time_lag. cbv zeta. cbn [andb].
  assert (T : lag_times 22 21.8 [("r", 5, 24); ("i", 5, 24)]%string = [5; 5]).
  { unfold lag_times. cbn [map]. change (existsb (String.eqb "r") ugrizy) with true. change (existsb (String.eqb "i") ugrizy) with true.
    cbn [filter]. destruct (Rlt_dec 0 5); [reflexivity|lra]. }
  rewrite T. unfold rsort. cbn [fold_right rinsert]. destruct (Rle_dec 5 5); [|lra]. cbn [diffs summarize fold_left].
  destruct (Req_EM_T (5 - 5) 0); [reflexivity|lra].
Qed.
Print Assumptions C276_repeat_refuted.
Example C276_case : is_min 5 [5; 9] /\ is_max 9 [5; 9] /\ 5 < 9 /\ -1 < 1
  /\ usable_times [("r", 5, 24); ("i", 9, 24); ("w", 7, 24)]%string [5; 9].
Proof.
  split; [split; [now left|intros x [<-|[<-|[]]]; lra]|]. split; [split; [right; now left|intros x [<-|[<-|[]]]; lra]|].
  split; [lra|]. split; [lra|].
  exists (fun v => negb (String.eqb (fst (fst v)) "w")). split; [reflexivity|].
  intros v [<-|[<-|[<-|[]]]]; cbn; split; intro; try discriminate; try (split; [tauto|lra]); try reflexivity.
  destruct H as [H _]. repeat (destruct H as [H|H]; [discriminate|]). destruct H.
Qed.
