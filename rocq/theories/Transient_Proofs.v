(** Lemmas about the transient metric. *)
From Verif Require Import Base Technical_Model Technical_Proofs Technical_Proofs3 Transient_Model Transient_Spec.
From Coq Require Import Lia Permutation Sorted.
Open Scope Z_scope.

Lemma duration_pos p : sane p -> 0 < duration p.
Proof. intros (H & Hn & _). unfold duration. nia. Qed.
Lemma lc_number_iff p start g v : sane p -> (lc_number p start v = g <-> in_lc p start g v).
Proof.
  intros Hs. pose proof (duration_pos p Hs) as Hd. unfold lc_number, in_lc.
  pose proof (Z.div_mod (vt v - start) (duration p) ltac:(lia)) as E. pose proof (Z.mod_pos_bound (vt v - start) (duration p) Hd) as B. split; [intros <-; nia|].
  intros H. symmetry. apply (Z.div_unique (vt v - start) (duration p) g (vt v - start - g * duration p)); [left; lia | lia].
Qed.
Lemma in_group p start vs g v : sane p -> (In v (group p start vs g) <-> In v vs /\ in_lc p start g v).
Proof. intros Hs. unfold group. rewrite filter_In, Z.eqb_eq, (lc_number_iff _ _ _ _ Hs). reflexivity. Qed.
Lemma bright_iff p start i v : bright p start i v = true <-> sees p start i v.
Proof. unfold bright, sees. apply Z.ltb_lt. Qed.
Lemma phase_time_range p start i v : sane p -> 0 <= phase_time p start i v < duration p.
Proof. intros Hs. apply Z.mod_pos_bound, duration_pos, Hs. Qed.
Lemma section_iff p start i v s : sane p -> (section p start i v = s <-> s * duration p <= phase_time p start i v * n_per_lc p < (s + 1) * duration p).
Proof.
  intros Hs. pose proof (duration_pos p Hs) as Hd. unfold section. set (x := phase_time p start i v * n_per_lc p).
  pose proof (Z.div_mod x (duration p) ltac:(lia)) as E. pose proof (Z.mod_pos_bound x (duration p) Hd) as B. split; [intros <-; nia|].
  intros H. symmetry. apply (Z.div_unique x (duration p) s (x - s * duration p)); [left; lia | lia].
Qed.
Lemma section_range p start i v : sane p -> 0 <= section p start i v < n_per_lc p.
Proof.
  intros Hs. pose proof (phase_time_range p start i v Hs). pose proof (duration_pos p Hs). destruct Hs as (_ & _ & Hn & _). unfold section. split; [apply Z.div_pos; nia|]. apply Z.div_lt_upper_bound; nia.
Qed.

(** places in a list *)
Lemma places_count {A} (P : A -> bool) (l : list A) (n : nat) :
  (n <= length (filter P l))%nat <-> exists places, NoDup places /\ length places = n /\ forall k, In k places -> exists v, nth_error l k = Some v /\ P v = true.
Proof.
  split.
  - intros H. assert (exists all, NoDup all /\ length all = length (filter P l) /\ forall k, In k all -> exists v, nth_error l k = Some v /\ P v = true) as (all & Hn & Hl & Ha).
    { clear. induction l as [|x t IH]; [exists []; repeat split; [constructor | intros k []]|]. destruct IH as (all & Hn & Hl & Ha).
      assert (NoDup (map S all)) as HnS by (apply FinFun.Injective_map_NoDup; [intros a b E; lia | exact Hn]).
      assert (forall k, In k (map S all) -> exists v, nth_error (x :: t) k = Some v /\ P v = true) as HaS by (intros k Hk; apply in_map_iff in Hk; destruct Hk as (j & <- & Hj); apply Ha; exact Hj).
      cbn [filter]. destruct (P x) eqn:E.
      - exists (0%nat :: map S all). split; [constructor; [intros Hi; apply in_map_iff in Hi; destruct Hi as (j & Ej & _); discriminate | exact HnS]|]. split; [cbn; rewrite map_length, Hl; reflexivity|].
        intros k [<-|Hk]; [exists x; split; [reflexivity | exact E] | apply HaS; exact Hk].
      - exists (map S all). split; [exact HnS | split; [rewrite map_length; exact Hl | exact HaS]]. }
    exists (firstn n all). split; [|split].
    + rewrite <- (firstn_skipn n all) in Hn. clear -Hn. induction (firstn n all) as [|x t IH]; [constructor|]. cbn in Hn. inversion Hn as [|? ? Hx Ht]; subst. constructor; [intros Hi; apply Hx, in_or_app; left; exact Hi | apply IH; exact Ht].
    + rewrite firstn_length. lia.
    + intros k Hk. apply Ha. rewrite <- (firstn_skipn n all). apply in_or_app. left. exact Hk.
  - intros (places & Hn & <- & H). set (idx := filter (fun k => match nth_error l k with Some v => P v | None => false end) (seq 0 (length l))).
    assert (length (filter P l) = length idx) as ->.
    { unfold idx. clear. assert (forall pre, length (filter P l) = length (filter (fun k => match nth_error (pre ++ l) k with Some v => P v | None => false end) (seq (length pre) (length l)))) as H; [|apply (H [])].
      induction l as [|x t IH]; intros pre; [reflexivity|]. cbn [length seq filter]. rewrite nth_error_app2, Nat.sub_diag by lia. cbn [nth_error]. specialize (IH (pre ++ [x])). rewrite <- app_assoc, app_length in IH. cbn [app length] in IH. rewrite Nat.add_1_r in IH.
      destruct (P x); cbn [length]; rewrite IH; reflexivity. }
    apply NoDup_incl_length; [exact Hn|]. intros k Hk. destruct (H k Hk) as (v & Ev & Hv). unfold idx. apply filter_In. split; [apply in_seq; split; [lia | apply nth_error_Some; congruence] | rewrite Ev; exact Hv].
Qed.
Lemma filter_filter' {A} (P Q : A -> bool) l : filter P (filter Q l) = filter (fun x => Q x && P x) l.
Proof. induction l as [|x t IH]; [reflexivity|]. cbn. destruct (Q x); cbn; [destruct (P x); rewrite IH; reflexivity | exact IH]. Qed.

(** the criteria of the model against the documented ones *)
Lemma pre_count p start vs i g : sane p ->
  (n_pre_peak p <= Z.of_nat (length (filter (fun v => (phase_time p start i v <? peak_time p) && bright p start i v) (group p start vs g))) <-> enough_before_peak p start vs i g).
Proof.
  intros Hs. unfold group. rewrite filter_filter'. set (P := fun x => (lc_number p start x =? g) && ((phase_time p start i x <? peak_time p) && bright p start i x)).
  assert (0 <= n_pre_peak p) as Hn by apply Hs. pose proof (places_count P vs (Z.to_nat (n_pre_peak p))) as H.
  assert (forall v, P v = true <-> in_lc p start g v /\ sees p start i v /\ phase_time p start i v < peak_time p) as HP.
  { intros v. unfold P. rewrite !andb_true_iff, Z.eqb_eq, Z.ltb_lt, bright_iff, (lc_number_iff _ _ _ _ Hs). tauto. }
  assert (n_pre_peak p <= Z.of_nat (length (filter P vs)) <-> (Z.to_nat (n_pre_peak p) <= length (filter P vs))%nat) as -> by lia.
  rewrite H. unfold enough_before_peak. split; intros (places & H1 & H2 & H3); exists places; (split; [exact H1 | split; [lia|]]); intros k Hk; destruct (H3 k Hk) as (v & Ev & Hv); exists v; (split; [exact Ev|]); apply HP; exact Hv.
Qed.
Lemma unique_z_count (l : list Z) n : 0 <= n -> (forall x, In x l -> 0 <= x < n) -> (n <= Z.of_nat (length (unique_z l)) <-> forall s, 0 <= s < n -> In s l).
Proof.
  intros Hn Hr. pose proof (sorted_lt_nodup _ (unique_z_sorted l)) as Hnd. split.
  - intros H s Hsr. assert (incl (zrange 0 (n - 1)) (unique_z l)) as Hi.
    { apply NoDup_length_incl; [exact Hnd | | intros x Hx; apply (unique_z_in l) in Hx; apply zrange_in; specialize (Hr x Hx); lia].
      unfold zrange. rewrite map_length, seq_length. lia. }
    apply (unique_z_in l). apply Hi. apply zrange_in. lia.
  - intros H. assert (length (zrange 0 (n - 1)) <= length (unique_z l))%nat as Hle.
    { apply NoDup_incl_length; [apply zrange_nodup|]. intros s Hs. apply zrange_in in Hs. apply unique_z_in, H. lia. }
    unfold zrange in Hle. rewrite map_length, seq_length in Hle. lia.
Qed.

Lemma band_in p start i grp f : sane p ->
  (In f (filter (fun f => n_per_lc p <=? Z.of_nat (length (unique_z (map (section p start i) (filter (fun v => String.eqb (vband v) f) (filter (fun v => 0 <? det1 p start i grp v) grp))))))
    (nodup string_dec (map vband (filter (fun v => 0 <? det1 p start i grp v) grp)))) <->
   forall s, 0 <= s < n_per_lc p -> exists v, In v grp /\ 0 < det1 p start i grp v /\ vband v = f /\ section p start i v = s).
Proof.
  intros Hs. assert (1 <= n_per_lc p) as Hn by apply Hs. set (pts := filter (fun v => 0 <? det1 p start i grp v) grp).
  assert (forall s, In s (map (section p start i) (filter (fun v => String.eqb (vband v) f) pts)) <-> exists v, In v grp /\ 0 < det1 p start i grp v /\ vband v = f /\ section p start i v = s) as Hm.
  { intros s. rewrite in_map_iff. unfold pts. split.
    - intros (v & Ev & Hv). apply filter_In in Hv. destruct Hv as [Hv Hb]. apply filter_In in Hv. destruct Hv as [Hv Hd]. apply String.eqb_eq in Hb. apply Z.ltb_lt in Hd. exists v. tauto.
    - intros (v & Hv & Hd & Hb & Ev). exists v. split; [exact Ev|]. apply filter_In. split; [apply filter_In; split; [exact Hv | apply Z.ltb_lt; exact Hd] | apply String.eqb_eq; exact Hb]. }
  rewrite filter_In, nodup_In, Z.leb_le. rewrite unique_z_count; [|lia | intros x Hx; apply in_map_iff in Hx; destruct Hx as (v & <- & _); apply section_range; exact Hs]. split.
  - intros [_ H] s Hr. apply Hm. apply H. exact Hr.
  - intros H. split; [|intros s Hr; apply Hm; apply H; exact Hr]. destruct (H 0 ltac:(lia)) as (v & Hv & Hd & Hb & _). subst f. apply in_map. unfold pts. apply filter_In. split; [exact Hv | apply Z.ltb_lt; exact Hd].
Qed.
Lemma bands_lower p start vs i g bands : sane p -> NoDup bands -> (forall f, In f bands -> all_sections p start vs i g f) -> Z.of_nat (length bands) <= bands_ok p start i (group p start vs g).
Proof.
  intros Hs Hn H. unfold bands_ok. cbv zeta. apply inj_le. apply NoDup_incl_length; [exact Hn|]. intros f Hf. apply (band_in p start i (group p start vs g) f Hs).
  intros s Hr. destruct (H f Hf s Hr) as (v & Hv & Hl & Hb & Ef & Hse). exists v. split; [apply in_group; [exact Hs | split; assumption]|]. split; [|split; [exact Ef | apply section_iff; [exact Hs | exact Hse]]].
  unfold det1. apply bright_iff in Hb. rewrite Hb. destruct (pre_ok _ _ _ _); lia.
Qed.
Lemma bands_upper p start vs i g n : sane p -> n_pre_peak p = 0 -> 0 <= n <= bands_ok p start i (group p start vs g) ->
  exists bands, NoDup bands /\ Z.of_nat (length bands) = n /\ forall f, In f bands -> all_sections p start vs i g f.
Proof.
  intros Hs H0 Hn. unfold bands_ok in Hn. cbv zeta in Hn. set (L := filter _ (nodup string_dec _)) in Hn.
  assert (NoDup L) as HL by (apply NoDup_filter, NoDup_nodup). exists (firstn (Z.to_nat n) L). split; [|split].
  - rewrite <- (firstn_skipn (Z.to_nat n) L) in HL. clear -HL. induction (firstn (Z.to_nat n) L) as [|x t IH]; [constructor|]. cbn in HL. inversion HL as [|? ? Hx Ht]; subst. constructor; [intros Hi; apply Hx, in_or_app; left; exact Hi | apply IH; exact Ht].
  - rewrite firstn_length. lia.
  - intros f Hf. assert (In f L) as Hi by (rewrite <- (firstn_skipn (Z.to_nat n) L); apply in_or_app; left; exact Hf). pose proof (proj1 (band_in p start i (group p start vs g) f Hs) Hi) as Hi'. clear Hi. rename Hi' into Hi.
    intros s Hr. destruct (Hi s Hr) as (v & Hv & Hd & Hb & Hse). apply in_group in Hv; [|exact Hs]. exists v. split; [apply Hv | split; [apply Hv | split; [|split; [exact Hb | apply section_iff; [exact Hs | exact Hse]]]]].
    apply bright_iff. unfold det1, pre_ok in Hd. rewrite H0 in Hd. cbn in Hd. destruct (bright p start i v); [reflexivity | lia].
Qed.
Lemma counted_iff p start vs i g : counted p start vs i g = true <-> exists v, In v (group p start vs g) /\ thresh p <= det2 p start i (group p start vs g) v.
Proof. unfold counted. rewrite existsb_exists. split; intros (v & Hv & H); exists v; (split; [exact Hv|]); apply Z.leb_le; exact H. Qed.
Lemma criteria_counted p start vs i g : sane p -> criteria p start vs i g -> counted p start vs i g = true.
Proof.
  intros Hs ((v & Hv & Hl & Hb) & Hpre & Hm). apply counted_iff. exists v. split; [apply in_group; [exact Hs | split; assumption]|]. unfold det2, det1, thresh. apply bright_iff in Hb. rewrite Hb.
  unfold pre_ok. pose proof (proj2 (pre_count p start vs i g Hs) Hpre) as Hc. apply Z.leb_le in Hc. rewrite Hc, andb_true_r.
  destruct (multi p) eqn:Em; [|destruct (0 <? n_pre_peak p); lia]. destruct Hm as [[E1 E2]|(bands & H1 & H2 & H3)]; [unfold multi in Em; rewrite E1, E2 in Em; discriminate|].
  pose proof (bands_lower p start vs i g bands Hs H1 H3). destruct (0 <? n_pre_peak p); lia.
Qed.
Lemma counted_criteria p start vs i g : sane p -> n_pre_peak p = 0 \/ n_per_lc p = 1 /\ n_filters p = 1 -> counted p start vs i g = true -> criteria p start vs i g.
Proof.
  intros Hs Hor Hc. apply counted_iff in Hc. destruct Hc as (v & Hv & Ht). pose proof (proj1 (in_group p start vs g v Hs) Hv) as [Hvi Hvl]. destruct Hs as (Hu & Hph & Hlc & Hnf & Hnp & Hss). assert (sane p) as Hs by (repeat split; assumption).
  destruct Hor as [H0|[E1 E2]].
  - assert (pre_ok p start i (group p start vs g) = false) as Epre by (unfold pre_ok; rewrite H0; reflexivity). unfold det2, det1, thresh in Ht. rewrite Epre, H0 in Ht. cbn [Z.ltb Z.compare] in Ht.
    assert (enough_before_peak p start vs i g) as Hp by (exists []; split; [constructor | split; [cbn; lia | intros k []]]).
    destruct (multi p) eqn:Em.
    + assert (0 <= n_filters p <= bands_ok p start i (group p start vs g)) as Hb by (destruct (bright p start i v); lia). destruct (bands_upper p start vs i g _ Hs H0 Hb) as (bands & H1 & H2 & H3).
      split; [|split; [exact Hp | right; exists bands; split; [exact H1 | split; [exact H2 | exact H3]]]]. destruct bands as [|f bands]; [cbn in H2; lia|]. destruct (H3 f (or_introl eq_refl) 0 ltac:(lia)) as (w & Hw & Hwl & Hwb & _). exists w. tauto.
    + split; [|split; [exact Hp | left; unfold multi in Em; apply orb_false_iff in Em; lia]]. exists v. split; [exact Hvi | split; [exact Hvl|]]. apply bright_iff. destruct (bright p start i v); [reflexivity | lia].
  - assert (multi p = false) as Em by (unfold multi; rewrite E1, E2; reflexivity). unfold det2, det1, thresh in Ht. rewrite Em in Ht.
    assert (enough_before_peak p start vs i g /\ sees p start i v) as [Hp Hb].
    { rewrite <- (pre_count p start vs i g Hs), <- bright_iff. unfold pre_ok in Ht. destruct (Z.ltb_spec 0 (n_pre_peak p)); cbn [andb] in Ht.
      - destruct (Z.leb_spec (n_pre_peak p) (Z.of_nat (length (filter (fun v => (phase_time p start i v <? peak_time p) && bright p start i v) (group p start vs g))))); destruct (bright p start i v); lia.
      - split; [lia|]. destruct (bright p start i v); [reflexivity | lia]. }
    split; [exists v; tauto | split; [exact Hp | left; split; assumption]].
Qed.

(** deeper limits *)
Lemma deeper_in vs vs' v : deeper vs vs' -> In v vs -> exists v', In v' vs' /\ vt v = vt v' /\ vband v = vband v' /\ vm5 v <= vm5 v'.
Proof. intros H. induction H as [|a b l l' Hab Hl IH]; intros Hi; [destruct Hi|]. destruct Hi as [<-|Hi]; [exists b; split; [left; reflexivity | exact Hab]|]. destruct (IH Hi) as (v' & Hv' & Hr). exists v'. split; [right; exact Hv' | exact Hr]. Qed.
Lemma deeper_times vs vs' : deeper vs vs' -> map vt vs = map vt vs'.
Proof. intros H. induction H as [|a b l l' Hab Hl IH]; [reflexivity|]. cbn. destruct Hab as (-> & _). rewrite IH. reflexivity. Qed.
Lemma deeper_filter (P Q : visit -> bool) vs vs' : deeper vs vs' -> (forall v v', vt v = vt v' -> vband v = vband v' -> vm5 v <= vm5 v' -> P v = Q v') -> deeper (filter P vs) (filter Q vs').
Proof. intros H HP. induction H as [|a b l l' Hab Hl IH]; [constructor|]. cbn. destruct Hab as (H1 & H2 & H3). rewrite (HP a b H1 H2 H3). destruct (Q b); [constructor; [tauto | exact IH] | exact IH]. Qed.
Lemma deeper_count (P Q : visit -> bool) vs vs' : deeper vs vs' -> (forall v v', vt v = vt v' -> vband v = vband v' -> vm5 v <= vm5 v' -> P v = true -> Q v' = true) -> (length (filter P vs) <= length (filter Q vs'))%nat.
Proof. intros H HP. induction H as [|a b l l' Hab Hl IH]; [apply le_n|]. cbn. destruct Hab as (H1 & H2 & H3). specialize (HP a b H1 H2 H3). destruct (P a); [rewrite (HP eq_refl); cbn; lia | destruct (Q b); cbn; lia]. Qed.
Lemma phase_time_ext p start i v v' : vt v = vt v' -> phase_time p start i v = phase_time p start i v'.
Proof. unfold phase_time. intros ->. reflexivity. Qed.
Lemma bright_mono p start i v v' : vt v = vt v' -> vband v = vband v' -> vm5 v <= vm5 v' -> bright p start i v = true -> bright p start i v' = true.
Proof. intros Ht Hb Hm. unfold bright. rewrite (phase_time_ext p start i v v' Ht), Hb. rewrite !Z.ltb_lt. lia. Qed.
Lemma pre_mono p start i grp grp' : deeper grp grp' -> pre_ok p start i grp = true -> pre_ok p start i grp' = true.
Proof.
  intros H. unfold pre_ok. rewrite !andb_true_iff, !Z.leb_le. intros [H1 H2]. split; [exact H1|]. eapply Z.le_trans; [exact H2|]. apply inj_le. apply (deeper_count _ _ _ _ H).
  intros v v' Ht Hb Hm Hp. apply andb_true_iff in Hp. rewrite <- (phase_time_ext p start i v v' Ht). apply andb_true_iff. split; [apply Hp | apply (bright_mono p start i v v' Ht Hb Hm); apply Hp].
Qed.
Lemma det1_mono p start i grp grp' v v' : deeper grp grp' -> vt v = vt v' -> vband v = vband v' -> vm5 v <= vm5 v' -> det1 p start i grp v <= det1 p start i grp' v'.
Proof.
  intros H Ht Hb Hm. unfold det1. pose proof (pre_mono p start i grp grp' H) as H1. pose proof (bright_mono p start i v v' Ht Hb Hm) as H2.
  destruct (pre_ok p start i grp); [rewrite (H1 eq_refl) | destruct (pre_ok p start i grp')]; (destruct (bright p start i v); [rewrite (H2 eq_refl) | destruct (bright p start i v')]); lia.
Qed.
Lemma bands_mono p start i grp grp' : sane p -> deeper grp grp' -> bands_ok p start i grp <= bands_ok p start i grp'.
Proof.
  intros Hs H. unfold bands_ok. cbv zeta. apply inj_le. apply NoDup_incl_length; [apply NoDup_filter, NoDup_nodup|]. intros f Hf.
  apply (band_in p start i grp' f Hs). pose proof (proj1 (band_in p start i grp f Hs) Hf) as Hf'. clear Hf. rename Hf' into Hf. intros s Hr. destruct (Hf s Hr) as (v & Hv & Hd & Hb & Hse). destruct (deeper_in _ _ v H Hv) as (v' & Hv' & Ht & Hb' & Hm).
  exists v'. split; [exact Hv' | split; [|split; [congruence|]]]. { pose proof (det1_mono p start i grp grp' v v' H Ht Hb' Hm). lia. } unfold section in *. rewrite <- (phase_time_ext p start i v v' Ht). exact Hse.
Qed.
Lemma counted_mono p start i vs vs' g : sane p -> deeper vs vs' -> counted p start vs i g = true -> counted p start vs' i g = true.
Proof.
  intros Hs H. assert (deeper (group p start vs g) (group p start vs' g)) as Hg by (apply deeper_filter; [exact H | intros v v' Ht _ _; unfold lc_number; rewrite Ht; reflexivity]).
  rewrite !counted_iff. intros (v & Hv & Ht). destruct (deeper_in _ _ v Hg Hv) as (v' & Hv' & E1 & E2 & E3). exists v'. split; [exact Hv'|]. unfold det2 in *.
  pose proof (det1_mono p start i _ _ v v' Hg E1 E2 E3). pose proof (bands_mono p start i _ _ Hs Hg). destruct (multi p); lia.
Qed.
Lemma detected_mono p start i vs vs' : sane p -> deeper vs vs' -> Z.of_nat (length (detected_lcs p start vs i)) <= Z.of_nat (length (detected_lcs p start vs' i)).
Proof.
  intros Hs H. apply inj_le. unfold detected_lcs. assert (map (lc_number p start) vs = map (lc_number p start) vs') as ->.
  { clear Hs. induction H as [|a b l l' Hab Hl IH]; [reflexivity|]. cbn. rewrite IH. f_equal. unfold lc_number. destruct Hab as (-> & _). reflexivity. }
  induction (unique_z (map (lc_number p start) vs')) as [|g t IH]; [apply le_n|]. cbn [filter]. pose proof (counted_mono p start i vs vs' g Hs H) as Hc. destruct (counted p start vs i g); [rewrite (Hc eq_refl); cbn; lia | destruct (counted p start vs' i g); cbn; lia].
Qed.
