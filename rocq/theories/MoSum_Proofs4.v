From Verif Require Import Base MoSum_Model MoSum_Spec MoSum_Proofs MoSum_Proofs2 MoSum_Proofs3.
From Coq Require Import QArith Qabs Lqa Lia Sorted.
Open Scope Q_scope.

Lemma seg_bounds x x0 y0 x1 y1 a b : x0 < x1 -> x0 <= x <= x1 -> a <= y0 <= b -> a <= y1 <= b -> a <= y0 + (y1 - y0) / (x1 - x0) * (x - x0) <= b.
Proof.
  intros H Hx H0 H1. set (v := y0 + (y1 - y0) / (x1 - x0) * (x - x0)).
  assert (v * (x1 - x0) == y0 * (x1 - x) + y1 * (x - x0)) as E by (unfold v; field; lra).
  assert (0 < x1 - x0) as P by lra. split; apply (Qmult_le_r _ _ _ P); rewrite E; nra.
Qed.
Lemma interp_from_bounds a b : forall pts x0 y0 x, sorted_pts ((x0, y0) :: pts) -> x0 <= x -> a <= y0 <= b -> (forall p, In p pts -> a <= snd p <= b) ->
  a <= interp_from x x0 y0 pts <= b.
Proof.
  intros pts. induction pts as [|[x1 y1] t IH]; intros x0 y0 x S Hx H0 H; cbn [interp_from]; [exact H0|].
  apply StronglySorted_inv in S. destruct S as [S F]. inversion F as [|? ? F1 _]; subst. cbn in F1. pose proof (H _ (or_introl eq_refl)) as H1. cbn [snd] in H1.
  destruct (qle_spec x1 x) as [[-> C]|[-> C]]; [apply IH; [exact S|exact C|exact H1|intros; apply H; right; assumption]|]. apply seg_bounds; try assumption. lra.
Qed.
Lemma interp_bounds a b xp fp x : length xp = length fp -> increasing xp -> xp <> [] -> (forall y, In y fp -> a <= y <= b) -> a <= interp x xp fp <= b.
Proof.
  intros L I N H. unfold interp. pose proof (combine_sorted xp fp L I) as S. assert (forall p, In p (combine xp fp) -> a <= snd p <= b) as B by (intros [u v] Hp; apply in_combine_r in Hp; apply H, Hp).
  assert (length (combine xp fp) = length xp) as Lc by (rewrite combine_length; lia). destruct (combine xp fp) as [|[x0 y0] pts]; [destruct xp; [congruence|discriminate]|].
  pose proof (B _ (or_introl eq_refl)) as H0. cbn [snd] in H0. destruct (qle_spec x x0) as [[-> _]|[-> C]]; [exact H0|].
  apply interp_from_bounds; [exact S|lra|exact H0|intros; apply B; right; assumption].
Qed.
Definition rising (pts : list (Q * Q)) : Prop := StronglySorted (fun a b => snd a <= snd b) pts.
Lemma interp_from_ge pts x0 y0 x : sorted_pts ((x0, y0) :: pts) -> rising ((x0, y0) :: pts) -> x0 <= x -> y0 <= interp_from x x0 y0 pts.
Proof.
  intros S R Hx. apply StronglySorted_inv in R. destruct R as [_ R]. rewrite Forall_forall in R.
  pose (b := fold_right (fun p acc => snd p + Qabs acc) (y0) pts).
  assert (exists b, y0 <= b /\ forall p, In p pts -> snd p <= b) as (B & B0 & HB).
  { clear. induction pts as [|p pts (B & B0 & HB)]; [exists y0; split; [apply Qle_refl|intros ? []]|]. destruct (qle_spec (snd p) B) as [[_ H]|[_ H]].
    - exists B. split; [exact B0|]. intros q [<-|Hq]; [exact H|apply HB, Hq].
    - exists (snd p). split; [lra|]. intros q [<-|Hq]; [apply Qle_refl|]. pose proof (HB q Hq). lra. }
  apply (interp_from_bounds y0 B pts x0 y0 x S Hx); [split; [apply Qle_refl|exact B0]|]. intros p Hp. split; [apply (R p Hp)|apply HB, Hp].
Qed.
Lemma interp_from_mono : forall pts x0 y0 x x', sorted_pts ((x0, y0) :: pts) -> rising ((x0, y0) :: pts) -> x0 <= x -> x <= x' -> interp_from x x0 y0 pts <= interp_from x' x0 y0 pts.
Proof.
  intros pts. induction pts as [|[x1 y1] t IH]; intros x0 y0 x x' S R Hx Hxx; [apply Qle_refl|].
  pose proof S as S'. apply StronglySorted_inv in S'. destruct S' as [S1 F]. inversion F as [|? ? F1 _]; subst. cbn in F1.
  pose proof R as R'. apply StronglySorted_inv in R'. destruct R' as [R1 G]. inversion G as [|? ? G1 _]; subst. cbn in G1. cbn [interp_from].
  destruct (qle_spec x1 x) as [[-> C]|[-> C]]; destruct (qle_spec x1 x') as [[-> C']|[-> C']]; try lra.
  - apply IH; assumption.
  - pose proof (interp_from_ge t x1 y1 x' S1 R1 C') as H1. pose proof (seg_bounds x x0 y0 x1 y1 y0 y1 F1 ltac:(lra) ltac:(lra) ltac:(lra)) as [_ H2]. lra.
  - assert (0 <= (y1 - y0) / (x1 - x0)) as Hs by (apply Qle_shift_div_l; lra). nra.
Qed.
Lemma rising_combine : forall xp fp, nondecreasing fp -> rising (combine xp fp).
Proof.
  intros xp. induction xp as [|x xp IH]; intros [|y fp] M; cbn [combine]; try constructor.
  - apply IH. intros i j H. apply (M (S i) (S j)). cbn [length]. lia.
  - apply Forall_forall. intros [a b] H. apply in_combine_r in H. apply at_in in H. destruct H as (i & Hi & <-). cbn [snd]. apply (M O (S i)). cbn [length]. lia.
Qed.
Lemma interp_mono xp fp x x' : length xp = length fp -> increasing xp -> nondecreasing fp -> x <= x' -> interp x xp fp <= interp x' xp fp.
Proof.
  intros L I M H. unfold interp. pose proof (combine_sorted xp fp L I) as S. pose proof (rising_combine xp fp M) as R. destruct (combine xp fp) as [|[x0 y0] pts]; [apply Qle_refl|].
  destruct (qle_spec x x0) as [[-> C]|[-> C]]; destruct (qle_spec x' x0) as [[-> C']|[-> C']]; try lra.
  - apply interp_from_ge; [exact S|exact R|lra].
  - apply interp_from_mono; [exact S|exact R|lra|exact H].
Qed.

(** * Sums over H *)
Lemma sum_over_nth f kw vals h w t : f kw h = Ok w -> sum_over_h f kw vals h = Ok t ->
  length vals = length w /\ length t = length vals /\ forall i, (i < length vals)%nat -> at_ t i == sum_to (fun j => at_ vals j * at_ w j) i.
Proof.
  intros E R. unfold sum_over_h in R. rewrite E in R. cbn [bind] in R. unfold weighted in R.
  destruct (Nat.eqb_spec (length vals) (length w)) as [L|]; [|discriminate]. cbn [bind] in R. injection R as <-.
  split; [exact L|]. unfold cumsum_q. split; [rewrite cumsum_length, zip_length by exact L; reflexivity|].
  intros i Hi. unfold at_ at 1. rewrite cumsum_nth by (rewrite zip_length by exact L; exact Hi). rewrite Qplus_0_l. apply sum_to_ext. intros j Hj. unfold at_. rewrite zip_nth by lia. reflexivity.
Qed.
Lemma sum_to_grow g : forall j i, (i <= j)%nat -> (forall k, (i < k <= j)%nat -> 0 <= g k) -> sum_to g i <= sum_to g j.
Proof.
  intros j. induction j as [|j IH]; intros i H P; [replace i with O by lia; apply Qle_refl|]. destruct (Nat.eq_dec i (S j)) as [->|Hn]; [apply Qle_refl|].
  cbn [sum_to]. pose proof (IH i ltac:(lia) ltac:(intros; apply P; lia)). pose proof (P (S j) ltac:(lia)). lra.
Qed.
Lemma totals_rise f kw vals h w t : f kw h = Ok w -> all_positive w -> sum_over_h f kw vals h = Ok t -> (forall v, In v vals -> 0 <= v) -> nondecreasing t.
Proof.
  intros E P R V i j [Hi Hj]. destruct (sum_over_nth _ _ _ _ _ _ E R) as (L & Lt & N). rewrite Lt in Hj. rewrite !N by lia. apply sum_to_grow; [exact Hi|].
  intros k Hk. pose proof (wpos w k P ltac:(lia)). assert (0 <= at_ vals k) by (apply V, nth_In; lia). nra.
Qed.
