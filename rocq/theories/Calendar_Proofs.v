(** Lemmas about the calendar model. *)
From Verif Require Import Base Calendar_Model Calendar_Spec.
From Coq Require Import Ascii Lia.
Open Scope Z_scope.

(** a check of a whole interval of integers, by binary recursion *)
Fixpoint all_from (f : Z -> bool) (lo : Z) (p : positive) : bool :=
  match p with
  | xH => f lo
  | xO q => all_from f lo q && all_from f (lo + Zpos q) q
  | xI q => f lo && (all_from f (lo + 1) q && all_from f (lo + 1 + Zpos q) q)
  end.
Lemma all_from_spec f : forall p lo, all_from f lo p = true -> forall x, lo <= x < lo + Zpos p -> f x = true.
Proof.
  induction p as [q IH|q IH|]; intros lo H x Hx; simpl in H.
  - apply andb_prop in H as [H0 H]. apply andb_prop in H as [H1 H2].
    assert (x = lo \/ lo + 1 <= x < lo + 1 + Zpos q \/ lo + 1 + Zpos q <= x < lo + 1 + Zpos q + Zpos q) as C by lia.
    destruct C as [->|[C|C]]; eauto.
  - apply andb_prop in H as [H1 H2].
    assert (lo <= x < lo + Zpos q \/ lo + Zpos q <= x < lo + Zpos q + Zpos q) as C by lia.
    destruct C as [C|C]; eauto.
  - assert (x = lo) as -> by lia. auto.
Qed.

Definition shift400 (k : Z) (d : date) : date := mkDate (year d + 400 * k) (month d) (day d).
Lemma ord2ymd_shift n k : ord2ymd (n + 146097 * k) = shift400 k (ord2ymd n).
Proof.
  unfold ord2ymd, shift400.
  replace ((n + 146097 * k - 1) / 146097) with ((n - 1) / 146097 + k).
  2:{ replace (n + 146097 * k - 1) with (n - 1 + k * 146097) by lia. rewrite Z.div_add; lia. }
  replace ((n + 146097 * k - 1) mod 146097) with ((n - 1) mod 146097).
  2:{ replace (n + 146097 * k - 1) with (n - 1 + k * 146097) by lia. rewrite Z.mod_add; lia. }
  cbv zeta.
  repeat match goal with |- context [if ?b then _ else _] => destruct b end; cbn [year month day]; f_equal; lia.
Qed.
Lemma leap_shift y k : is_leap (y + 400 * k) = is_leap y.
Proof.
  unfold is_leap.
  replace ((y + 400 * k) mod 4) with (y mod 4) by (replace (y + 400 * k) with (y + (100 * k) * 4) by lia; rewrite Z.mod_add; lia).
  replace ((y + 400 * k) mod 100) with (y mod 100) by (replace (y + 400 * k) with (y + (4 * k) * 100) by lia; rewrite Z.mod_add; lia).
  replace ((y + 400 * k) mod 400) with (y mod 400) by (replace (y + 400 * k) with (y + k * 400) by lia; rewrite Z.mod_add; lia).
  reflexivity.
Qed.
Lemma ymd2ord_shift d k : ymd2ord (shift400 k d) = ymd2ord d + 146097 * k.
Proof.
  unfold ymd2ord, shift400, days_before_month; cbn [year month day]. rewrite leap_shift. unfold days_before_year; cbv zeta.
  replace (year d + 400 * k - 1) with (year d - 1 + 400 * k) by lia. set (p := year d - 1).
  replace ((p + 400 * k) / 4) with (p / 4 + 100 * k) by (replace (p + 400 * k) with (p + (100 * k) * 4) by lia; rewrite Z.div_add; lia).
  replace ((p + 400 * k) / 100) with (p / 100 + 4 * k) by (replace (p + 400 * k) with (p + (4 * k) * 100) by lia; rewrite Z.div_add; lia).
  replace ((p + 400 * k) / 400) with (p / 400 + k) by (replace (p + 400 * k) with (p + k * 400) by lia; rewrite Z.div_add; lia).
  lia.
Qed.
Lemma leap_spec y : is_leap y = true <-> leap_year y.
Proof.
  unfold is_leap, leap_year. rewrite andb_true_iff, orb_true_iff, negb_true_iff, !Z.eqb_eq, Z.eqb_neq.
  split; [tauto|]. intros [[? ?]|H]; [tauto|]. split; [|auto].
  apply Z.mod_divide in H; [|lia]. apply Z.mod_divide; [lia|]. destruct H as [q ->]. exists (100 * q). lia.
Qed.

(** fields in range, as a check and as a predicate *)
Definition fields_b (d : date) : bool :=
  (1 <=? month d) && (month d <=? 12) && (1 <=? day d) && (day d <=? days_in_month (year d) (month d)).
Definition fields (d : date) : Prop := 1 <= month d <= 12 /\ 1 <= day d <= days_in_month (year d) (month d).
Lemma fields_spec d : fields_b d = true <-> fields d.
Proof. unfold fields_b, fields. rewrite !andb_true_iff, !Z.leb_le. tauto. Qed.
Definition next_b (a b : date) : bool :=
  if day a <? days_in_month (year a) (month a) then (year b =? year a) && (month b =? month a) && (day b =? day a + 1)
  else if month a <? 12 then (year b =? year a) && (month b =? month a + 1) && (day b =? 1)
  else (year b =? year a + 1) && (month b =? 1) && (day b =? 1).
Lemma month_cases m : 1 <= m <= 12 ->
  m = 1 \/ m = 2 \/ m = 3 \/ m = 4 \/ m = 5 \/ m = 6 \/ m = 7 \/ m = 8 \/ m = 9 \/ m = 10 \/ m = 11 \/ m = 12.
Proof. lia. Qed.
Lemma last_of_month_spec y m d : 1 <= m <= 12 -> (last_of_month y m d <-> d = days_in_month y m).
Proof.
  intros Hm. unfold last_of_month, days_in_month. rewrite <- leap_spec.
  destruct (month_cases m Hm) as [->|[->|[->|[->|[->|[->|[->|[->|[->|[->|[->| ->]]]]]]]]]]];
    unfold month_len; simpl; destruct (is_leap y); simpl; intuition (lia || congruence).
Qed.
Lemma next_b_spec a b : fields a -> next_b a b = true -> next_date a b.
Proof.
  destruct a as [y m d], b as [y' m' d']. unfold fields, next_b; simpl. intros [Hm Hd].
  pose proof (last_of_month_spec y m d Hm) as L.
  destruct (Z.ltb_spec d (days_in_month y m)) as [H|H].
  - rewrite !andb_true_iff, !Z.eqb_eq. intros [[-> ->] ->]. constructor. intros X. apply L in X. lia.
  - assert (last_of_month y m d) as X by (apply L; lia).
    destruct (Z.ltb_spec m 12) as [H2|H2]; rewrite !andb_true_iff, !Z.eqb_eq; intros [[-> ->] ->].
    + constructor; auto.
    + assert (m = 12) as -> by lia. constructor; auto.
Qed.

(** order *)
Lemma dby_mono y z : y <= z -> days_before_year y <= days_before_year z.
Proof.
  intros H. unfold days_before_year; cbv zeta. set (p := y - 1). set (q := z - 1). assert (p <= q) as Hpq by lia. clearbody p q.
  assert (p / 4 <= q / 4) by (apply Z.div_le_mono; lia). assert (p / 400 <= q / 400) by (apply Z.div_le_mono; lia).
  assert (p / 100 = p / 4 / 25) as -> by (rewrite Z.div_div by lia; reflexivity).
  assert (q / 100 = q / 4 / 25) as -> by (rewrite Z.div_div by lia; reflexivity).
  set (a := p / 4) in *. set (b := q / 4) in *.
  pose proof (Z.div_mod a 25). pose proof (Z.div_mod b 25). pose proof (Z.mod_pos_bound a 25). pose proof (Z.mod_pos_bound b 25).
  lia.
Qed.
Lemma dby_succ y : days_before_year (y + 1) = days_before_year y + 365 + (if is_leap y then 1 else 0).
Proof.
  unfold days_before_year, is_leap; cbv zeta. replace (y + 1 - 1) with y by lia.
  assert (forall c, 0 < c -> y / c = (y - 1) / c + (if y mod c =? 0 then 1 else 0)) as D.
  { intros c Hc. pose proof (Z.div_mod y c ltac:(lia)) as E. pose proof (Z.mod_pos_bound y c Hc) as B.
    destruct (Z.eqb_spec (y mod c) 0) as [Hz|Hz].
    - symmetry. assert ((y - 1) / c = y / c - 1) as ->; [|lia]. symmetry. apply Z.div_unique with (r := c - 1); lia.
    - rewrite Z.add_0_r. apply Z.div_unique with (r := y mod c - 1); lia. }
  rewrite (D 4), (D 100), (D 400) by lia.
  assert (y mod 400 = 0 -> y mod 100 = 0) as I1.
  { intros H. apply Z.mod_divide in H; [|lia]. apply Z.mod_divide; [lia|]. destruct H as [q ->]. exists (4 * q). lia. }
  assert (y mod 100 = 0 -> y mod 4 = 0) as I2.
  { intros H. apply Z.mod_divide in H; [|lia]. apply Z.mod_divide; [lia|]. destruct H as [q ->]. exists (25 * q). lia. }
  destruct (Z.eqb_spec (y mod 4) 0), (Z.eqb_spec (y mod 100) 0), (Z.eqb_spec (y mod 400) 0); simpl; try lia; exfalso; tauto.
Qed.
Lemma dbm_bounds y m : 1 <= m <= 12 -> 0 <= days_before_month y m /\
  days_before_month y m + days_in_month y m <= 365 + (if is_leap y then 1 else 0).
Proof.
  intros Hm. unfold days_before_month, days_in_month.
  destruct (month_cases m Hm) as [->|[->|[->|[->|[->|[->|[->|[->|[->|[->|[->| ->]]]]]]]]]]];
    unfold month_len, month_before; simpl; destruct (is_leap y); simpl; lia.
Qed.
Lemma dbm_lt y m m' : 1 <= m < m' -> m' <= 12 -> days_before_month y m + days_in_month y m <= days_before_month y m'.
Proof.
  intros H1 H2. unfold days_before_month, days_in_month.
  destruct (month_cases m ltac:(lia)) as [->|[->|[->|[->|[->|[->|[->|[->|[->|[->|[->| ->]]]]]]]]]]];
  destruct (month_cases m' ltac:(lia)) as [->|[->|[->|[->|[->|[->|[->|[->|[->|[->|[->| ->]]]]]]]]]]]; try lia;
    unfold month_len, month_before; simpl; destruct (is_leap y); simpl; lia.
Qed.
(** the 400-year cycle, checked completely *)
Definition cycle_b (r : Z) : bool := next_b (ord2ymd (r + 1)) (ord2ymd (r + 2)).
Lemma cycle_ok : all_from cycle_b 0 146097 = true.
Proof. vm_cast_no_check (eq_refl true). Qed.
Lemma ord_split n : let r := (n - 1) mod 146097 in let k := (n - 1) / 146097 in
  n = r + 1 + 146097 * k /\ 0 <= r < 146097.
Proof. intros. pose proof (Z.div_mod (n - 1) 146097). pose proof (Z.mod_pos_bound (n - 1) 146097). lia. Qed.
Lemma next_b_shift a b k : next_b (shift400 k a) (shift400 k b) = next_b a b.
Proof.
  unfold next_b, shift400, days_in_month; cbn [year month day]. rewrite leap_shift.
  assert (forall u v, (u + 400 * k =? v + 400 * k) = (u =? v)) as E.
  { intros. destruct (Z.eqb_spec u v); [subst; apply Z.eqb_refl|]. apply Z.eqb_neq. lia. }
  assert (forall u v, (u + 400 * k =? v + 400 * k + 1) = (u =? v + 1)) as E1.
  { intros. destruct (Z.eqb_spec u (v + 1)); [subst; apply Z.eqb_eq; lia|]. apply Z.eqb_neq. lia. }
  rewrite !E, !E1. reflexivity.
Qed.
Lemma ord_next n : next_b (ord2ymd n) (ord2ymd (n + 1)) = true.
Proof.
  destruct (ord_split n) as [E Hr]. set (r := (n - 1) mod 146097) in *. set (k := (n - 1) / 146097) in *.
  pose proof (all_from_spec _ _ _ cycle_ok r ltac:(lia)) as C. unfold cycle_b in C.
  rewrite E. replace (r + 1 + 146097 * k + 1) with (r + 2 + 146097 * k) by lia. rewrite !ord2ymd_shift, next_b_shift. auto.
Qed.
Lemma days_in_month_pos y m : 1 <= m <= 12 -> 28 <= days_in_month y m.
Proof.
  intros H. unfold days_in_month. destruct (if m =? 2 then is_leap y else false); [lia|].
  destruct (month_cases m H) as [->|[->|[->|[->|[->|[->|[->|[->|[->|[->|[->| ->]]]]]]]]]]]; unfold month_len; simpl; lia.
Qed.
Lemma dbm_succ y m : 1 <= m <= 11 -> days_before_month y (m + 1) = days_before_month y m + days_in_month y m.
Proof.
  intros H. unfold days_before_month, days_in_month.
  destruct (month_cases m ltac:(lia)) as [->|[->|[->|[->|[->|[->|[->|[->|[->|[->|[->| ->]]]]]]]]]]]; try lia;
    unfold month_len, month_before; simpl; destruct (is_leap y); simpl; lia.
Qed.
Lemma next_b_facts a b : fields a -> next_b a b = true ->
  fields b /\ year a <= year b /\ ymd2ord b = ymd2ord a + 1.
Proof.
  destruct a as [y m d], b as [y' m' d']. unfold fields, next_b, ymd2ord; cbn [year month day]. intros [Hm Hd].
  destruct (Z.ltb_spec d (days_in_month y m)) as [H|H].
  - rewrite !andb_true_iff, !Z.eqb_eq. intros [[-> ->] ->]. lia.
  - destruct (Z.ltb_spec m 12) as [H2|H2]; rewrite !andb_true_iff, !Z.eqb_eq; intros [[-> ->] ->].
    + pose proof (days_in_month_pos y (m + 1) ltac:(lia)). rewrite dbm_succ by lia. lia.
    + assert (m = 12) as -> by lia. rewrite dby_succ.
      pose proof (days_in_month_pos (y + 1) 1 ltac:(lia)).
      assert (days_before_month y 12 + days_in_month y 12 = 365 + (if is_leap y then 1 else 0)) as E.
      { unfold days_before_month, days_in_month. simpl. unfold month_before, month_len; simpl. destruct (is_leap y); lia. }
      assert (days_before_month (y + 1) 1 = 0) as E2 by reflexivity. lia.
Qed.
Lemma ord_facts n : 1 <= n ->
  fields (ord2ymd n) /\ 1 <= year (ord2ymd n) /\ ymd2ord (ord2ymd n) = n /\ next_date (ord2ymd n) (ord2ymd (n + 1)).
Proof.
  intros Hn. assert (fields (ord2ymd n) /\ 1 <= year (ord2ymd n) /\ ymd2ord (ord2ymd n) = n) as F.
  { replace n with (Z.of_nat (Z.to_nat (n - 1)) + 1) by lia. generalize (Z.to_nat (n - 1)) as k. clear.
    induction k as [|k IH].
    - change (ord2ymd (Z.of_nat 0 + 1)) with (mkDate 1 1 1). split; [apply fields_spec; reflexivity|]. split; [simpl; lia|reflexivity].
    - replace (Z.of_nat (S k) + 1) with (Z.of_nat k + 1 + 1) by lia. destruct IH as (F & Y & E).
      destruct (next_b_facts _ _ F (ord_next (Z.of_nat k + 1))) as (F' & Y' & E'). split; auto. split; lia. }
  destruct F as (F & Y & E). split; [|split; [|split]]; auto. apply next_b_spec; auto. apply ord_next.
Qed.
Lemma next_date_fun a b c : next_date a b -> next_date a c -> b = c.
Proof. intros H1 H2. inversion H1; subst; inversion H2; subst; try reflexivity; try contradiction; try lia. Qed.
Lemma counted_iff n d : counted n d <-> d = ord2ymd (Z.of_nat n + 1).
Proof.
  assert (forall n, counted n (ord2ymd (Z.of_nat n + 1))) as A.
  { clear. induction n as [|n IH].
    - constructor.
    - replace (Z.of_nat (S n) + 1) with (Z.of_nat n + 1 + 1) by lia. econstructor; eauto. apply ord_facts. lia. }
  split; [|intros ->; auto].
  revert d. induction n as [|n IH]; intros d H; inversion H as [|n' d0 d' Hc Hn]; subst; [reflexivity|].
  apply IH in Hc. subst d0. eapply next_date_fun; [exact Hn|].
  replace (Z.of_nat (S n) + 1) with (Z.of_nat n + 1 + 1) by lia. apply ord_facts. lia.
Qed.

Lemma ymd2ord_lt a b : fields a -> fields b -> ~ not_later b a -> ymd2ord a < ymd2ord b.
Proof.
  destruct a as [y m d], b as [y' m' d']. unfold fields, not_later, ymd2ord; simpl. intros [Hm Hd] [Hm' Hd'] H.
  destruct (Z.lt_trichotomy y y') as [C|[C|C]]; [| |lia].
  - pose proof (dby_mono (y + 1) y' ltac:(lia)). rewrite dby_succ in *.
    pose proof (dbm_bounds y m Hm). pose proof (dbm_bounds y' m' Hm'). lia.
  - subst y'. destruct (Z.lt_trichotomy m m') as [C|[C|C]]; [| |lia].
    + pose proof (dbm_lt y m m' ltac:(lia) ltac:(lia)). lia.
    + subst. lia.
Qed.
Lemma not_later_dec a b : not_later a b \/ ~ not_later a b.
Proof. unfold not_later. lia. Qed.
Lemma ymd2ord_le a b : fields a -> fields b -> (not_later a b <-> ymd2ord a <= ymd2ord b).
Proof.
  intros Ha Hb. split; intros H.
  - destruct (not_later_dec b a) as [H2|H2].
    + assert (a = b) as ->; [|lia]. destruct a, b; unfold not_later in *; simpl in *. f_equal; lia.
    + pose proof (ymd2ord_lt a b Ha Hb H2). lia.
  - destruct (not_later_dec a b) as [H2|H2]; auto. pose proof (ymd2ord_lt b a Hb Ha H2). lia.
Qed.
Lemma ymd2ord_inj a b : fields a -> fields b -> ymd2ord a = ymd2ord b -> a = b.
Proof.
  intros Ha Hb E. assert (not_later a b) as H1 by (apply ymd2ord_le; auto; lia).
  assert (not_later b a) as H2 by (apply ymd2ord_le; auto; lia).
  destruct a, b; unfold not_later in *; simpl in *. f_equal; lia.
Qed.
Lemma ymd2ord_pos d : fields d -> 1 <= year d -> 1 <= ymd2ord d.
Proof.
  intros [Hm Hd] Hy. unfold ymd2ord. pose proof (dby_mono 1 (year d) Hy). change (days_before_year 1) with 0 in *.
  pose proof (dbm_bounds (year d) (month d) Hm). lia.
Qed.
Lemma ord_roundtrip d : fields d -> 1 <= year d -> ord2ymd (ymd2ord d) = d.
Proof.
  intros F Y. pose proof (ymd2ord_pos d F Y) as P. pose proof (ord_facts _ P) as (F' & Y' & E & _). apply ymd2ord_inj; auto.
Qed.
Lemma real_date_iff d : real_date d <-> fields d /\ 1 <= year d.
Proof.
  split.
  - intros [n H]. apply counted_iff in H. subst. pose proof (ord_facts (Z.of_nat n + 1) ltac:(lia)). tauto.
  - intros [F Y]. pose proof (ymd2ord_pos d F Y). exists (Z.to_nat (ymd2ord d - 1)). apply counted_iff.
    rewrite Z2Nat.id by lia. replace (ymd2ord d - 1 + 1) with (ymd2ord d) by lia. symmetry. apply ord_roundtrip; auto.
Qed.
Lemma valid_date_iff d : valid_date d = true <-> real_date d /\ year d <= 9999.
Proof.
  rewrite real_date_iff. unfold valid_date, fields. rewrite !andb_true_iff, !Z.leb_le. tauto.
Qed.

(** text *)
Lemma digit_cases n : 0 <= n mod 10 < 10.
Proof. apply Z.mod_pos_bound; lia. Qed.
Ltac digits r H := assert (r = 0 \/ r = 1 \/ r = 2 \/ r = 3 \/ r = 4 \/ r = 5 \/ r = 6 \/ r = 7 \/ r = 8 \/ r = 9)
  as H by lia; destruct H as [H|[H|[H|[H|[H|[H|[H|[H|[H|H]]]]]]]]].
Lemma digit_val_digit n : digit_val (digit n) = Some (n mod 10).
Proof. unfold digit. pose proof (digit_cases n) as B. set (r := n mod 10) in *. clearbody r. digits r E; rewrite E; reflexivity. Qed.
Lemma digit_dash n : Ascii.eqb (digit n) "-"%char = false.
Proof. unfold digit. pose proof (digit_cases n) as B. set (r := n mod 10) in *. clearbody r. digits r E; rewrite E; reflexivity. Qed.
Lemma digit_cmp a b : nat_of_ascii (digit a) = (48 + Z.to_nat (a mod 10))%nat /\
  Ascii.eqb (digit a) (digit b) = (a mod 10 =? b mod 10).
Proof.
  assert (forall n, nat_of_ascii (digit n) = (48 + Z.to_nat (n mod 10))%nat) as A.
  { intros n. unfold digit. pose proof (digit_cases n) as B. set (r := n mod 10) in *. clearbody r. digits r E; rewrite E; reflexivity. }
  split; auto. destruct (Z.eqb_spec (a mod 10) (b mod 10)) as [E|E].
  - apply Ascii.eqb_eq. unfold digit. rewrite E. auto.
  - apply Ascii.eqb_neq. intros H. apply (f_equal nat_of_ascii) in H. rewrite !A in H.
    pose proof (digit_cases a). pose proof (digit_cases b). lia.
Qed.
Lemma parse_pad2 n : 0 <= n < 100 -> parse_int (pad2 n) = Ok n.
Proof.
  intros H. unfold parse_int, pad2. cbn [digits_from]. rewrite !digit_val_digit. f_equal.
  rewrite (Z.mod_small (n / 10) 10); pose proof (Z.div_mod n 10); try lia.
  split; [apply Z.div_pos; lia|apply Z.div_lt_upper_bound; lia].
Qed.
Lemma pad4_parts n : 0 <= n < 10000 -> 0 <= n / 100 < 100 /\ 0 <= n mod 100 < 100 /\ n = n / 100 * 100 + n mod 100.
Proof.
  intros H. pose proof (Z.div_mod n 100). pose proof (Z.mod_pos_bound n 100). 
  split; [split; [apply Z.div_pos; lia|apply Z.div_lt_upper_bound; lia]|lia].
Qed.
Lemma pad2_mod n : pad2 (n mod 100) = pad2 n.
Proof.
  unfold pad2, digit. 
  assert (n mod 100 / 10 mod 10 = n / 10 mod 10) as ->.
  { pose proof (Z.div_mod n 100 ltac:(lia)) as E. pose proof (Z.mod_pos_bound n 100 ltac:(lia)).
    assert (n / 10 = n mod 100 / 10 + (10 * (n / 100))) as ->.
    { rewrite E at 1. replace (100 * (n / 100) + n mod 100) with (n mod 100 + (10 * (n / 100)) * 10) by lia. rewrite Z.div_add; lia. }
    replace (n mod 100 / 10 + 10 * (n / 100)) with (n mod 100 / 10 + (n / 100) * 10) by lia. rewrite Z.mod_add; lia. }
  assert ((n mod 100) mod 10 = n mod 10) as ->; auto.
  pose proof (Z.div_mod n 100 ltac:(lia)) as E. rewrite E at 2.
  replace (100 * (n / 100) + n mod 100) with (n mod 100 + (10 * (n / 100)) * 10) by lia. rewrite Z.mod_add; lia.
Qed.
Lemma digits2 acc n s : 0 <= n < 100 -> digits_from acc (pad2 n ++ s) = digits_from (acc * 100 + n) s.
Proof.
  intros H. unfold pad2. cbn [append digits_from]. rewrite !digit_val_digit. rewrite (Z.mod_small (n / 10) 10).
  2:{ split; [apply Z.div_pos; lia|apply Z.div_lt_upper_bound; lia]. }
  f_equal. pose proof (Z.div_mod n 10). lia.
Qed.
Lemma parse_pad4 n : 0 <= n < 10000 -> parse_int (pad4 n) = Ok n.
Proof.
  intros H. destruct (pad4_parts n H) as (A & B & C). 
  assert (digits_from 0 (pad4 n) = Some n) as D.
  { unfold pad4. rewrite <- (pad2_mod n). rewrite digits2 by auto.
    replace (pad2 (n mod 100)) with (pad2 (n mod 100) ++ "")%string by reflexivity. rewrite digits2 by auto. simpl. f_equal. lia. }
  unfold parse_int. destruct (pad4 n) eqn:E; [discriminate E|]. rewrite D. reflexivity.
Qed.
Lemma spells_digit n r n' : spells r n' -> spells (String (digit n) r) (n mod 10 * 10 ^ Z.of_nat (String.length r) + n').
Proof.
  intros H. exists (Z.to_nat (n mod 10)). pose proof (digit_cases n). split; [lia|]. split; [reflexivity|].
  exists n'. split; auto. rewrite Z2Nat.id by lia. reflexivity.
Qed.
Lemma spells_pad2 n : 0 <= n < 100 -> spells (pad2 n) n.
Proof.
  intros H. assert (n / 10 mod 10 * 10 ^ Z.of_nat 1 + (n mod 10 * 10 ^ Z.of_nat 0 + 0) = n) as E.
  { rewrite (Z.mod_small (n / 10) 10). pose proof (Z.div_mod n 10). simpl. lia.
    split; [apply Z.div_pos; lia|apply Z.div_lt_upper_bound; lia]. }
  rewrite <- E at 2. unfold pad2. apply (spells_digit (n / 10) (String (digit n) "")), (spells_digit n "" 0). reflexivity.
Qed.
Lemma spells_pad4 n : 0 <= n < 10000 -> spells (pad4 n) n.
Proof.
  intros H. destruct (pad4_parts n H) as (A & B & C). unfold pad4. rewrite <- (pad2_mod n).
  assert (forall a b, 0 <= a < 100 -> 0 <= b < 100 -> spells (pad2 a ++ pad2 b) (a * 100 + b)) as K.
  { intros a b Ha Hb. 
    assert (a / 10 mod 10 * 10 ^ 3 + (a mod 10 * 10 ^ 2 + b) = a * 100 + b) as E.
    { rewrite (Z.mod_small (a / 10) 10). pose proof (Z.div_mod a 10). lia.
      split; [apply Z.div_pos; lia|apply Z.div_lt_upper_bound; lia]. }
    rewrite <- E.
    apply (spells_digit (a / 10) (String (digit a) (pad2 b))). apply (spells_digit a (pad2 b)). apply spells_pad2; auto. }
  rewrite C at 3. apply K; auto.
Qed.
Definition year4 (d : date) : Prop := fields d /\ 0 <= year d <= 9999.
Lemma days_in_month_le y m : 1 <= m <= 12 -> days_in_month y m <= 31.
Proof. intros H. unfold days_in_month. destruct (if m =? 2 then is_leap y else false); [lia|].
  destruct (month_cases m H) as [->|[->|[->|[->|[->|[->|[->|[->|[->|[->|[->| ->]]]]]]]]]]]; unfold month_len; simpl; lia. Qed.
Lemma year4_ranges d : year4 d -> 0 <= year d < 10000 /\ 0 <= month d < 100 /\ 0 <= day d < 100.
Proof. intros [[Hm Hd] Hy]. pose proof (days_in_month_le (year d) (month d) Hm). lia. Qed.
Lemma iso_text_isoformat d : year4 d -> iso_text (isoformat d) d.
Proof.
  intros H. destruct (year4_ranges d H) as (A & B & C). exists (pad4 (year d)), (pad2 (month d)), (pad2 (day d)).
  split; [reflexivity|]. split; [reflexivity|]. split; [reflexivity|]. split; [reflexivity|].
  split; [apply spells_pad4; auto|]. split; apply spells_pad2; auto.
Qed.
Lemma iso_prefix d s : substring 0 10 (isoformat d ++ s) = isoformat d.
Proof. unfold isoformat, pad4, pad2. simpl. destruct s; reflexivity. Qed.
Lemma drop_dashes_iso d : drop_dashes (isoformat d) = (pad4 (year d) ++ pad2 (month d) ++ pad2 (day d))%string.
Proof.
  unfold isoformat, pad4, pad2. cbn -[digit Z.div]. rewrite !digit_dash. reflexivity.
Qed.
Lemma parse_compact d : year4 d -> parse_int (drop_dashes (isoformat d)) = Ok (year d * 10000 + month d * 100 + day d).
Proof.
  intros H. destruct (year4_ranges d H) as (A & B & C). rewrite drop_dashes_iso.
  destruct (pad4_parts (year d) A) as (A1 & A2 & A3).
  assert (digits_from 0 (pad4 (year d) ++ pad2 (month d) ++ pad2 (day d)) = Some (year d * 10000 + month d * 100 + day d)) as D.
  { unfold pad4. rewrite <- (pad2_mod (year d)). 
    replace (((pad2 (year d / 100) ++ pad2 (year d mod 100)) ++ pad2 (month d) ++ pad2 (day d)))%string
      with (pad2 (year d / 100) ++ (pad2 (year d mod 100) ++ (pad2 (month d) ++ (pad2 (day d) ++ ""))))%string by reflexivity.
    rewrite !digits2 by auto. simpl. f_equal. lia. }
  unfold parse_int. destruct (pad4 (year d) ++ pad2 (month d) ++ pad2 (day d))%string eqn:E; [discriminate E|]. rewrite D. reflexivity.
Qed.
Lemma iso_substrings d : String.length (isoformat d) = 10%nat /\ substring 4 1 (isoformat d) = "-"%string /\
  substring 7 1 (isoformat d) = "-"%string /\ substring 0 4 (isoformat d) = pad4 (year d) /\
  substring 5 2 (isoformat d) = pad2 (month d) /\ substring 8 2 (isoformat d) = pad2 (day d).
Proof. unfold isoformat, pad4, pad2. simpl. tauto. Qed.
Lemma fromiso_iso d : valid_date d = true -> fromisoformat (isoformat d) = Ok d.
Proof.
  intros V. assert (year4 d) as Y. { apply valid_date_iff in V as [R Hy]. apply real_date_iff in R as [F ?]. split; auto; lia. }
  destruct (year4_ranges d Y) as (A & B & C). destruct (iso_substrings d) as (E1 & E2 & E3 & E4 & E5 & E6).
  unfold fromisoformat. rewrite E1, E2, E3, E4, E5, E6. cbn [Nat.eqb String.eqb Ascii.eqb Bool.eqb andb].
  rewrite parse_pad4, !parse_pad2 by auto. cbn [bind]. unfold make_date. destruct d as [y m e]; simpl. rewrite V. reflexivity.
Qed.
Lemma leb_pad2 a b s u : 0 <= a < 100 -> 0 <= b < 100 ->
  str_leb (pad2 a ++ s) (pad2 b ++ u) = if a =? b then str_leb s u else a <? b.
Proof.
  intros Ha Hb. unfold pad2. cbn [append str_leb].
  destruct (digit_cmp (a / 10) (b / 10)) as [N1 E1]. destruct (digit_cmp (b / 10) (b / 10)) as [N2 _].
  destruct (digit_cmp a b) as [N3 E3]. destruct (digit_cmp b b) as [N4 _].
  rewrite E1, E3, N1, N2, N3, N4.
  assert (forall x, 0 <= x < 100 -> 0 <= x / 10 < 10) as Q by (intros; split; [apply Z.div_pos; lia|apply Z.div_lt_upper_bound; lia]).
  rewrite (Z.mod_small (a / 10)), (Z.mod_small (b / 10)) by (apply Q; auto).
  pose proof (Q a Ha). pose proof (Q b Hb). pose proof (Z.div_mod a 10). pose proof (Z.div_mod b 10).
  pose proof (digit_cases a). pose proof (digit_cases b).
  destruct (Z.eqb_spec (a / 10) (b / 10)), (Z.eqb_spec (a mod 10) (b mod 10)), (Z.eqb_spec a b); try lia; try reflexivity;
    match goal with |- (?x <? ?y)%nat = _ => destruct (Nat.ltb_spec x y), (Z.ltb_spec a b); try reflexivity; lia end.
Qed.
Lemma leb_iso a b : year4 a -> year4 b -> (str_leb (isoformat a) (isoformat b) = true <-> not_later a b).
Proof.
  intros Ha Hb. destruct (year4_ranges a Ha) as (A1 & A2 & A3). destruct (year4_ranges b Hb) as (B1 & B2 & B3).
  destruct (pad4_parts _ A1) as (P1 & P2 & P3). destruct (pad4_parts _ B1) as (Q1 & Q2 & Q3).
  unfold isoformat, pad4. rewrite <- (pad2_mod (year a)), <- (pad2_mod (year b)).
  change ((pad2 (year a / 100) ++ pad2 (year a mod 100)) ++ "-" ++ pad2 (month a) ++ "-" ++ pad2 (day a))%string
    with (pad2 (year a / 100) ++ (pad2 (year a mod 100) ++ String "-" (pad2 (month a) ++ String "-" (pad2 (day a) ++ ""))))%string.
  change ((pad2 (year b / 100) ++ pad2 (year b mod 100)) ++ "-" ++ pad2 (month b) ++ "-" ++ pad2 (day b))%string
    with (pad2 (year b / 100) ++ (pad2 (year b mod 100) ++ String "-" (pad2 (month b) ++ String "-" (pad2 (day b) ++ ""))))%string.
  rewrite !leb_pad2 by auto.
  assert (forall s u, str_leb (String "-" s) (String "-" u) = str_leb s u) as K by reflexivity.
  rewrite !K. rewrite !leb_pad2 by auto. rewrite K, leb_pad2 by auto. unfold not_later.
  destruct (Z.eqb_spec (year a / 100) (year b / 100)); [|rewrite Z.ltb_lt; lia].
  destruct (Z.eqb_spec (year a mod 100) (year b mod 100)); [|rewrite Z.ltb_lt; lia].
  destruct (Z.eqb_spec (month a) (month b)); [|rewrite Z.ltb_lt; lia].
  destruct (Z.eqb_spec (day a) (day b)); [|rewrite Z.ltb_lt; lia].
  simpl. intuition lia.
Qed.

(** times *)
Lemma date_of_day n : 1 - mjd_ordinal <= n -> counted (Z.to_nat (n + mjd_ordinal - 1)) (date_of_mjd n).
Proof. intros H. apply counted_iff. unfold date_of_mjd, mjd_ordinal in *. f_equal. lia. Qed.
Lemma iso_of_midnight n : substring 0 10 (time_iso (n * day_us)) = isoformat (date_of_mjd n).
Proof.
  unfold time_iso. cbv zeta. rewrite iso_prefix. f_equal. f_equal.
  change (ms_us / 2) with 500. change ms_us with 1000. unfold day_us.
  assert ((n * 86400000000 + 500) / 1000 = n * 86400000) as ->.
  { symmetry. apply Z.div_unique with (r := 500); lia. }
  rewrite Z.div_mul; lia.
Qed.
Lemma iso_of_time t : substring 0 10 (time_iso t) = isoformat (date_of_mjd ((t + 500) / day_us)).
Proof.
  unfold time_iso. cbv zeta. rewrite iso_prefix. f_equal. f_equal. change (ms_us / 2) with 500. change ms_us with 1000.
  rewrite Z.div_div by lia. reflexivity.
Qed.
Lemma day_bounds t : let n := day_obs_mjd t in n * day_us + half_us <= t < n * day_us + half_us + day_us.
Proof.
  intros n. subst n. unfold day_obs_mjd, half_us, day_us.
  pose proof (Z.div_mod (t - 43200000000) 86400000000 ltac:(lia)). pose proof (Z.mod_pos_bound (t - 43200000000) 86400000000 ltac:(lia)). lia.
Qed.
Lemma observing_day_iff t d : observing_day t d <-> 1 - mjd_ordinal <= day_obs_mjd t /\ d = date_of_mjd (day_obs_mjd t).
Proof.
  pose proof (day_bounds t) as B. cbv zeta in B. unfold day_us, half_us, mjd_ordinal in *. split.
  - intros (n & C & H). cbv zeta in H. assert (day_obs_mjd t = Z.of_nat n - 678575) as E by lia.
    split; [lia|]. apply counted_iff in C. subst. rewrite E. unfold date_of_mjd, mjd_ordinal. f_equal. lia.
  - intros [H ->]. exists (Z.to_nat (day_obs_mjd t + 678575)). split.
    + apply counted_iff. unfold date_of_mjd, mjd_ordinal. f_equal. lia.
    + cbv zeta. rewrite Z2Nat.id by lia. lia.
Qed.
Lemma observing_day_fields t d : observing_day t d -> fields d /\ 1 <= year d.
Proof. intros (n & C & _). apply real_date_iff. exists n; auto. Qed.
Lemma spells_range : forall s n, spells s n -> 0 <= n < 10 ^ Z.of_nat (String.length s).
Proof.
  induction s as [|c s IH]; intros n H; cbn [String.length].
  - simpl in H. subst. simpl. lia.
  - destruct H as (k & Hk & _ & n' & Hn & ->). apply IH in Hn. rewrite Nat2Z.inj_succ, Z.pow_succ_r by lia. nia.
Qed.
Lemma spells_unique : forall s u n, String.length s = String.length u -> spells s n -> spells u n -> s = u.
Proof.
  induction s as [|c s IH]; intros [|c' u] n L Hs Hu; try discriminate; auto.
  injection L as L. destruct Hs as (k & Hk & -> & a & Ha & E). destruct Hu as (k' & Hk' & -> & a' & Ha' & E').
  pose proof (spells_range s a Ha). pose proof (spells_range u a' Ha'). rewrite <- L in *.
  set (P := 10 ^ Z.of_nat (String.length s)) in *. assert (0 < P) by (apply Z.pow_pos_nonneg; lia).
  assert (k = k') as <- by nia. assert (a = a') as <- by nia. f_equal. eauto.
Qed.
Lemma iso_text_unique s d : year4 d -> iso_text s d -> s = isoformat d.
Proof.
  intros H (y & m & e & -> & Ly & Lm & Le & Sy & Sm & Se). destruct (year4_ranges d H) as (A & B & C).
  rewrite (spells_unique y (pad4 (year d)) (year d)), (spells_unique m (pad2 (month d)) (month d)), (spells_unique e (pad2 (day d)) (day d));
    auto using spells_pad2, spells_pad4.
Qed.
Lemma int_round_trip : forall d, real_date d -> year d <= 9999 ->
  dayobs_to_date (DInt (year d * 10000 + month d * 100 + day d)) = Ok d.
Proof.
  intros d R Hy. assert (year4 d) as Y4 by (apply real_date_iff in R as [F ?]; split; auto; lia).
  destruct (year4_ranges d Y4) as (A & B & C). simpl.
  set (n := year d * 10000 + month d * 100 + day d).
  assert (n / 10000 = year d) as ->. { symmetry. apply Z.div_unique with (r := month d * 100 + day d); lia. }
  assert (n mod 100 = day d) as ->. { symmetry. apply Z.mod_unique with (q := year d * 100 + month d); lia. }
  assert (n / 100 = year d * 100 + month d) as ->. { symmetry. apply Z.div_unique with (r := day d); lia. }
  assert ((year d * 100 + month d) mod 100 = month d) as ->. { symmetry. apply Z.mod_unique with (q := year d); lia. }
  unfold make_date. destruct d as [y m e]; simpl. assert (valid_date (mkDate y m e) = true) as ->; auto.
  apply valid_date_iff; auto.
Qed.
