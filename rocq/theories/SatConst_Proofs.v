(** Proofs: the text of two line elements. *)
From Coq Require Import Reals Ascii Lia Lra.
From Verif Require Import Base SatConst_Model SatConst_Spec.
Open Scope Z_scope.

(** * Digits *)
Lemma digit_code : forall n, code (digit n) = 48 + n mod 10.
Proof.
  intros n. unfold code, digit. assert (B := Z.mod_pos_bound n 10 eq_refl). rewrite nat_ascii_embedding by lia. lia.
Qed.
Lemma digit_numeral : forall n, numeral (digit n).
Proof. intros n. unfold numeral. rewrite digit_code. assert (B := Z.mod_pos_bound n 10 eq_refl). lia. Qed.
Lemma value_from : forall t a, fold_left (fun a c => 10 * a + (code c - 48)) t a = a * 10 ^ Z.of_nat (length t) + value_of t.
Proof.
  unfold value_of. induction t as [|c t IH]; intros a; [cbn; lia|]. cbn [fold_left length]. rewrite IH, (IH (10 * 0 + (code c - 48))). rewrite Nat2Z.inj_succ, Z.pow_succ_r by lia. ring.
Qed.
Lemma value_app : forall t r, value_of (t ++ r) = value_of t * 10 ^ Z.of_nat (length r) + value_of r.
Proof. intros t r. unfold value_of at 1. rewrite fold_left_app. apply value_from. Qed.
Lemma value_single : forall c, value_of [c] = code c - 48.
Proof. intros c. unfold value_of. cbn [fold_left]. lia. Qed.
Lemma decimal_facts : forall fuel n, 0 <= n < 10 ^ Z.of_nat fuel -> (0 < fuel)%nat ->
  reads (decimal_ fuel n) n /\ (forall w, (0 < w)%nat -> n < 10 ^ Z.of_nat w -> (length (decimal_ fuel n) <= w)%nat) /\
  (n = 0 /\ decimal_ fuel n = ["0"%char] \/ exists c r, decimal_ fuel n = c :: r /\ c <> "0"%char).
Proof.
  induction fuel as [|f IH]; intros n B P; [lia|]. cbn [decimal_]. destruct (Z.ltb_spec n 10) as [L|L].
  - split; [|split].
    + split; [discriminate|]. split; [repeat constructor; apply digit_numeral|]. rewrite value_single, digit_code, Z.mod_small by lia. lia.
    + intros w W _. cbn [length]. lia.
    + destruct (Z.eq_dec n 0) as [->|N]; [left; split; reflexivity|right]. exists (digit n), []. split; [reflexivity|]. intros E.
      assert (C := digit_code n). rewrite E, Z.mod_small in C by lia. change (code "0") with 48 in C. lia.
  - assert (Q : 0 <= n / 10 < 10 ^ Z.of_nat f).
    { split; [apply Z.div_pos; lia|]. apply Z.div_lt_upper_bound; [lia|]. rewrite Nat2Z.inj_succ, Z.pow_succ_r in B by lia. lia. }
    assert (F : (0 < f)%nat) by (destruct f; [cbn in Q; assert (0 < n / 10) by (apply Z.div_str_pos; lia); lia|lia]).
    destruct (IH (n / 10) Q F) as [[N [A V]] [W D]]. split; [|split].
    + split; [intros E; apply app_eq_nil in E; destruct E as [_ E]; discriminate E|]. split; [apply Forall_app; split; [exact A|repeat constructor; apply digit_numeral]|].
      rewrite value_app, V, value_single, digit_code. cbn [length]. change (10 ^ Z.of_nat 1) with 10. assert (X := Z.div_mod n 10). lia.
    + intros w WP NW. rewrite app_length. cbn [length]. destruct w as [|w]; [lia|]. destruct w as [|w]; [cbn in NW; lia|].
      assert (length (decimal_ f (n / 10)) <= S w)%nat; [|lia]. apply W; [lia|]. apply Z.div_lt_upper_bound; [lia|]. rewrite (Nat2Z.inj_succ (S w)), Z.pow_succ_r in NW by lia. lia.
    + right. destruct D as [[E0 _]|[c [r [E C]]]]; [assert (0 < n / 10) by (apply Z.div_str_pos; lia); lia|]. exists c, (r ++ [digit n]). rewrite E. split; [reflexivity|exact C].
Qed.
Lemma decimal_fuel : forall n, 0 <= n -> n < 10 ^ Z.of_nat (S (Z.to_nat (Z.log2 n))).
Proof.
  intros n N. destruct (Z.eq_dec n 0) as [->|D]; [reflexivity|]. assert (L := Z.log2_spec n ltac:(lia)). assert (P := Z.log2_nonneg n).
  rewrite Nat2Z.inj_succ, Z2Nat.id by exact P. eapply Z.lt_le_trans; [apply L|]. apply Z.pow_le_mono_l. lia.
Qed.
Lemma decimal_reads : forall n, 0 <= n -> reads (decimal n) n.
Proof. intros n N. apply decimal_facts; [split; [exact N|apply decimal_fuel; exact N]|lia]. Qed.
Lemma decimal_short : forall n w, 0 <= n < 10 ^ Z.of_nat w -> (0 < w)%nat -> (length (decimal n) <= w)%nat.
Proof. intros n w N W. apply decimal_facts; [split; [lia|apply decimal_fuel; lia]|lia|exact W|lia]. Qed.
Lemma decimal_plain : forall n, 0 <= n -> plain_number (decimal n) n.
Proof.
  intros n N. split; [apply decimal_reads; exact N|]. destruct (decimal_facts (S (Z.to_nat (Z.log2 n))) n) as [_ [_ D]]; [split; [exact N|apply decimal_fuel; exact N]|lia|].
  destruct D as [[_ D]|D]; [left; exact D|right; exact D].
Qed.
Lemma value_bound : forall t, Forall numeral t -> 0 <= value_of t < 10 ^ Z.of_nat (length t).
Proof.
  intros t. induction t as [|c t IH] using rev_ind; intros F; [cbn; lia|]. apply Forall_app in F. destruct F as [F C]. inversion C as [|? ? NC _]; subst. unfold numeral in NC.
  specialize (IH F). rewrite value_app, value_single, app_length. cbn [length]. rewrite Nat2Z.inj_add, Z.pow_add_r by lia. change (10 ^ Z.of_nat 1) with 10. lia.
Qed.
Lemma decimal_long : forall n w, 10 ^ Z.of_nat w <= n -> (w < length (decimal n))%nat.
Proof.
  intros n w N. assert (P : 0 < 10 ^ Z.of_nat w) by (apply Z.pow_pos_nonneg; lia). destruct (decimal_reads n ltac:(lia)) as [_ [F V]]. assert (B := value_bound _ F). rewrite V in B.
  destruct (le_lt_dec (length (decimal n)) w) as [L|L]; [|exact L]. exfalso. assert (10 ^ Z.of_nat (length (decimal n)) <= 10 ^ Z.of_nat w) by (apply Z.pow_le_mono_r; lia). lia.
Qed.

(** * Formats *)
Lemma zeros_value : forall k, value_of (repeat "0"%char k) = 0.
Proof. induction k as [|k IH]; [reflexivity|]. change (repeat "0"%char (S k)) with (["0"%char] ++ repeat "0"%char k). rewrite value_app, IH, value_single. change (code "0") with 48. lia. Qed.
Lemma pad_zero : forall w t n, reads t n -> (length t <= w)%nat -> reads (pad "0" w t) n /\ length (pad "0" w t) = w.
Proof.
  intros w t n [N [F V]] L. unfold pad. split; [|rewrite app_length, repeat_length; lia]. split; [intros E; apply app_eq_nil in E; destruct E as [_ E]; contradiction|]. split.
  - apply Forall_app. split; [|exact F]. apply Forall_forall. intros c I. apply repeat_spec in I. subst c. unfold numeral. change (code "0") with 48. lia.
  - rewrite value_app, zeros_value. lia.
Qed.
Lemma fmt_d_facts : forall w n, 0 <= n < 10 ^ Z.of_nat w -> (0 < w)%nat -> reads (fmt_d w n) n /\ length (fmt_d w n) = w.
Proof. intros w n N W. apply pad_zero; [apply decimal_reads; lia|apply decimal_short; assumption]. Qed.
Lemma fmt_f_facts : forall w d n, (d + 1 < w)%nat -> (0 < d)%nat -> 0 <= n < 10 ^ Z.of_nat (w - 1) -> reads_places d (fmt_f w d n) n /\ length (fmt_f w d n) = w.
Proof.
  intros w d n WD D N. unfold fmt_f. cbv zeta. set (p := 10 ^ Z.of_nat d). assert (P : 0 < p) by (apply Z.pow_pos_nonneg; lia).
  assert (A : 0 <= n / p < 10 ^ Z.of_nat (w - 1 - d)).
  { split; [apply Z.div_pos; lia|]. apply Z.div_lt_upper_bound; [exact P|]. unfold p. rewrite <- Z.pow_add_r by lia. replace (Z.of_nat d + Z.of_nat (w - 1 - d)) with (Z.of_nat (w - 1)) by lia. apply N. }
  assert (B := Z.mod_pos_bound n p P). assert (R := decimal_reads (n / p) ltac:(lia)). assert (S1 := decimal_short (n / p) (w - 1 - d) A ltac:(lia)).
  destruct (pad_zero d (decimal (n mod p)) (n mod p)) as [R2 L2]; [apply decimal_reads; lia|apply decimal_short; [exact B|exact D]|].
  set (x := decimal (n / p)) in *. set (y := pad "0" d (decimal (n mod p))) in *. split.
  - unfold pad. set (k := (w - length (x ++ ["."%char] ++ y))%nat). exists k, x, y. destruct R as [RN [RF RV]]. destruct R2 as [_ [RF2 RV2]].
    split; [reflexivity|]. split; [exact RN|]. split; [exact RF|]. split; [exact L2|]. split; [exact RF2|]. rewrite RV, RV2. fold p. assert (X := Z.div_mod n p). lia.
  - unfold pad. rewrite app_length, repeat_length, !app_length, L2. cbn [length]. lia.
Qed.
Lemma numeral_no_newline : forall c, numeral c -> c <> ascii_of_nat 10.
Proof. intros c N E. subst c. unfold numeral in N. change (code (ascii_of_nat 10)) with 10 in N. lia. Qed.
Lemma reads_no_newline : forall t n, reads t n -> ~ In (ascii_of_nat 10) t.
Proof. intros t n [_ [F _]] I. rewrite Forall_forall in F. exact (numeral_no_newline _ (F _ I) eq_refl). Qed.
Lemma places_no_newline : forall d t n, reads_places d t n -> ~ In (ascii_of_nat 10) t.
Proof.
  intros d t n [k [a [b [-> [_ [FA [_ [FB _]]]]]]]] I. rewrite Forall_forall in FA, FB. rewrite !in_app_iff in I. destruct I as [I|[I|[I|I]]].
  - apply repeat_spec in I. discriminate I.
  - exact (numeral_no_newline _ (FA _ I) eq_refl).
  - destruct I as [I|[]]. discriminate I.
  - exact (numeral_no_newline _ (FB _ I) eq_refl).
Qed.

(** * The checksum *)
Lemma worth_sum : forall t s, fold_left (fun s c => let s := if isdigit c then s + int_of c else s in if Ascii.eqb c "-" then s + 1 else s) t s = s + fold_right Z.add 0 (map worth t).
Proof.
  induction t as [|c t IH]; intros s; [cbn; lia|]. cbn [fold_left map fold_right]. rewrite IH.
  assert (W : worth c = (if isdigit c then int_of c else 0) + (if Ascii.eqb c "-" then 1 else 0)).
  { unfold worth, isdigit, int_of, code. destruct (Ascii.eqb_spec c "-") as [->|_]; [reflexivity|]. destruct (_ && _)%bool; lia. }
  rewrite W. cbv zeta. destruct (isdigit c), (Ascii.eqb c "-"); lia.
Qed.
Lemma checksum_app : forall t c, checksum (t ++ [c]) = t ++ [digit (fold_right Z.add 0 (map worth t) mod 10)].
Proof.
  intros t c. unfold checksum. cbv zeta. rewrite removelast_last, worth_sum, Z.add_0_l. f_equal.
  assert (B := Z.mod_pos_bound (fold_right Z.add 0 (map worth t)) 10 eq_refl). unfold decimal. cbn [decimal_]. rewrite (proj2 (Z.ltb_lt _ 10)) by lia. reflexivity.
Qed.
Lemma checked : forall t c, length t = 68%nat -> ~ In (ascii_of_nat 10) t -> tle_line (checksum (t ++ [c])).
Proof.
  intros t c L N. rewrite checksum_app. set (s := fold_right Z.add 0 (map worth t)). split; [rewrite app_length, L; reflexivity|]. split.
  - intros I. apply in_app_iff in I. destruct I as [I|[I|[]]]; [exact (N I)|]. exact (numeral_no_newline _ (digit_numeral (s mod 10)) I).
  - unfold columns. change (69 - 1)%nat with 68%nat.
    assert (S1 : skipn 68 (t ++ [digit (s mod 10)]) = [digit (s mod 10)]) by (rewrite <- L, skipn_app, skipn_all, Nat.sub_diag; reflexivity). rewrite S1.
    assert (F1 : firstn 68 (t ++ [digit (s mod 10)]) = t) by (rewrite <- L, firstn_app, firstn_all, Nat.sub_diag; cbn [firstn]; apply app_nil_r). rewrite F1. cbn [firstn].
    split; [discriminate|]. split; [repeat constructor; apply digit_numeral|]. rewrite value_single, digit_code. fold s. rewrite Z.mod_mod by lia. lia.
Qed.
Lemma columns_app : forall from a b c, (1 <= from)%nat -> length a = (from - 1)%nat -> columns from (length b) (a ++ b ++ c) = b.
Proof.
  intros from a b c F L. unfold columns. rewrite <- L, skipn_app, skipn_all, Nat.sub_diag. cbn [app skipn]. rewrite firstn_app, firstn_all, Nat.sub_diag. cbn [firstn]. apply app_nil_r.
Qed.
Lemma columns_at : forall from k t a b c, t = a ++ b ++ c -> (1 <= from)%nat -> length a = (from - 1)%nat -> length b = k -> columns from k t = b.
Proof. intros from k t a b c -> F L <-. apply columns_app; assumption. Qed.

Lemma line1 : forall nr epoch, 0 <= nr < 10 ^ 5 -> 0 <= epoch < 10 ^ 13 ->
  tle_line (tle1 nr epoch) /\ columns 1 2 (tle1 nr epoch) = ["1"%char; " "%char] /\ reads (columns 3 5 (tle1 nr epoch)) nr /\ reads_places 8 (columns 19 14 (tle1 nr epoch)) epoch.
Proof.
  intros nr epoch N E. destruct (fmt_d_facts 5 nr N ltac:(lia)) as [RN LN]. destruct (fmt_f_facts 14 8 epoch ltac:(lia) ltac:(lia) E) as [RE LE].
  unfold tle1. set (f := fmt_d 5 nr) in *. set (g := fmt_f 14 8 epoch) in *.
  change (lit "  .00000000  00000-0  50000-4 0    0X") with (lit "  .00000000  00000-0  50000-4 0    0" ++ ["X"%char]). rewrite !app_assoc.
  set (t := (((lit "1 " ++ f) ++ lit "U 20001A   ") ++ g) ++ lit "  .00000000  00000-0  50000-4 0    0").
  assert (LT : length t = 68%nat) by (unfold t; rewrite !app_length, LN, LE; reflexivity).
  assert (NT : ~ In (ascii_of_nat 10) t).
  { unfold t. rewrite !in_app_iff. intros [[[[I|I]|I]|I]|I].
    - cbn in I. intuition discriminate.
    - exact (reads_no_newline _ _ RN I).
    - cbn in I. intuition discriminate.
    - exact (places_no_newline _ _ _ RE I).
    - cbn in I. intuition discriminate. }
  split; [apply checked; assumption|]. rewrite checksum_app. set (d := [digit (fold_right Z.add 0 (map worth t) mod 10)]). unfold t.
  split; [reflexivity|]. split.
  - rewrite (columns_at 3 5 _ (lit "1 ") f (lit "U 20001A   " ++ g ++ lit "  .00000000  00000-0  50000-4 0    0" ++ d)); [exact RN|rewrite <- !app_assoc; reflexivity|lia|reflexivity|exact LN].
  - rewrite (columns_at 19 14 _ ((lit "1 " ++ f) ++ lit "U 20001A   ") g (lit "  .00000000  00000-0  50000-4 0    0" ++ d)); [exact RE|rewrite <- !app_assoc; reflexivity|lia|rewrite !app_length, LN; reflexivity|exact LE].
Qed.
Lemma line2 : forall nr inc raan ma mm, 0 <= nr < 10 ^ 5 -> 0 <= inc < 10 ^ 7 -> 0 <= raan < 10 ^ 7 -> 0 <= ma < 10 ^ 7 -> 0 <= mm < 10 ^ 10 ->
  let t := tle2 nr inc raan ma mm in
  tle_line t /\ columns 1 2 t = ["2"%char; " "%char] /\ reads (columns 3 5 t) nr /\ reads_places 4 (columns 9 8 t) inc /\ reads_places 4 (columns 18 8 t) raan /\
  reads (columns 27 7 t) 1000 /\ reads_places 4 (columns 35 8 t) 0 /\ reads_places 4 (columns 44 8 t) ma /\ reads_places 8 (columns 53 11 t) mm.
Proof.
  intros nr inc raan ma mm N I R A M tl. destruct (fmt_d_facts 5 nr N ltac:(lia)) as [RN LN].
  destruct (fmt_f_facts 8 4 inc ltac:(lia) ltac:(lia) I) as [RI LI]. destruct (fmt_f_facts 8 4 raan ltac:(lia) ltac:(lia) R) as [RR LR].
  destruct (fmt_f_facts 8 4 ma ltac:(lia) ltac:(lia) A) as [RA LA]. destruct (fmt_f_facts 11 8 mm ltac:(lia) ltac:(lia) M) as [RM LM].
  unfold tl, tle2. set (f := fmt_d 5 nr) in *. set (gi := fmt_f 8 4 inc) in *. set (gr := fmt_f 8 4 raan) in *. set (ga := fmt_f 8 4 ma) in *. set (gm := fmt_f 11 8 mm) in *.
  change (lit "    0X") with (lit "    0" ++ ["X"%char]). rewrite !app_assoc.
  set (t := (((((((((lit "2 " ++ f) ++ lit " ") ++ gi) ++ lit " ") ++ gr) ++ lit " 0001000   0.0000 ") ++ ga) ++ lit " ") ++ gm) ++ lit "    0").
  assert (LT : length t = 68%nat) by (unfold t; rewrite !app_length, LN, LI, LR, LA, LM; reflexivity).
  assert (NT : ~ In (ascii_of_nat 10) t).
  { unfold t. rewrite !in_app_iff. intros J.
    assert (J' : (In (ascii_of_nat 10) (lit "2 ") \/ In (ascii_of_nat 10) (lit " ") \/ In (ascii_of_nat 10) (lit " 0001000   0.0000 ") \/ In (ascii_of_nat 10) (lit "    0")) \/
      In (ascii_of_nat 10) f \/ In (ascii_of_nat 10) gi \/ In (ascii_of_nat 10) gr \/ In (ascii_of_nat 10) ga \/ In (ascii_of_nat 10) gm) by tauto.
    destruct J' as [K|[K|[K|[K|[K|K]]]]].
    - cbn in K. intuition discriminate.
    - exact (reads_no_newline _ _ RN K).
    - exact (places_no_newline _ _ _ RI K).
    - exact (places_no_newline _ _ _ RR K).
    - exact (places_no_newline _ _ _ RA K).
    - exact (places_no_newline _ _ _ RM K). }
  split; [apply checked; assumption|]. rewrite checksum_app. set (d := [digit (fold_right Z.add 0 (map worth t) mod 10)]). unfold t.
  split; [reflexivity|]. split; [|split; [|split; [|split; [|split; [|split]]]]].
  - rewrite (columns_at 3 5 _ (lit "2 ") f (lit " " ++ gi ++ lit " " ++ gr ++ lit " 0001000   0.0000 " ++ ga ++ lit " " ++ gm ++ lit "    0" ++ d)); [exact RN|rewrite <- !app_assoc; reflexivity|lia|reflexivity|exact LN].
  - rewrite (columns_at 9 8 _ ((lit "2 " ++ f) ++ lit " ") gi (lit " " ++ gr ++ lit " 0001000   0.0000 " ++ ga ++ lit " " ++ gm ++ lit "    0" ++ d)); [exact RI|rewrite <- !app_assoc; reflexivity|lia|rewrite !app_length, LN; reflexivity|exact LI].
  - rewrite (columns_at 18 8 _ ((((lit "2 " ++ f) ++ lit " ") ++ gi) ++ lit " ") gr (lit " 0001000   0.0000 " ++ ga ++ lit " " ++ gm ++ lit "    0" ++ d)); [exact RR|rewrite <- !app_assoc; reflexivity|lia|rewrite !app_length, LN, LI; reflexivity|exact LR].
  - rewrite (columns_at 27 7 _ ((((((lit "2 " ++ f) ++ lit " ") ++ gi) ++ lit " ") ++ gr) ++ lit " ") (lit "0001000") (lit "   0.0000 " ++ ga ++ lit " " ++ gm ++ lit "    0" ++ d)).
    + split; [discriminate|]. split; [|reflexivity]. repeat constructor; vm_compute; discriminate.
    + change (lit " 0001000   0.0000 ") with (lit " " ++ lit "0001000" ++ lit "   0.0000 "). rewrite <- !app_assoc. reflexivity.
    + lia.
    + rewrite !app_length, LN, LI, LR; reflexivity.
    + reflexivity.
  - rewrite (columns_at 35 8 _ ((((((lit "2 " ++ f) ++ lit " ") ++ gi) ++ lit " ") ++ gr) ++ lit " 0001000 ") (lit "  0.0000") (lit " " ++ ga ++ lit " " ++ gm ++ lit "    0" ++ d)).
    + exists 2%nat, ["0"%char], (lit "0000"). split; [reflexivity|]. split; [discriminate|]. split; [repeat constructor; vm_compute; discriminate|]. split; [reflexivity|].
      split; [repeat constructor; vm_compute; discriminate|reflexivity].
    + change (lit " 0001000   0.0000 ") with (lit " 0001000 " ++ lit "  0.0000" ++ lit " "). rewrite <- !app_assoc. reflexivity.
    + lia.
    + rewrite !app_length, LN, LI, LR; reflexivity.
    + reflexivity.
  - rewrite (columns_at 44 8 _ ((((((lit "2 " ++ f) ++ lit " ") ++ gi) ++ lit " ") ++ gr) ++ lit " 0001000   0.0000 ") ga (lit " " ++ gm ++ lit "    0" ++ d)); [exact RA|rewrite <- !app_assoc; reflexivity|lia|rewrite !app_length, LN, LI, LR; reflexivity|exact LA].
  - rewrite (columns_at 53 11 _ ((((((((lit "2 " ++ f) ++ lit " ") ++ gi) ++ lit " ") ++ gr) ++ lit " 0001000   0.0000 ") ++ ga) ++ lit " ") gm (lit "    0" ++ d)); [exact RM|rewrite <- !app_assoc; reflexivity|lia|rewrite !app_length, LN, LI, LR, LA; reflexivity|exact LM].
Qed.
(** too many digits *)
Lemma line1_long : forall nr epoch, 10 ^ 5 <= nr -> 0 <= epoch < 10 ^ 13 -> (69 < length (tle1 nr epoch))%nat.
Proof.
  intros nr epoch N E. destruct (fmt_f_facts 14 8 epoch ltac:(lia) ltac:(lia) E) as [_ LE]. unfold tle1.
  change (lit "  .00000000  00000-0  50000-4 0    0X") with (lit "  .00000000  00000-0  50000-4 0    0" ++ ["X"%char]). rewrite !app_assoc, checksum_app, !app_length, LE.
  assert (L := decimal_long nr 5 N). unfold fmt_d, pad. rewrite app_length. cbn [length lit list_ascii_of_string]. lia.
Qed.
(** lines apart *)
Lemma split_free : forall t, ~ In newline t -> split_lines t = [t].
Proof.
  induction t as [|c t IH]; intros N; [reflexivity|]. cbn [split_lines]. destruct (Ascii.eqb_spec c newline) as [->|_]; [destruct N; left; reflexivity|].
  rewrite IH; [reflexivity|]. intros I. apply N. right. exact I.
Qed.
Lemma split_first : forall a t, ~ In newline a -> split_lines (a ++ [newline] ++ t) = a :: split_lines t.
Proof.
  induction a as [|c a IH]; intros t N.
  - cbn [app split_lines]. rewrite Ascii.eqb_refl. reflexivity.
  - cbn [app split_lines]. destruct (Ascii.eqb_spec c newline) as [->|_]; [destruct N; left; reflexivity|]. cbn [app] in IH. rewrite IH; [reflexivity|]. intros I. apply N. right. exact I.
Qed.
