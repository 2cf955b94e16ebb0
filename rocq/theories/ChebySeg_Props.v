(** C211, C212, C214, C215: segments of Chebyshev fits and looking them up. *)
From Verif Require Import Base ChebySeg_Model ChebySeg_Spec ChebySeg_Proofs ChebySeg_Proofs2 ChebySeg_Proofs3.
From Coq Require Import Lia.
Open Scope Z_scope.

(** C211: the length that is set is positive, a multiple of it misses the time span by ten units of the last decimal place at most
    and, unless it was given, its residuals are within the tolerance *)
Theorem C211_length_partial : forall np span test guess given l, calc_segment_length np span test guess given = Ok l ->
  0 < l /\ span mod l <= 10 /\ (given = None -> test l = false).
Proof. exact length_ok. Qed.
Print Assumptions C211_length_partial.
(** a given length that fits a whole number of times is kept *)
Theorem C211_given_kept : forall np span test guess l, 0 < l -> (l | span) -> calc_segment_length np span test guess (Some l) = Ok l.
Proof. intros. apply round_length_keeps; assumption. Qed.
Print Assumptions C211_given_kept.
(** but not every length that is set fits a whole number of times *)
Theorem C211_whole_refuted : ~ (forall np span test guess given l, calc_segment_length np span test guess given = Ok l -> (l | span)).
Proof.
  intros C. specialize (C false 30 (fun _ => false) 7 (Some 7) 7 ltac:(vm_compute; reflexivity)).
  apply Z.mod_divide in C; [|lia]. discriminate C.
Qed.
Print Assumptions C211_whole_refuted.
(** when no length is found the error is never the ValueError of the code *)
Theorem C211_error_kinds : forall np span test guess given e, calc_segment_length np span test guess given = Err e ->
  e = ZeroDivisionError \/ e = AttributeError.
Proof. exact length_err. Qed.
Print Assumptions C211_error_kinds.
Theorem C211_documented_error_refuted : ~ (forall np span test guess, (forall l, test l = true) ->
  calc_segment_length np span test guess None = Err ValueError).
Proof. intros C. specialize (C false 300 (fun _ => true) 200 (fun _ => eq_refl)). vm_compute in C. discriminate C. Qed.
Print Assumptions C211_documented_error_refuted.
Example C211_case : calc_segment_length false 300 (fun l => 40 <? l) 200 None = Ok 33 /\
  calc_segment_length false 300 (fun _ => true) 200 None = Err ZeroDivisionError /\
  calc_segment_length true 300 (fun _ => true) 200 None = Err AttributeError.
Proof. vm_compute. repeat split. Qed.

(** the length of a piece that is subdivided *)
Definition chosen (test : Z -> Z -> Z -> bool) (guess : Z) (t span : Z) : result Z := calc_segment_length true span (test t span) guess None.
Lemma chosen_ok test guess t span l : chosen test guess t span = Ok l -> 0 < l.
Proof. unfold chosen. intros E. exact (proj1 (length_ok true span (test t span) guess None l E)). Qed.
Lemma chosen_err test guess t span e : chosen test guess t span = Err e -> e <> ValueError.
Proof. unfold chosen. intros E. destruct (length_err true span (test t span) guess None e E) as [H|H]; rewrite H; discriminate. Qed.

(** C212: if every length that is chosen fits a whole number of times, then the segments, with those that are listed as failed,
    follow each other without gap or overlap from the start to the end of the time span, also where pieces are subdivided, and a
    segment is kept exactly if the fit to the ephemeris points from its start to its end is good *)
Theorem C212_tiling_partial : forall z fit test guess (P : Z -> Prop) depth t0 span len l, (1 <= ngran z)%nat ->
  (forall t s l, P s -> chosen test guess t s = Ok l -> (l | s) /\ P l) ->
  0 <= span -> 0 < len -> (len | span) -> P len ->
  calc_segments depth z fit (chosen test guess) t0 span len = Ok l ->
  chain (t0 * unit_ z) l ((t0 + span) * unit_ z) /\ Forall (stands fit) l.
Proof.
  intros z fit test guess P depth t0 span len l Hg HC Hs Hl D HP H. split; [|apply (all_stand _ _ _ _ _ _ _ _ H)].
  apply (tiles z fit (chosen test guess) P Hg) with (depth := depth) (len := len); try assumption.
  - intros t s l' HPs E. destruct (HC t s l' HPs E) as [A B]. split; [|split; assumption]. apply (chosen_ok _ _ _ _ _ E).
  - intros t s e E. apply (chosen_err _ _ _ _ _ E).
Qed.
Print Assumptions C212_tiling_partial.
(** without subdivision they follow each other for every length, up to half an ephemeris step from the end *)
Theorem C212_near_partial : forall z fit choose depth t0 span len l, (1 <= ngran z)%nat -> 0 <= span -> 0 < len -> (forall e, fit e <> TooFar) ->
  calc_segments depth z fit choose t0 span len = Ok l ->
  exists b, chain (t0 * unit_ z) l b /\ - (2 * len) <= b - (t0 + span) * unit_ z <= 2 * len.
Proof. intros. apply (tiles_near z fit choose t0 span len l depth); assumption. Qed.
Print Assumptions C212_near_partial.
(** the default sizes *)
Definition sizes0 : sizes := {| ngran := 64; n_position := 14; n_vmag := 9; n_dist := 5; n_elong := 6 |}.
(** a length that was set by calc_segment_length may leave the end of the time span out *)
Theorem C212_end_refuted : ~ (forall z fit test guess given depth t0 span len l, (1 <= ngran z)%nat ->
  calc_segment_length false span (test t0 span) guess given = Ok len ->
  calc_segments depth z fit (chosen test guess) t0 span len = Ok l -> chain (t0 * unit_ z) l ((t0 + span) * unit_ z)).
Proof.
  intros C. specialize (C sizes0 (fun _ => Good) (fun _ _ _ => false) 7 None 2%nat 0 30 7 _ ltac:(cbn; lia) ltac:(vm_compute; reflexivity) ltac:(vm_compute; reflexivity)).
  vm_compute in C. repeat match type of C with _ = _ /\ _ => destruct C as [_ [_ C]] end. discriminate C.
Qed.
Print Assumptions C212_end_refuted.
(** ... or leave a gap within it, at the end of a piece that is subdivided *)
Theorem C212_gap_refuted : ~ (forall z fit test guess depth t0 span len l, (1 <= ngran z)%nat -> 0 < len -> (len | span) ->
  calc_segments depth z fit (chosen test guess) t0 span len = Ok l -> chain (t0 * unit_ z) l ((t0 + span) * unit_ z)).
Proof.
  intros C.
  specialize (C sizes0 (fun e => match e with a :: b :: _ => if 28 <? b - a then TooFar else Good | _ => Good end) (fun _ _ l => 7 <? l) 7 3%nat 0 60 30 _
    ltac:(cbn; lia) ltac:(lia) ltac:(exists 2; reflexivity) ltac:(vm_compute; reflexivity)).
  vm_compute in C. repeat match type of C with _ = _ /\ _ => let A := fresh in destruct C as [A [_ C]]; try discriminate A end.
Qed.
Print Assumptions C212_gap_refuted.
(** a last piece can be too short to be fitted, which ends the whole calculation *)
Theorem C212_short_refuted : ~ (forall z fit test guess given depth t0 span len, (1 <= ngran z)%nat ->
  calc_segment_length false span (test t0 span) guess given = Ok len -> (forall e, fit e = Good) ->
  exists l, calc_segments (S depth) z fit (chosen test guess) t0 span len = Ok l).
Proof.
  intros C. destruct (C sizes0 (fun _ => Good) (fun _ _ _ => false) 10 None 1%nat 0 31 10 ltac:(cbn; lia) ltac:(vm_compute; reflexivity) (fun _ => eq_refl)) as [l E].
  vm_compute in E. discriminate E.
Qed.
Print Assumptions C212_short_refuted.
(** and so does a piece that cannot be subdivided, instead of being listed as failed *)
Theorem C212_failed_refuted : ~ (forall z fit test guess depth t0 span len, (1 <= ngran z)%nat -> 0 < len -> (len | span) ->
  (forall t s l, test t s l = true) -> exists l, calc_segments (S depth) z fit (chosen test guess) t0 span len = Ok l).
Proof.
  intros C. destruct (C sizes0 (fun _ => TooFar) (fun _ _ _ => true) 200 2%nat 0 600 300 ltac:(cbn; lia) ltac:(lia) ltac:(exists 2; reflexivity) (fun _ _ _ => eq_refl)) as [l E].
  vm_compute in E. discriminate E.
Qed.
Print Assumptions C212_failed_refuted.
Definition ends_of (r : result (list event)) : result (list (bool * Z * Z)) :=
  match r with Ok l => Ok (map (fun e => (e_ok e, e_start e / 256, e_end e / 256)) l) | Err e => Err e end.
Example C212_case : (* the first of two segments is subdivided *)
  let fit := fun e => match e with a :: b :: _ => if (a <? 10240) && (80 <? b - a) then TooFar else Good | _ => Good end in
  let test := fun _ _ l : Z => 20 <? l in let P := fun s => s = 40 \/ s = 20 in
  (forall t s l, P s -> chosen test 40 t s = Ok l -> (l | s) /\ P l) /\ P 40 /\ (40 | 80) /\
  ends_of (calc_segments 3 sizes0 fit (chosen test 40) 0 80 40) = Ok [(true, 0, 20); (true, 20, 40); (true, 40, 80)].
Proof.
  split; [|split; [left; reflexivity|split; [exists 2; reflexivity|vm_compute; reflexivity]]].
  intros t s l [-> | ->] E; vm_compute in E; injection E as <-; (split; [|right; reflexivity]); [exists 2|exists 1]; reflexivity.
Qed.

(** C214: if for every object asked for one segment contains the time, then the result has one row per object, in the order of the
    table, with the value of that segment at the time *)
Theorem C214_own_segments_partial : forall tb ids a b ex times, let sel := asked ids tb in
  proper tb -> NoDup ids -> ids <> [] -> (forall x, In x ids -> In x (map fst tb)) -> spans sel a b -> times <> [] ->
  (forall t, In t times -> a <= t <= b /\ covered sel a b t) ->
  get_ephemerides (rows_of tb) times (Some ids) ex = Ok (map fst sel, map (fun t => map (answer a b t) sel) times).
Proof.
  intros tb ids a b ex times sel P D NE I S NT H.
  assert (IN : forall t, In t times -> ((t <? a) || (b <? t))%bool = false).
  { intros t Ht. destruct (H t Ht) as [L _]. apply orb_false_iff. rewrite !Z.ltb_ge. lia. }
  rewrite (get_asked tb ids a b ex times P D NE I S) by (intros t Ht _; apply H; exact Ht). fold sel.
  assert (E : existsb (inside a b ex) times = true).
  { destruct times as [|t r]; [congruence|]. cbn [existsb]. unfold inside at 1. rewrite (IN t (or_introl eq_refl)). reflexivity. }
  rewrite E. f_equal. f_equal. apply map_ext_in. intros t Ht. unfold column. rewrite (IN t Ht). reflexivity.
Qed.
Print Assumptions C214_own_segments_partial.
Theorem C214_all_objects_partial : forall tb a b ex times, tb <> [] -> proper tb -> (forall g, In g tb -> snd g <> []) -> spans tb a b -> times <> [] ->
  (forall t, In t times -> a <= t <= b /\ covered tb a b t) ->
  get_ephemerides (rows_of tb) times None ex = Ok (map fst tb, map (fun t => map (answer a b t) tb) times).
Proof.
  intros tb a b ex times NE P NB S NT H.
  assert (IN : forall t, In t times -> ((t <? a) || (b <? t))%bool = false).
  { intros t Ht. destruct (H t Ht) as [L _]. apply orb_false_iff. rewrite !Z.ltb_ge. lia. }
  destruct (get_all tb a b ex times NE P NB S) as [ids [E [I _]]]; [intros t Ht _; apply H; exact Ht|].
  rewrite E, I.
  - f_equal. f_equal. apply map_ext_in. intros t Ht. unfold column. rewrite (IN t Ht). reflexivity.
  - destruct times as [|t r]; [congruence|]. cbn [existsb]. unfold inside at 1. rewrite (IN t (or_introl eq_refl)). reflexivity.
Qed.
Print Assumptions C214_all_objects_partial.
Definition seg (o a b r : Z) : segm := {| s_obj := o; s_t0 := a; s_t1 := b; s_row := r |}.
(** without a segment of one object (a fit that failed) a row mixes objects *)
Theorem C214_missing_segment_refuted : ~ (forall coeffs times ids ex r, get_ephemerides coeffs times (Some ids) ex = Ok r ->
  forall i j c s t, nth_error (snd r) j = Some c -> nth_error c i = Some (Value s t) -> nth_error (fst r) i = Some (s_obj s)).
Proof.
  intros C. specialize (C [seg 1 0 10 1; seg 2 0 10 2; seg 2 10 20 3] [5; 15] [1; 2] false _ ltac:(vm_compute; reflexivity)).
  specialize (C 0%nat 0%nat _ _ _ eq_refl eq_refl). discriminate C.
Qed.
Print Assumptions C214_missing_segment_refuted.
(** a time in a gap between segments gives zeros *)
Theorem C214_gap_refuted : ~ (forall coeffs times ids ex r, get_ephemerides coeffs times (Some ids) ex = Ok r ->
  forall c x, In c (snd r) -> In x c -> x <> Zero).
Proof.
  intros C. specialize (C [seg 1 0 10 1; seg 1 11 20 2] [10] [1] false _ ltac:(vm_compute; reflexivity)).
  apply (C [Zero] Zero); try reflexivity; left; reflexivity.
Qed.
Print Assumptions C214_gap_refuted.
(** an object that has no coefficients is not refused *)
Theorem C214_unknown_refuted : ~ (forall coeffs times ids ex r, get_ephemerides coeffs times (Some ids) ex = Ok r ->
  forall x, In x ids -> In x (map s_obj coeffs)).
Proof.
  intros C. specialize (C [seg 1 0 10 1] [5] [1; 9] false _ ltac:(vm_compute; reflexivity) 9 ltac:(right; left; reflexivity)).
  cbn in C. destruct C as [C|[]]. discriminate C.
Qed.
Print Assumptions C214_unknown_refuted.
Definition table0 : table := [(7, [seg 7 0 10 1; seg 7 10 20 2]); (3, [seg 3 0 5 3; seg 3 5 20 4]); (4, [seg 4 0 20 5])].
Lemma table0_ok : proper table0 /\ spans (asked [3; 7] table0) 0 20 /\
  forall t, In t [8; 10; 20; 25] -> covered (asked [3; 7] table0) 0 20 t.
Proof.
  split; [|split].
  - split; [repeat constructor; cbn; lia|]. intros g s HG HS. cbn in HG. destruct HG as [<-|[<-|[<-|[]]]]; cbn in HS; intuition (subst; reflexivity).
  - split; [|split].
    + intros s H. cbn in H. intuition (subst; cbn; lia).
    + exists (seg 7 0 10 1). split; [left; reflexivity|reflexivity].
    + exists (seg 7 10 20 2). split; [right; left; reflexivity|reflexivity].
  - intros t H g HG. cbn in H, HG. destruct HG as [<-|[<-|[]]]; destruct H as [<-|[<-|[<-|[<-|[]]]]]; eexists; reflexivity.
Qed.
Example C214_case : get_ephemerides (rows_of table0) [8; 10; 20] (Some [3; 7]) false =
  Ok ([7; 3], [[Value (seg 7 0 10 1) 8; Value (seg 3 5 20 4) 8]; [Value (seg 7 10 20 2) 10; Value (seg 3 5 20 4) 10];
               [Value (seg 7 10 20 2) 20; Value (seg 3 5 20 4) 20]]).
Proof.
  destruct table0_ok as [P [S C]]. apply (C214_own_segments_partial table0 [3; 7] 0 20 false [8; 10; 20] P); [repeat constructor; cbn; lia|discriminate| |exact S|discriminate|].
  - intros x H. cbn in H |- *. intuition.
  - intros t H. split; [cbn in H; lia|]. apply C. cbn in H |- *. intuition.
Qed.

(** C215: times before and after the segments: all entries are NaN when not extrapolating; otherwise the first or the last segments
    of the objects are used *)
Theorem C215_outside_partial : forall tb ids a b ex times, let sel := asked ids tb in
  proper tb -> NoDup ids -> ids <> [] -> (forall x, In x ids -> In x (map fst tb)) -> spans sel a b ->
  (forall t, In t times -> inside a b ex t = true -> covered sel a b t) ->
  exists ids', get_ephemerides (rows_of tb) times (Some ids) ex = Ok (ids', map (column a b ex sel) times) /\
  same_ids ids' ids /\ length ids' = length ids.
Proof.
  intros tb ids a b ex times sel P D NE I S C. eexists. split; [apply (get_asked tb ids a b ex times P D NE I S C)|]. fold sel.
  pose proof (asked_length tb ids P D I) as L. fold sel in L.
  destruct (existsb _ times); [|split; [intros x; reflexivity|reflexivity]]. split; [|rewrite map_length; symmetry; exact L].
  intros x. split; intros H.
  - apply in_map_iff in H as [g [<- G]]. apply filter_In in G as [_ G]. apply existsb_exists in G as [y [Iy E]]. apply Z.eqb_eq in E. rewrite E. exact Iy.
  - specialize (I x H). apply in_map_iff in I as [g [E G]]. apply in_map_iff. exists g. split; [exact E|]. apply filter_In. split; [exact G|].
    apply existsb_exists. exists x. split; [exact H|]. apply Z.eqb_eq. exact E.
Qed.
Print Assumptions C215_outside_partial.
(** no time is refused, though the documentation says so *)
Theorem C215_documented_refuted : ~ (forall coeffs times ids t, (forall s, In s coeffs -> s_t1 s < t) -> In t times ->
  get_ephemerides coeffs times (Some ids) false = Err ValueError).
Proof.
  intros C. specialize (C [seg 1 0 10 1] [15] [1] 15). assert (H : get_ephemerides [seg 1 0 10 1] [15] (Some [1]) false = Err ValueError).
  { apply C; [|left; reflexivity]. intros s [<-|[]]. cbn. lia. }
  vm_compute in H. discriminate H.
Qed.
Print Assumptions C215_documented_refuted.
Example C215_case :
  get_ephemerides (rows_of table0) [25; -5; 8] (Some [3; 7]) false =
    Ok ([7; 3], [[NaN; NaN]; [NaN; NaN]; [Value (seg 7 0 10 1) 8; Value (seg 3 5 20 4) 8]]) /\
  get_ephemerides (rows_of table0) [25; -5] (Some [3; 7]) true =
    Ok ([7; 3], [[Value (seg 7 10 20 2) 25; Value (seg 3 5 20 4) 25]; [Value (seg 7 0 10 1) (-5); Value (seg 3 0 5 3) (-5)]]) /\
  proper table0 /\ spans (asked [3; 7] table0) 0 20 /\ covered (asked [3; 7] table0) 0 20 25.
Proof.
  destruct table0_ok as [P [S C]]. split; [vm_compute; reflexivity|]. split; [vm_compute; reflexivity|]. split; [exact P|]. split; [exact S|].
  apply C. cbn. intuition.
Qed.
