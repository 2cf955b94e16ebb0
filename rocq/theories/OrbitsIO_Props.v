(** Properties C221 and C222: packing orbits for pyoorb, update_orbits, the ephemeris arrays. *)
From Coq Require Import Reals Lra Lia.
From Verif Require Import Base Orbits_Model Orbits_Spec Orbits_Proofs Orbits_Proofs2 Orbits_Proofs3 Orbits_Props Orbits_Props2.
From Verif Require Import OrbitsIO_Model OrbitsIO_Spec OrbitsIO_Proofs.
Open Scope R_scope.

(** * C221: packing for pyoorb, and back *)
(** the entry of the packed array *)
Definition packed (cols : list (list num)) (i k : nat) (x : num) : Prop := exists l, nth_error cols k = Some l /\ nth_error l i = Some x.
(** angles are packed in radians *)
Definition packed_value (c : string) (v : cell) (x : num) : Prop :=
  match v with
  | Num y => x = Some (if in_dec string_dec c ["inc"; "Omega"; "argPeri"; "meanAnomaly"]%string then y * PI / 180 else y)
  | Nan => x = None
  | Txt _ => False
  end.
(** pyoorb's number of a format *)
Definition oorb_code (fmt : string) (t : R) : Prop := (fmt = "CAR" /\ t = 1 \/ fmt = "COM" /\ t = 2 \/ fmt = "KEP" /\ t = 3)%string.
(** Statement: the array given to pyoorb has a row for every orbit, in order: number, six elements (angles in radians), type, epoch,
    time scale TT, H, g. *)
Theorem C221_packed : forall f fmt els, wf f -> elements fmt els ->
  (forall c, In c (els ++ ["epoch"; "H"; "g"]%string) -> In c (names f) /\ numeric f c) ->
  exists cols, to_oorb f fmt = Ok cols /\ length cols = 12%nat /\ (forall l, In l cols -> length l = rows f) /\
  (forall i, (i < rows f)%nat -> packed cols i 0 (Some (INR i + 1)) /\ (exists t, oorb_code fmt t /\ packed cols i 7 (Some t)) /\ packed cols i 9 (Some 3)) /\
  (forall c k i v, nth_error (els ++ ["epoch"; "H"; "g"]%string) k = Some c -> holds f c i v ->
     exists x, packed cols i (nth k [1; 2; 3; 4; 5; 6; 8; 10; 11] 0)%nat x /\ packed_value c v x).
Proof.
  intros f fmt els W E H.
  assert (P : forall c conv, In c (els ++ ["epoch"; "H"; "g"]%string) -> pack f c conv = Ok (map conv (map num_of (col_of f c))))
    by (intros c conv I; apply pack_ok; [exact W|apply H; exact I|apply H; exact I]).
  assert (L : forall c, In c (els ++ ["epoch"; "H"; "g"]%string) -> length (col_of f c) = rows f) by (intros c I; apply col_of_in; [exact W|apply H; exact I]).
  assert (V : forall c (conv : num -> num) i v, In c (els ++ ["epoch"; "H"; "g"]%string) -> holds f c i v ->
    nth_error (map conv (map num_of (col_of f c))) i = Some (conv (num_of v)) /\ forall s, v <> Txt s).
  { intros c conv i v I [l [J N]]. destruct (col_of_in f c W (proj1 (H c I))) as [K _].
    assert (l = col_of f c) by exact (unique_col _ _ _ _ (proj1 W) J K). subst l. split; [rewrite map_map; exact (map_nth_error (fun x => conv (num_of x)) i (col_of f c) N)|].
    intros s ->. apply (proj2 (H c I) i s). exists (col_of f c). auto. }
  assert (S0 : forall i, (i < rows f)%nat -> nth_error (map (fun i => Some (INR i + 1)) (seq 0 (rows f))) i = Some (Some (INR i + 1))).
  { intros i Hi. apply (map_nth_error (fun i => Some (INR i + 1))). rewrite nth_error_nth' with (d := 0%nat) by (rewrite seq_length; exact Hi). rewrite seq_nth by exact Hi. reflexivity. }
  assert (RP : forall (x : num) i, (i < rows f)%nat -> nth_error (repeat x (rows f)) i = Some x) by (intros x i Hi; apply nth_error_repeat; exact Hi).
  destruct E; cbn [app In] in P, L, V;
  (eexists; split; [unfold to_oorb; cbn [elem_type time_scales oorb_elements String.eqb Ascii.eqb Bool.eqb bind map fst snd all_ok];
     rewrite !P by tauto; cbn [bind all_ok]; reflexivity|]; cbn [app]; split; [reflexivity|]; split;
   [intros l I; repeat (destruct I as [<-|I]; [rewrite ?map_length, ?repeat_length, ?seq_length; try apply L; try reflexivity; tauto|]); destruct I|]; split;
   [intros i Hi; split; [eexists; split; [reflexivity|apply S0; exact Hi]|]; split;
     [eexists; split; [|eexists; split; [reflexivity|apply RP; exact Hi]]; unfold oorb_code; tauto|eexists; split; [reflexivity|apply RP; exact Hi]]|];
   intros c k i v N HV;
   do 9 (destruct k as [|k]; [cbn in N; injection N as <-; match type of HV with holds _ ?c _ _ =>
     match goal with |- exists x, packed ?cols i ?k x /\ _ => let kk := eval cbn in k in
       match eval cbn in (nth_error cols kk) with Some (map ?conv _) => destruct (V c conv i v ltac:(tauto) HV) as [VE VT];
         exists (conv (num_of v)); split; [eexists; split; [reflexivity|exact VE]|] end end end;
     destruct v as [y|s|]; [reflexivity|destruct (VT s eq_refl)|reflexivity]|]); cbn in N; destruct k; discriminate).
Qed.
Print Assumptions C221_packed.
(** Statement: unpacking what was packed gives the elements, the epoch, H and g back, in degrees (exactly, but for rounding), rows in
    order and numbered from 0. *)
Theorem C221_roundtrip : forall f fmt els, wf f -> elements fmt els ->
  (forall c, In c (els ++ ["epoch"; "H"; "g"]%string) -> In c (names f) /\ numeric f c) ->
  exists cols f', to_oorb f fmt = Ok cols /\ from_oorb fmt cols = Ok f' /\ wf f' /\ f_index f' = map Z.of_nat (seq 0 (rows f)) /\
  names f' = els ++ ["epoch"; "H"; "g"]%string /\
  forall c i v, In c (els ++ ["epoch"; "H"; "g"]%string) -> (holds f' c i v <-> holds f c i v).
Proof.
  intros f fmt els W E H. destruct (round_trip f fmt els W E H) as [cols [A [_ B]]]. exists cols. eexists. split; [exact A|]. split; [exact B|].
  split; [apply element_table_wf; [exact W|exact (elements_nodup fmt els E)|intros d I; apply H; exact I]|]. split; [reflexivity|].
  split; [apply element_table_names|]. intros c i v I. rewrite element_table_holds; [tauto|exact W|intros d J; apply H; exact J].
Qed.
Print Assumptions C221_roundtrip.
Lemma el_names : forall fmt els, elements fmt els -> ~ In "obj_id"%string (els ++ ["epoch"; "H"; "g"]%string) /\ ~ In "sed_filename"%string (els ++ ["epoch"; "H"; "g"]%string) /\
  ~ In "FORMAT"%string (els ++ ["epoch"; "H"; "g"]%string) /\ ~ In "index"%string (els ++ ["epoch"; "H"; "g"]%string).
Proof. intros fmt els E. destruct E; cbn; intuition discriminate. Qed.
(** Statement: packing, unpacking and update_orbits leave an Orbits object with the same format and the same values, for rows numbered
    from 0 and an epoch in range. *)
Theorem C221_update_partial : forall draws o f fmt els, holding o f fmt -> elements fmt els ->
  (forall c, In c (els ++ ["epoch"; "H"; "g"]%string) -> numeric f c) -> f_index f = map Z.of_nat (seq 0 (rows f)) ->
  (forall v, holds f "epoch" 0 v -> epoch_ok v) ->
  exists cols new o' f', to_oorb f fmt = Ok cols /\ from_oorb fmt cols = Ok new /\ update_orbits draws o new = Ok o' /\ holding o' f' fmt /\ rows f' = rows f /\
  forall c i v, In c (["obj_id"; "sed_filename"]%string ++ els ++ ["epoch"; "H"; "g"]%string) -> (holds f' c i v <-> holds f c i v).
Proof.
  intros draws o f fmt els HO E N IX EP. assert (HO' := HO). destruct HO' as [OO [FF [W [R [els' [E' HC]]]]]].
  assert (els' = els) by (destruct E; inversion E'; reflexivity). subst els'.
  assert (H : forall c, In c (els ++ ["epoch"; "H"; "g"]%string) -> In c (names f) /\ numeric f c).
  { intros c I. split; [|exact (N c I)]. apply HC. rewrite in_app_iff in I |- *. cbn in I |- *. tauto. }
  destruct (round_trip f fmt els W E H) as [cols [A [_ B]]]. set (new := element_table f (els ++ ["epoch"; "H"; "g"]%string)) in *.
  assert (HN : forall d, In d (els ++ ["epoch"; "H"; "g"]%string) -> In d (names f)) by (intros d I; apply H; exact I).
  assert (WN : wf new) by (apply element_table_wf; [exact W|exact (elements_nodup fmt els E)|exact HN]).
  assert (II : In "obj_id"%string (names f)) by (apply HC; apply in_app_iff; right; cbn; tauto).
  assert (IS : In "sed_filename"%string (names f)) by (apply HC; apply in_app_iff; right; cbn; tauto).
  assert (ND : NoDup (f_index f)) by (rewrite IX; apply count_nodup).
  assert (EI : f_index new = f_index f) by (rewrite IX; reflexivity).
  destruct (el_names fmt els E) as [X1 [X2 [X3 X4]]].
  assert (NN : names new = els ++ ["epoch"; "H"; "g"]%string) by apply element_table_names.
  assert (J : join_ids f new = Ok (merged f new)) by (apply join_ok; rewrite ?NN; assumption).
  assert (RN : rows new = rows f) by (unfold rows; rewrite EI; reflexivity).
  assert (WM : wf (merged f new)) by (apply merged_wf; rewrite ?NN; assumption).
  assert (HM : forall c i v, In c (els ++ ["epoch"; "H"; "g"]%string) -> (holds (merged f new) c i v <-> holds f c i v)).
  { intros c i v I. rewrite merged_holds by assumption. unfold new. rewrite element_table_holds by assumption. split; [intros [X|[_ X]]; tauto|tauto]. }
  assert (NE : numeric_elements (merged f new)).
  { intros c K0 i s X. assert (Y := X). apply merged_holds in X; [|assumption..]. destruct X as [X|[C X]].
    - assert (K : In c (els ++ ["epoch"; "H"; "g"]%string)) by (rewrite <- NN; apply holds_names in X; exact X). apply HM in Y; [|exact K]. exact (N c K i s Y).
    - destruct C as [-> | ->]; cbn in K0; intuition discriminate. }
  assert (MN : forall c, In c (names (merged f new)) <-> c = "obj_id"%string \/ In c (els ++ ["epoch"; "H"; "g"]%string) \/ c = "sed_filename"%string)
    by (intros c; rewrite merged_names, NN; reflexivity).
  assert (EE : In "epoch"%string (els ++ ["epoch"; "H"; "g"]%string)) by (apply in_app_iff; right; left; reflexivity).
  assert (CH : chosen (merged f new) fmt).
  { destruct E; [apply ch_com|apply ch_kep|apply ch_car]; rewrite MN; cbn; intuition discriminate. }
  assert (AC : acceptable (merged f new) fmt).
  { split; [unfold rows; cbn [merged f_index]; fold (rows new); lia|]. split; [exact CH|].
    split; [exists els; split; [exact E|intros c I; apply MN; right; left; apply in_app_iff; left; exact I]|].
    split; [|rewrite !MN; tauto].
    destruct (col_of_in f "epoch" W (HN _ EE)) as [K [_ KL]]. destruct (col_of f "epoch") as [|v l] eqn:CE; [cbn in KL; lia|].
    exists v. assert (HV : holds f "epoch" 0 v) by (exists (v :: l); auto). split; [apply HM; assumption|exact (EP v HV)]. }
  assert (OK : u_result (set_orbits draws o (DataFrame (merged f new))) = Ok tt) by (apply C217_accepts; [exact WM|exact NE|exists fmt; exact AC]).
  assert (U : update_orbits draws o new = Ok (u_self (set_orbits draws o (DataFrame (merged f new))))).
  { unfold update_orbits, frame_of. rewrite OO. cbn [bind]. rewrite J. cbn [bind]. rewrite OK. reflexivity. }
  destruct (update_stored draws o f fmt new _ HO ND WN EI U) as [f' [fmt' [HD [CH' [RR [S1 [S2 S3]]]]]]].
  assert (fmt' = fmt).
  { apply (chosen_names (merged f new) (merged f new)); [rewrite MN; intros [D|[D|D]]; [discriminate|contradiction|discriminate]|tauto|exact CH'|exact CH]. }
  subst fmt'. exists cols, new. do 2 eexists. split; [exact A|]. split; [exact B|]. split; [exact U|]. split; [exact HD|]. split; [exact RR|].
  intros c i v I. apply in_app_iff in I. destruct I as [I|I].
  - apply S1. destruct I as [<-|[<-|[]]]; auto.
  - assert (NF : c <> "FORMAT"%string) by (intros ->; contradiction). assert (NI : c <> "index"%string) by (intros ->; contradiction). split.
    + intros X. destruct (S3 c i v X) as [[-> | ->]|[Y|[Y _]]]; [contradiction|contradiction| |rewrite NN in Y; contradiction].
      unfold new in Y. apply element_table_holds in Y; [tauto|assumption..].
    + intros X. apply S2; [exact NF|exact NI|]. unfold new. apply element_table_holds; auto.
Qed.
Print Assumptions C221_update_partial.
(** Statement: update_orbits keeps identifiers and spectra, and takes the elements from the new table. *)
Theorem C221_keeps : forall draws o f fmt new o', holding o f fmt -> NoDup (f_index f) -> wf new -> f_index new = f_index f -> update_orbits draws o new = Ok o' ->
  exists f' fmt', holding o' f' fmt' /\ rows f' = rows f /\
  (forall c i v, (c = "obj_id" \/ c = "sed_filename")%string -> (holds f' c i v <-> holds f c i v)) /\
  (forall c i v, c <> "FORMAT"%string -> c <> "index"%string -> holds new c i v -> holds f' c i v).
Proof.
  intros draws o f fmt new o' HO ND WN EI U. destruct (update_stored draws o f fmt new o' HO ND WN EI U) as [f' [fmt' [HD [_ [RR [S1 [S2 _]]]]]]].
  exists f', fmt'. auto.
Qed.
Print Assumptions C221_keeps.
(** Statement: (documentation) update_orbits leaves H and g in place.  It does not: they are taken from the new table, or set to 20 and
    0.15 if it has none *)
Definition moved : frame := {| f_index := [0%Z; 1%Z]; f_cols := [("a", [Num 2.5; Num 2.6]); ("e", [Num 0.1; Num 0.1]); ("inc", [Num 5; Num 5]);
  ("Omega", [Num 11; Num 12]); ("argPeri", [Num 20; Num 20]); ("meanAnomaly", [Num 31; Num 32]); ("epoch", [Num 59100; Num 59100])]%string |}.
Lemma moved_ok : wf moved /\ forall draws, exists o', update_orbits draws (holder near) moved = Ok o'.
Proof.
  assert (WM : wf moved).
  { split; [cbn; repeat constructor; cbn; intuition discriminate|]. intros c l I. cbn in I. repeat (destruct I as [I|I]; [injection I as <- <-; reflexivity|]). destruct I. }
  split; [exact WM|]. intros draws. assert (HO : holding (holder near) near "KEP") by (apply kep_holding; [discriminate|reflexivity|reflexivity]).
  destruct HO as [OO [_ [W [R _]]]]. 
  assert (II : In "obj_id"%string (names near)) by (cbn; tauto). assert (IS : In "sed_filename"%string (names near)) by (cbn; tauto).
  assert (J : join_ids near moved = Ok (merged near moved)) by (apply join_ok; try assumption; [repeat constructor; cbn; lia|reflexivity|cbn; intuition discriminate|cbn; intuition discriminate]).
  assert (OK : u_result (set_orbits draws (holder near) (DataFrame (merged near moved))) = Ok tt).
  { apply C217_accepts.
    - apply merged_wf; try assumption; [reflexivity|cbn; intuition discriminate|cbn; intuition discriminate].
    - intros c K i s [l [X Y]]. apply nth_error_In in Y. unfold merged in X. cbn in X.
      repeat (destruct X as [X|X]; [injection X as <- <-; cbn in Y, K; intuition discriminate|]). destruct X.
    - exists "KEP"%string. split; [discriminate|]. split; [apply ch_kep; cbn; intuition discriminate|]. split; [eexists; split; [constructor|intros c I; cbn in I |- *; tauto]|].
      split; [|cbn; intuition discriminate]. exists (Num 59100). split; [eexists; split; [do 7 right; left; reflexivity|reflexivity]|]. intros x X. injection X as <-. lra. }
  eexists. unfold update_orbits, frame_of. rewrite OO. cbn [bind]. rewrite J. cbn [bind]. rewrite OK. reflexivity.
Qed.
Theorem C221_H_refuted : ~ (forall draws o f fmt new o' f' fmt', holding o f fmt -> wf new -> f_index new = f_index f -> update_orbits draws o new = Ok o' ->
  holding o' f' fmt' -> forall c i v, (c = "H" \/ c = "g")%string -> (holds f' c i v <-> holds f c i v)).
Proof.
  intros C. assert (HO : holding (holder near) near "KEP") by (apply kep_holding; [discriminate|reflexivity|reflexivity]).
  destruct moved_ok as [WM M]. destruct (M (fun _ => 0)) as [o' U].
  destruct (update_stored _ _ near "KEP" moved o' HO ltac:(repeat constructor; cbn; lia) WM eq_refl U) as [f' [fmt' [HD [_ [_ [_ [_ S3]]]]]]].
  assert (X : holds f' "H" 0 (Num 17)).
  { apply (C (fun _ => 0) (holder near) near "KEP"%string moved o' f' fmt' HO WM eq_refl U HD); [auto|]. eexists. split; [do 8 right; left; reflexivity|reflexivity]. }
  destruct (S3 _ _ _ X) as [[D|D]|[D|[_ [[_ D]|[D _]]]]]; try discriminate.
  - apply holds_names in D. cbn in D. intuition discriminate.
  - injection D as D. lra.
Qed.
Print Assumptions C221_H_refuted.
(** Statement: update_orbits keeps identifiers and spectra after packing and unpacking, for every Orbits object.  An object taken from a
    larger one keeps its row labels, the unpacked table is numbered from 0: the labels do not meet and both columns are lost *)
Definition lone : frame := {| f_index := [1%Z]; f_cols := f_cols (kep [Num 2] [Num 2.6] [Num 59000] []) |}.
Definition lone_new : frame := element_table lone ["a"; "e"; "inc"; "Omega"; "argPeri"; "meanAnomaly"; "epoch"; "H"; "g"]%string.
Definition lone_join : frame := {| f_index := [0%Z]; f_cols := ("obj_id", [Nan])%string :: f_cols lone_new ++ [("sed_filename", [Nan])%string] |}.
Lemma lone_holding : holding (holder lone) lone "KEP".
Proof.
  destruct (kep_holding [Num 2] [Num 2.6] [Num 59000]) as [_ [_ [W [R X]]]]; [discriminate|reflexivity|reflexivity|].
  split; [reflexivity|]. split; [reflexivity|]. split; [exact W|]. split; [exact R|exact X].
Qed.
Lemma lone_update : forall draws, wf lone_join /\ update_orbits draws (holder lone) lone_new = Ok (u_self (set_orbits draws (holder lone) (DataFrame lone_join))) /\
  u_result (set_orbits draws (holder lone) (DataFrame lone_join)) = Ok tt.
Proof.
  intros draws. assert (WM : wf lone_join).
  { split; [cbn; repeat constructor; cbn; intuition discriminate|]. intros c l I. cbn in I. repeat (destruct I as [I|I]; [injection I as <- <-; reflexivity|]). destruct I. }
  assert (OK : u_result (set_orbits draws (holder lone) (DataFrame lone_join)) = Ok tt).
  { apply C217_accepts; [exact WM| |].
    - intros c K i s [l [X Y]]. apply nth_error_In in Y. cbn in X.
      repeat (destruct X as [X|X]; [injection X as <- <-; cbn in Y, K; intuition discriminate|]). destruct X.
    - exists "KEP"%string. split; [discriminate|]. split; [apply ch_kep; cbn; intuition discriminate|]. split; [eexists; split; [constructor|intros c I; cbn in I |- *; tauto]|].
      split; [|cbn; intuition discriminate]. exists (Num 59000). split; [eexists; split; [do 7 right; left; reflexivity|reflexivity]|]. intros x X. injection X as <-. lra. }
  split; [exact WM|]. split; [|exact OK].
  unfold update_orbits. change (frame_of (holder lone)) with (Ok lone). cbn [bind]. change (join_ids lone lone_new) with (Ok lone_join). cbn [bind]. rewrite OK. reflexivity.
Qed.
Theorem C221_label_refuted : ~ (forall draws o f fmt cols new o' f' fmt', holding o f fmt -> to_oorb f fmt = Ok cols -> from_oorb fmt cols = Ok new ->
  update_orbits draws o new = Ok o' -> holding o' f' fmt' -> forall c i v, (c = "obj_id" \/ c = "sed_filename")%string -> (holds f' c i v <-> holds f c i v)).
Proof.
  intros C. assert (HO := lone_holding). destruct (lone_update (fun _ => 0)) as [WM [U OK]].
  assert (HC : forall c, In c (["a"; "e"; "inc"; "Omega"; "argPeri"; "meanAnomaly"]%string ++ ["epoch"; "H"; "g"]%string) -> In c (names lone) /\ numeric lone c).
  { intros c I. split; [cbn in I |- *; tauto|]. intros i s [l [X Y]]. apply nth_error_In in Y. cbn in X.
    repeat (destruct X as [X|X]; [injection X as <- <-; cbn in Y, I; intuition discriminate|]). destruct X. }
  destruct (round_trip lone "KEP" _ (proj1 (proj2 (proj2 HO))) el_kep HC) as [cols [A [_ B]]].
  destruct (ok_accepted _ _ _ OK) as [f' [fmt' AC]]. destruct (C217_stored _ _ _ _ _ WM AC) as [_ [HD [_ [K _]]]].
  assert (X : holds f' "obj_id" 0 Nan) by (apply K; [eexists; split; [left; reflexivity|reflexivity]|discriminate|discriminate]).
  apply (C _ _ _ _ _ _ _ _ _ HO A B U HD) in X; [|auto]. destruct X as [l [X Y]]. apply nth_error_In in Y. cbn in X.
  repeat (destruct X as [X|X]; [try discriminate X|]); [|destruct X]. injection X as <-. cbn in Y. intuition discriminate.
Qed.
Print Assumptions C221_label_refuted.
Example C221_case : holding (holder near) near "KEP" /\ (forall c, In c ["a"; "e"; "inc"; "Omega"; "argPeri"; "meanAnomaly"; "epoch"; "H"; "g"]%string -> In c (names near) /\ numeric near c) /\
  f_index near = map Z.of_nat (seq 0 (rows near)) /\ (forall v, holds near "epoch" 0 v -> epoch_ok v) /\ wf moved /\
  exists o', update_orbits (fun _ => 0) (holder near) moved = Ok o'.
Proof.
  split; [apply kep_holding; [discriminate|reflexivity|reflexivity]|]. split.
  { intros c I. split; [cbn in I |- *; tauto|]. intros i s [l [X Y]]. apply nth_error_In in Y. cbn in X.
    repeat (destruct X as [X|X]; [injection X as <- <-; cbn in Y, I; intuition discriminate|]). destruct X. }
  split; [reflexivity|]. split; [|destruct moved_ok as [A B]; split; [exact A|apply B]].
  intros v [l [X Y]]. cbn in X. repeat (destruct X as [X|X]; [try discriminate X|]); [|destruct X]. injection X as <-. cbn in Y. injection Y as <-. intros x Q. injection Q as <-. lra.
Qed.

(** * C222: ephemerides *)
(** the columns of pyoorb's array, as documented *)
Definition basic_layout : list string :=
  ["time"; "ra"; "dec"; "dradt"; "ddecdt"; "phase"; "solarelon"; "helio_dist"; "geo_dist"; "magV"; "trueAnomaly"]%string.
(** an array of pyoorb: [objects][times][values] *)
Definition named (cols : list column2) (n : string) (c : column2) : Prop := In c cols /\ c_name c = n.
(** Statement: column n of the result holds, at [object][time] (by_object) or [time][object], the value pyoorb computed for that object
    and time; velocity is the total rate. *)
Theorem C222_values : forall names by_object objs times vals at_, (5 <= length names <= vals)%nat -> NoDup names ->
  exists cols, convert_ephs names by_object {| a_shape := (objs, times, vals); a_at := at_ |} = Ok cols /\
  map c_name cols = names ++ ["velocity"%string] /\
  (forall c, In c cols -> c_shape c = if by_object then (objs, times) else (times, objs)) /\
  (forall k n c o t, nth_error names k = Some n -> nth_error cols k = Some c ->
     c_name c = n /\ (if by_object then c_at c o t else c_at c t o) = at_ o t k) /\
  (forall c o t, nth_error cols (length names) = Some c ->
     c_name c = "velocity"%string /\ (if by_object then c_at c o t else c_at c t o) = sqrt (at_ o t 3%nat ^ 2 + at_ o t 4%nat ^ 2)).
Proof.
  intros names by_object objs times vals at_ L ND. unfold convert_ephs. cbn [swap20 a_shape].
  destruct (Nat.ltb_spec vals 5) as [X|_]; [lia|]. destruct (Nat.ltb_spec vals (length names)) as [X|_]; [lia|].
  assert (LC : forall sh (g : nat -> nat -> nat -> R), length (map (fun p : nat * string => {| c_name := snd p; c_shape := sh; c_at := g (fst p) |}) (combine (seq 0 (length names)) names)) = length names)
    by (intros; rewrite map_length, combine_length, seq_length; lia).
  assert (NC : forall sh (g : nat -> nat -> nat -> R) k n, nth_error names k = Some n ->
     nth_error (map (fun p : nat * string => {| c_name := snd p; c_shape := sh; c_at := g (fst p) |}) (combine (seq 0 (length names)) names)) k = Some {| c_name := n; c_shape := sh; c_at := g k |}).
  { intros sh g k n N. assert (Hk : (k < length names)%nat) by (apply nth_error_Some; congruence).
    apply (map_nth_error (fun p : nat * string => {| c_name := snd p; c_shape := sh; c_at := g (fst p) |}) k _ (d := (k, n))).
    rewrite nth_error_nth' with (d := (0%nat, ""%string)) by (rewrite combine_length, seq_length; lia). f_equal.
    rewrite combine_nth by apply seq_length. rewrite seq_nth by exact Hk. f_equal. exact (nth_error_nth _ _ _ N). }
  eexists. split; [reflexivity|]. split; [|split; [|split]].
  - rewrite map_app, map_map. cbn [map c_name]. f_equal. clear. generalize 0%nat. induction names as [|n names IH]; intros s; [reflexivity|]. cbn. f_equal. apply IH.
  - intros c I. apply in_app_iff in I. destruct I as [I|[<-|[]]]; [|reflexivity]. apply in_map_iff in I. destruct I as [p [<- _]]. reflexivity.
  - intros k n c o t N C. rewrite nth_error_app1 in C by (rewrite LC; apply nth_error_Some; congruence).
    rewrite (NC _ _ k n N) in C. injection C as <-. cbn [c_name c_at]. split; [reflexivity|]. destruct by_object; reflexivity.
  - intros c o t C. rewrite nth_error_app2 in C by (rewrite LC; lia). rewrite LC, Nat.sub_diag in C. cbn in C. injection C as <-. cbn [c_name c_at].
    split; [reflexivity|]. destruct by_object; reflexivity.
Qed.
Print Assumptions C222_values.
(** Statement: generate_ephemerides accepts the modes nbody, N, 2body and 2 in any case, the types basic and full, a known time scale,
    at least one time; anything else raises ValueError (KeyError for the scale). *)
Theorem C222_checks : forall ob of_ times scale by_object mode type cols, generate_ephemerides ob of_ times scale by_object mode type = Ok cols ->
  In (lower mode) ["nbody"; "n"; "2body"; "2"]%string /\ In (lower type) ["basic"; "full"]%string /\ In scale ["UTC"; "UT1"; "TT"; "TAI"]%string /\ times <> [].
Proof.
  intros ob of_ times scale by_object mode type cols. unfold generate_ephemerides, dynamics. cbv zeta.
  destruct (String.eqb_spec (lower mode) "nbody") as [->|M1]; [|destruct (String.eqb_spec (lower mode) "n") as [->|M2];
    [|destruct (String.eqb_spec (lower mode) "2body") as [->|M3]; [|destruct (String.eqb_spec (lower mode) "2") as [->|M4]; [|discriminate]]]];
  cbn [Datatypes.orb bind]; (split; [cbn; tauto|]); revert H; unfold convert_times, time_scales; (destruct times as [|t ts]; [discriminate|]);
  (destruct (String.eqb_spec scale "UTC") as [->|S1]; [|destruct (String.eqb_spec scale "UT1") as [->|S2]; [|destruct (String.eqb_spec scale "TT") as [->|S3];
    [|destruct (String.eqb_spec scale "TAI") as [->|S4]; [|discriminate]]]]); cbn [bind];
  (destruct (String.eqb_spec (lower type) "basic") as [->|T1]; [|destruct (String.eqb_spec (lower type) "full") as [->|T2]; [|discriminate]]);
  intros _; (split; [cbn; tauto|]); (split; [cbn; tauto|discriminate]).
Qed.
Print Assumptions C222_checks.
(** the number of a time scale, the letter of a dynamical model, as pyoorb expects them *)
Definition scale_code (s : string) (k : R) : Prop := (s = "UTC" /\ k = 1 \/ s = "UT1" /\ k = 2 \/ s = "TT" /\ k = 3 \/ s = "TAI" /\ k = 4)%string.
Definition model_letter (mode m : string) : Prop :=
  ((lower mode = "nbody" \/ lower mode = "n") /\ m = "N" \/ (lower mode = "2body" \/ lower mode = "2") /\ m = "2")%string.
Lemma times_ok : forall times scale k, times <> [] -> scale_code scale k -> convert_times times scale = Ok (map (fun t => (t, k)) times).
Proof.
  intros times scale k N S. unfold convert_times. destruct times as [|t ts]; [congruence|]. destruct S as [[-> ->]|[[-> ->]|[[-> ->]|[-> ->]]]]; reflexivity.
Qed.
Lemma model_ok : forall mode m, model_letter mode m -> dynamics mode = Ok m.
Proof. intros mode m [[[E|E] ->]|[[E|E] ->]]; unfold dynamics; rewrite E; reflexivity. Qed.
(** Statement: pyoorb is asked for exactly the given times, in the given scale, with the given model; its answer is returned as C222_values
    says.  An error of pyoorb raises RuntimeError (full ephemerides). *)
Theorem C222_request : forall ob of_ times scale k by_object mode m type, times <> [] -> scale_code scale k -> model_letter mode m ->
  let asked := map (fun t => (t, k)) times in
  (lower type = "basic"%string -> generate_ephemerides ob of_ times scale by_object mode type = convert_ephs basic_layout by_object (fst (ob asked m))) /\
  (lower type = "full"%string -> snd (of_ asked m) = 0%Z ->
     generate_ephemerides ob of_ times scale by_object mode type = convert_ephs full_names by_object (fst (of_ asked m))) /\
  (lower type = "full"%string -> snd (of_ asked m) <> 0%Z -> generate_ephemerides ob of_ times scale by_object mode type = Err RuntimeError).
Proof.
  intros ob of_ times scale k by_object mode m type N S M asked. unfold generate_ephemerides. rewrite (model_ok mode m M), (times_ok times scale k N S).
  cbn [bind]. fold asked. split; [|split].
  - intros ->. reflexivity.
  - intros -> E. cbn [String.eqb Ascii.eqb Bool.eqb]. rewrite E. reflexivity.
  - intros -> E. cbn [String.eqb Ascii.eqb Bool.eqb]. apply Z.eqb_neq in E. rewrite E. reflexivity.
Qed.
Print Assumptions C222_request.
(** the same for propagation: an error raises, otherwise pyoorb's elements replace the old ones *)
Theorem C222_propagation : forall op elem epoch mode m, model_letter mode m ->
  propagate_orbits op elem epoch mode = if Z.eq_dec (snd (op elem [(epoch, 3)] m)) 0 then Ok (fst (op elem [(epoch, 3)] m)) else Err RuntimeError.
Proof.
  intros op elem epoch mode m M. unfold propagate_orbits. rewrite (times_ok [epoch] "TT" 3) by (try discriminate; unfold scale_code; tauto).
  rewrite (model_ok mode m M). cbn [bind map]. destruct (Z.eq_dec _ 0) as [E|E]; [rewrite E; reflexivity|]. apply Z.eqb_neq in E. rewrite E. reflexivity.
Qed.
Print Assumptions C222_propagation.
(** Statement: an error of pyoorb is reported.  Not for basic ephemerides: the array is returned as it is *)
Definition failing : list (R * R) -> string -> array3 * Z := fun _ _ => ({| a_shape := (1, 1, 11)%nat; a_at := fun _ _ _ => 0 |}, 35%Z).
Theorem C222_err_refuted : ~ (forall ob of_ times scale k by_object mode m type, times <> [] -> scale_code scale k -> model_letter mode m ->
  (lower type = "basic"%string /\ snd (ob (map (fun t => (t, k)) times) m) <> 0%Z) -> exists e, generate_ephemerides ob of_ times scale by_object mode type = Err e).
Proof.
  intros C. destruct (C failing failing [59000] "UTC"%string 1 true "nbody"%string "N"%string "basic"%string) as [e E].
  - discriminate.
  - unfold scale_code; tauto.
  - left. split; [left; reflexivity|reflexivity].
  - split; [reflexivity|discriminate].
  - vm_compute in E. discriminate.
Qed.
Print Assumptions C222_err_refuted.
(** Statement: (documentation) grouped by object, the first axis of a column has one entry for every time.  It has one for every object *)
Theorem C222_axis_refuted : ~ (forall names objs times vals at_ cols c, convert_ephs names true {| a_shape := (objs, times, vals); a_at := at_ |} = Ok cols -> In c cols ->
  fst (c_shape c) = times).
Proof.
  intros C. assert (H : (2 = 3)%nat); [|discriminate].
  destruct (C222_values basic_layout true 2 3 11 (fun _ _ _ => 0)) as [cols [E [N [S _]]]]; [cbn; lia|unfold basic_layout; repeat constructor; cbn; intuition discriminate|].
  destruct cols as [|c cols]; [discriminate|]. rewrite <- (C _ _ _ _ _ _ c E (or_introl eq_refl)). rewrite (S c (or_introl eq_refl)). reflexivity.
Qed.
Print Assumptions C222_axis_refuted.
Example C222_case : (5 <= length basic_layout <= 11)%nat /\ NoDup basic_layout /\ scale_code "TAI" 4 /\ model_letter "2Body" "2" /\
  exists cols, generate_ephemerides failing failing [59000; 59001] "TAI" true "2Body" "Basic" = Ok cols.
Proof.
  split; [cbn; lia|]. split; [unfold basic_layout; repeat constructor; cbn; intuition discriminate|]. split; [unfold scale_code; tauto|].
  split; [right; split; [left; reflexivity|reflexivity]|]. eexists. reflexivity.
Qed.
