(** What is claimed about the metric of the transients given by a spectrum, without the model's helpers: the records of visits and
    parameters only. *)
From Coq Require Import Reals.
From Verif Require Import Base Ascii_Model Plane_Spec.
From Coq Require Import Sorted.
Open Scope Z_scope.

(** the transients last from [start + g L] to [start + (g + 1) L] *)
Definition Long (c : conf) (L : Z) : Prop := L = Z.of_nat (phases c) * unit c /\ 0 < unit c /\ (0 < phases c)%nat.
Definition Of (L start g : Z) (v : avisit) : Prop := start + g * L <= at_ v < start + (g + 1) * L.
(** the time since the start of the transient when the i-th shift is applied *)
Definition Epoch (c : conf) (L start : Z) (i : nat) (v : avisit) (e : Z) : Prop :=
  0 <= e < L /\ exists k, at_ v - start + Z.of_nat i * unit c = e + k * L.
(** the visit detects the transient: its signal to noise ratio reaches the threshold of the band *)
Definition Seen (c : conf) (L start : Z) (i : nat) (v : avisit) : Prop :=
  exists e s, Epoch c L start i v e /\ detect_snr c (aband v) = Some s /\
    (s <= 5 * Rpower 10 (2/5 * (am5 v - mags c e (aband v))))%R.
(** the visit is of the g-th transient and detects it *)
Definition Detects (c : conf) (L start g : Z) (i : nat) (v : avisit) : Prop := Of L start g v /\ Seen c L start i v.
(** enough detections before pre_time *)
Definition EarlyEnough (c : conf) (L start g : Z) (i : nat) (vs : list avisit) : Prop :=
  exists n, CountP (fun v => Detects c L start g i v /\ exists e, Epoch c L start i v e /\ e < pre_time c) vs n /\ num_pre c <= Z.of_nat n.
(** a detection in each of the sections of the light curve *)
Definition AllSections (c : conf) (L start g : Z) (i : nat) (vs : list avisit) : Prop :=
  forall k, 0 <= k < num_per c -> exists v e, In v vs /\ Detects c L start g i v /\ Epoch c L start i v e /\ k * L <= e * num_per c < (k + 1) * L.
(** detections in [n] bands *)
Definition Bands (P : avisit -> Prop) (vs : list avisit) (n : Z) : Prop :=
  exists bands, NoDup bands /\ Z.of_nat (length bands) = n /\ forall b, In b bands -> exists v, In v vs /\ P v /\ aband v = b.
(** the documented criteria without the limit of time on the bands *)
Definition Counts (c : conf) (L start : Z) (vs : list avisit) (i : nat) (g : Z) : Prop :=
  (exists v, In v vs /\ Of L start g v) /\ EarlyEnough c L start g i vs /\ AllSections c L start g i vs /\
  (num_per c <> 0 -> 0 < num_filters_arg c -> Bands (Detects c L start g i) vs (num_filters_arg c)).
(** ... and with it: the bands are had within [ft] of one another *)
Definition Within (c : conf) (L start : Z) (vs : list avisit) (i : nat) (g ft : Z) : Prop :=
  exists e0, Bands (fun v => Detects c L start g i v /\ exists e, Epoch c L start i v e /\ e0 <= e <= e0 + ft) vs (num_filters_arg c).
(** what searchsorted promises: for a sequence in order, the number of elements that are not above the key *)
Definition Search (search : list Z -> list Z -> list nat) : Prop :=
  forall a keys, StronglySorted Z.le a -> Forall2 (fun k n => CountP (fun y => y <= k) a n) keys (search a keys).
(** the pairs with a property are as many as the number says *)
Definition HowMany {A} (P : A -> Prop) (n : Z) : Prop := exists l, NoDup l /\ (forall x, In x l <-> P x) /\ Z.of_nat (length l) = n.
(** ... by detections that are followed by another one of the transient *)
Definition WithinLater (c : conf) (L start : Z) (vs : list avisit) (i : nat) (g ft : Z) : Prop :=
  exists e0, Bands (fun v => Detects c L start g i v /\ (exists e, Epoch c L start i v e /\ e0 <= e <= e0 + ft) /\
    exists v', In v' vs /\ Detects c L start g i v' /\ at_ v < at_ v') vs (num_filters_arg c).
(** the survey starts when the metric says, or with the first visit *)
Definition Starts (s : state) (visits : list avisit) (start : Z) : Prop :=
  survey_start s = Some start \/
  (survey_start s = None /\ (exists v, In v visits /\ at_ v = start) /\ forall v, In v visits -> start <= at_ v).
(** the band of each visit has a threshold *)
Definition Covered (c : conf) (visits : list avisit) : Prop := forall v, In v visits -> detect_snr c (aband v) <> None.
(** two evaluations of a slice that give the same number, or the same exception *)
Definition SameValue (r r' : result (list avisit * loop)) : Prop :=
  match r, r' with Ok (_, a), Ok (_, b) => num a = num b | Err e, Err e' => e = e' | _, _ => False end.
(** deeper visits, a brighter spectrum and lower thresholds *)
Definition Deeper (v v' : avisit) : Prop := at_ v' = at_ v /\ aband v' = aband v /\ (am5 v <= am5 v')%R.
Definition Kinder (c c' : conf) : Prop :=
  unit c' = unit c /\ phases c' = phases c /\ (forall e b, (mags c' e b <= mags c e b)%R) /\
  (forall b s, detect_snr c b = Some s -> exists s', detect_snr c' b = Some s' /\ (s' <= s)%R) /\
  num_pre c' = num_pre c /\ pre_time c' = pre_time c /\ num_filters_arg c' = num_filters_arg c /\ filter_time c' = filter_time c /\ num_per c' = num_per c.
