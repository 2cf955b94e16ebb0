(** What is claimed about the microlensing metric, without the model's helpers; [amplification] and [info_peak] are functions of the package that
    users call and that C361 and C363 are about. *)
From Coq Require Import String Reals List.
From Verif Require Import Plane_Spec Micro_Model.
Import ListNotations.
Open Scope R_scope.

(** an entry of a dictionary: the first with this key *)
Inductive Entry : list (string * R) -> string -> R -> Prop :=
| E_here : forall k x d, Entry ((k, x) :: d) k x
| E_later : forall k k' x y d, k' <> k -> Entry d k x -> Entry ((k', y) :: d) k x.
Definition NoEntry (d : list (string * R)) (k : string) : Prop := forall x, ~ In (k, x) d.
(** the magnitude of an event [t] days after the first visit, in a band: from the mean magnitude of the stars, or from the magnitudes of the event *)
Inductive Shows (mags sp : list (string * R)) (t : R) (band : string) : R -> Prop :=
| S_mean : forall m u0 te t0, NoEntry sp "apparent_m_no_blend_u" -> NoEntry sp "blending_factor" -> Entry mags band m ->
    Entry sp "impact_parameter" u0 -> Entry sp "crossing_time" te -> Entry sp "peak_time" t0 ->
    Shows mags sp t band (m - 5 / 2 * (ln (amplification u0 te t0 1 t) / ln 10))
| S_blend : forall m u0 te t0 b, NoEntry sp "apparent_m_no_blend_u" -> Entry sp "blending_factor" b -> Entry mags band m ->
    Entry sp "impact_parameter" u0 -> Entry sp "crossing_time" te -> Entry sp "peak_time" t0 ->
    Shows mags sp t band (m - 5 / 2 * (ln (amplification u0 te t0 b t) / ln 10))
| S_own : forall mu m n u0 te t0, Entry sp "apparent_m_no_blend_u" mu -> Entry sp ("apparent_m_no_blend_" ++ band) m -> Entry sp ("apparent_m_" ++ band) n ->
    Entry sp "impact_parameter" u0 -> Entry sp "crossing_time" te -> Entry sp "peak_time" t0 ->
    Shows mags sp t band
      (n - 5 / 2 * (ln (- (5 / 2) * (ln (amplification u0 te t0 1 t * Rpower 10 (- (2 / 5) * m) + (Rpower 10 (- (2 / 5) * n) - Rpower 10 (- (2 / 5) * m))) / ln 10)) / ln 10)).
(** the first visit *)
Definition First (l : list lens_visit) (x : R) : Prop := (exists v, In v l /\ v_mjd v = x) /\ forall v, In v l -> x <= v_mjd v.
(** signal to noise ratio and error of a magnitude *)
Definition Ratio (m m5 : R) : R := 5 * Rpower 10 (2 / 5 * (m5 - m)).
Definition Error (m m5 : R) : R := 5 / 2 * (ln (1 + 1 / Ratio m m5) / ln 10).
(** two visits in the same band whose magnitudes differ by more than [sigma] errors *)
Definition Differ (sigma : R) (M : lens_visit -> R) (v w : lens_visit) : Prop :=
  v_band v = v_band w /\ sigma < Rabs (M v - M w) / sqrt (Error (M v) (v_m5 v) ^ 2 + Error (M w) (v_m5 w) ^ 2).
(** the number of pairs with a symmetric property, each counted once *)
Inductive Pairs {A} (P : A -> A -> Prop) : list A -> nat -> Prop :=
| P_nil : Pairs P [] 0
| P_cons : forall x l n m, CountP (P x) l n -> Pairs P l m -> Pairs P (x :: l) (n + m).
(** what the two texts and numbers of time_before_peak stand for *)
Definition Lead (u0 te : R) (b : before) (d : R) : Prop := match b with Days x => d = x | Optimal => d = info_peak u0 te end.
(** the pairs of visits that count, before [d] days before the peak and after the peak *)
Definition Early (sigma : R) (M : lens_visit -> R) (first t0 d : R) (v w : lens_visit) : Prop :=
  v_mjd v - first < t0 - d /\ v_mjd w - first < t0 - d /\ Differ sigma M v w.
Definition Late (sigma : R) (M : lens_visit -> R) (first t0 : R) (v w : lens_visit) : Prop :=
  t0 < v_mjd v - first /\ t0 < v_mjd w - first /\ Differ sigma M v w.
(** the magnitudes are known *)
Definition Lit (mags sp : list (string * R)) (l : list lens_visit) (first : R) (M : lens_visit -> R) : Prop :=
  First l first /\ forall v, In v l -> Shows mags sp (v_mjd v - first) (v_band v) (M v).
Definition Parameters (sp : list (string * R)) (u0 te t0 : R) : Prop :=
  Entry sp "impact_parameter" u0 /\ Entry sp "crossing_time" te /\ Entry sp "peak_time" t0.
Definition Allowed (detect : bool) (b : before) : Prop := detect = true -> exists x, b = Days x /\ x <= 0.
(** near the peak and bright enough *)
Definition Near (sigma : R) (M : lens_visit -> R) (first t0 te : R) (v : lens_visit) : Prop :=
  Rabs (v_mjd v - first - t0) < te /\ v_mjd v - first <> t0 /\ sigma < Ratio (M v) (v_m5 v).
