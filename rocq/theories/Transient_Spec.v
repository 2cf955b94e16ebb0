(** Notions used to state the properties of the transient metric. *)
From Verif Require Import Base Technical_Model Transient_Model.
Open Scope Z_scope.

(** sensible parameters *)
Definition sane (p : params) : Prop :=
  0 < unit p /\ (1 <= n_phase p)%nat /\ 1 <= n_per_lc p /\ 1 <= n_filters p /\ 0 <= n_pre_peak p /\ survey_start p = None.
(** the visits of the g-th light curve *)
Definition in_lc (p : params) (start g : Z) (v : visit) : Prop := start + g * duration p <= vt v < start + (g + 1) * duration p.
(** the visit sees the transient: its magnitude at that phase is below the limit *)
Definition sees (p : params) (start : Z) (i : nat) (v : visit) : Prop :=
  light_curve p (phase_time p start i v) (vband v) < vm5 v + m5_plus p.
(** the documented criteria for the light curve to be detected *)
Definition enough_before_peak (p : params) (start : Z) (visits : list visit) (i : nat) (g : Z) : Prop :=
  exists places, NoDup places /\ Z.of_nat (length places) = n_pre_peak p /\
  forall k, In k places -> exists v, nth_error visits k = Some v /\ in_lc p start g v /\ sees p start i v /\ phase_time p start i v < peak_time p.
Definition all_sections (p : params) (start : Z) (visits : list visit) (i : nat) (g : Z) (f : string) : Prop :=
  forall s, 0 <= s < n_per_lc p -> exists v, In v visits /\ in_lc p start g v /\ sees p start i v /\ vband v = f /\
    s * duration p <= phase_time p start i v * n_per_lc p < (s + 1) * duration p.
Definition criteria (p : params) (start : Z) (visits : list visit) (i : nat) (g : Z) : Prop :=
  (exists v, In v visits /\ in_lc p start g v /\ sees p start i v) /\
  enough_before_peak p start visits i g /\
  (n_per_lc p = 1 /\ n_filters p = 1 \/
   exists bands, NoDup bands /\ Z.of_nat (length bands) = n_filters p /\ forall f, In f bands -> all_sections p start visits i g f).
(** the same visits with deeper limits *)
Definition deeper (vs vs' : list visit) : Prop := Forall2 (fun v v' => vt v = vt v' /\ vband v = vband v' /\ vm5 v <= vm5 v') vs vs'.
