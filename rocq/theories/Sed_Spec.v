(** Vocabulary for the statements about the objects of phot_utils, independent of the model. *)
From Verif Require Import Resample_Spec Phot_Spec.
From Coq Require Import Reals List Lia Lra.
Import ListNotations.
Open Scope R_scope.

(** flux per frequency (Jansky) of flux per wavelength (erg/cm2/s/nm) at a wavelength in nm: fl * lambda^2 / c *)
Definition per_hz (lam fl : R) : R := fl * (lam * lam) * 10 ^ 14 / 299792458.
(** the values [fn] are those of [fl] per frequency; NaN stays NaN *)
Definition same_light (w : list R) (fl fn : list (option R)) : Prop :=
  length fl = length w /\ length fn = length w /\
  forall i, (i < length w)%nat -> nth i fn None = match nth i fl None with Some x => Some (per_hz (nth i w 0) x) | None => None end.
Definition all_positive (w : list R) : Prop := forall x, In x w -> 0 < x.
(** the response of a bandpass: the throughput per wavelength, with integral 1 *)
Definition response (w sb phi : list R) : Prop :=
  length phi = length w /\
  forall i, (i < length w)%nat -> nth i phi 0 = nth i sb 0 / nth i w 0 / integral w (fun k => nth k sb 0 / nth k w 0).
(** the value at [x] of the line through the points of a spectrum *)
Definition on_line (w f : list R) (x v : R) : Prop :=
  exists i, (S i < length w)%nat /\ nth i w 0 <= x <= nth (S i) w 0 /\
    v * (nth (S i) w 0 - nth i w 0) = nth i f 0 * (nth (S i) w 0 - x) + nth (S i) f 0 * (x - nth i w 0).
Definition log10 (x : R) : R := ln x / ln 10.
