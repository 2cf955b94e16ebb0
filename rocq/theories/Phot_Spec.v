(** Vocabulary for the statements about photometry, independent of the model. *)
From Verif Require Import Resample_Spec.
From Coq Require Import Reals List Lia Lra.
Import ListNotations.
Open Scope R_scope.

(** a spectrum: fluxes at ascending wavelengths *)
Definition spectrum (w f : list R) : Prop := ascending w /\ (2 <= length w)%nat /\ length f = length w.
(** a spectrum at the wavelengths [w] gives values at all the wavelengths [g]: its bins cover those of [g], and it is either
    already at these wavelengths or differs from them by more than 1e-10 somewhere *)
Definition serves (g w : list R) : Prop :=
  covered w (bin_lo g 0) (bin_hi g (length g - 1)) /\
  (w = g \/ length w <> length g \/ exists i, (i < length g)%nat /\ 1 / 10000000000 < Rabs (nth i g 0 - nth i w 0)).
(** the value of a spectrum in the bin of the [j]-th wavelength of [g] *)
Definition mean_at (g w f : list R) (j : nat) : R := light w f (bin_lo g j) (bin_hi g j) / (bin_hi g j - bin_lo g j).
(** the integral of values at wavelengths, by trapezoids *)
Definition integral (x : list R) (y : nat -> R) : R :=
  addup (map (fun i => (nth (S i) x 0 - nth i x 0) * ((y i + y (S i)) / 2)) (seq 0 (length x - 1))).
(** the mean of the flux per frequency, weighted by the throughput per wavelength: equation 5 of LSE-180 *)
Definition band_mean (g sb : list R) (f : nat -> R) : R :=
  integral g (fun i => f i * (nth i sb 0 / nth i g 0)) / integral g (fun i => nth i sb 0 / nth i g 0).
(** a throughput curve: positive wavelengths, throughputs that are not negative and not all zero *)
Definition throughput (g sb : list R) : Prop :=
  ascending g /\ (2 <= length g)%nat /\ length sb = length g /\ 0 < nth 0 g 0 /\ (forall x, In x sb -> 0 <= x) /\ (exists x, In x sb /\ 0 < x).
Definition five_halves_log10 (x : R) : R := 5/2 * (ln x / ln 10).
