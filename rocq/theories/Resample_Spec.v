(** Vocabulary for the statements about resampling, independent of the model. *)
From Coq Require Import Reals List Lia Lra Sorted.
Import ListNotations.
Open Scope R_scope.

(** an ascending list of wavelengths *)
Definition ascending (l : list R) : Prop := forall i j, (i < j < length l)%nat -> nth i l 0 < nth j l 0.
Definition addup (l : list R) : R := fold_right Rplus 0 l.

(** the bin of a wavelength reaches half-way to its neighbours, and as far beyond the first and the last as towards the
    neighbour *)
Definition bin_lo (w : list R) (i : nat) : R :=
  match i with O => nth 0 w 0 - (nth 1 w 0 - nth 0 w 0) / 2 | S k => (nth k w 0 + nth i w 0) / 2 end.
Definition bin_hi (w : list R) (i : nat) : R :=
  if Nat.eqb (S i) (length w) then nth i w 0 + (nth i w 0 - nth (i - 1) w 0) / 2 else (nth i w 0 + nth (S i) w 0) / 2.
(** the length of what two intervals have in common *)
Definition common (a b c d : R) : R := Rmax 0 (Rmin b d - Rmax a c).
(** the light of a spectrum between two wavelengths, every bin having the flux of its wavelength *)
Definition light (w f : list R) (lo hi : R) : R :=
  addup (map (fun i => common (bin_lo w i) (bin_hi w i) lo hi * nth i f 0) (seq 0 (length w))).
(** the bin lies within the bins of the spectrum *)
Definition covered (w : list R) (lo hi : R) : Prop := bin_lo w 0 <= lo /\ hi <= bin_hi w (length w - 1).
