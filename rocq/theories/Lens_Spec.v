(** What a user of the dust-corrected depth metrics expects, stated without the model. *)
From Coq Require Import String Reals List.
Import ListNotations.
Open Scope R_scope.

(** at least [n] different entries *)
Definition AtLeast {A} (n : nat) (l : list A) : Prop := exists s, NoDup s /\ incl s l /\ (n <= length s)%nat.

(** [d] is the depth of images of depths [ms] co-added and seen through [ext] magnitudes of dust:
    [10^(0.8 (d + ext)) = sum of 10^(0.8 m)] *)
Definition DustDepth (ext : R) (ms : list R) (d : R) : Prop :=
  ms <> [] /\ Rpower 10 (0.8 * (d + ext)) = fold_right Rplus 0 (map (fun m => Rpower 10 (0.8 * m)) ms).

(** ** Signal and noise of a patch of sky *)
(** electrons of a source of surface brightness [mu] over [area] square arcseconds in [t] seconds: zero point [zp], extinction
    [ext] magnitudes *)
Definition signal (zp ext t area mu : R) : R := t * area * Rpower 10 (- 0.4 * (mu + ext - zp)).
(** electrons of the sky, whose brightness is measured from the ground *)
Definition sky_counts (zp t area mu_sky : R) : R := t * area * Rpower 10 (- 0.4 * (mu_sky - zp)).
(** variance of the read noise of all pixels *)
Definition read_var (rn pixscale area : R) : R := rn ^ 2 * (area / pixscale ^ 2).
(** signal to noise ratio: Poisson noise of the source and of the sky, and read noise *)
Definition snr (zp ext t area mu_sky rn pixscale mu : R) : R :=
  let s := signal zp ext t area mu in s / sqrt (s + sky_counts zp t area mu_sky + read_var rn pixscale area).

(** [lim] is the brightest of three limits, each reaching [nsigma] when only one kind of noise counts: that of the source, of
    the sky, of the readout. *)
Definition SurfaceLimit (zp ext t area mu_sky rn pixscale nsigma lim : R) : Prop :=
  exists a b c, signal zp ext t area a / sqrt (signal zp ext t area a) = nsigma
  /\ signal zp ext t area b / sqrt (sky_counts zp t area mu_sky) = nsigma
  /\ signal zp ext t area c / sqrt (read_var rn pixscale area) = nsigma
  /\ lim <= a /\ lim <= b /\ lim <= c /\ (lim = a \/ lim = b \/ lim = c).
