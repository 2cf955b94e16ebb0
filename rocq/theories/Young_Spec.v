(** What is claimed about the metric of young stars, without the model's helpers. *)
From Coq Require Import String Reals List.
Import ListNotations.
Open Scope R_scope.
(** the depth of the coadded visits: the sum of the inverse variances *)
Definition Coadded (l : list R) (d : R) : Prop := l <> [] /\ Rpower 10 (4/5 * d) = fold_right (fun m s => Rpower 10 (4/5 * m) + s) 0 l.
(** the magnitude of a star of absolute magnitude [mag] at [pc] parsec behind extinction [a] *)
Definition Seen (mag a pc m : R) : Prop := m = mag + 5 * (ln (pc / 10) / ln 10) + a.
(** the magnitude at which a star has a signal to noise of [snr] in data of depth [d] (5 at the depth) *)
Definition AtSnr (snr d m : R) : Prop := m = d - 5/2 * (ln (snr / 5) / ln 10).

(** the number of stars per cubic kpc of an exponential disk with 80 million stars, a scale height of 0.3 kpc and a scale length of
    2.6 kpc, at a position relative to the center of the Galaxy in kpc, [z] being above the plane *)
Definition disk (x y z : R) : R :=
  80000000 / (4 * PI * (300/1000) * (2600/1000) ^ 2) * exp (- (sqrt (x ^ 2 + y ^ 2) / (2600/1000))) * exp (- (Rabs z / (300/1000))).
(** the position of a star at distance [r] in the direction [l], [b]: the Sun is at 8.178 kpc from the center, seen at [l] = [b] = 0 *)
Definition Position (l b r x y z : R) : Prop :=
  x = 8178/1000 - r * cos b * cos l /\ y = r * cos b * sin l /\ z = r * sin b.
