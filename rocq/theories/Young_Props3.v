(** C407: the density of young stars is that of the disk at the place of the star. *)
From Coq Require Import String.
From Verif Require Import Base Young_Model Young_Spec.
From Coq Require Import Reals Lra List.
Open Scope R_scope.

Lemma disk_is l b r : 0 <= r -> star_density l b r = r ^ 2 * disk (8178/1000 - r * cos l) (r * sin l) (r * sin b).
Proof.
  intros P. unfold star_density, disk. rewrite Rabs_mult, (Rabs_right r) by lra.
  replace ((8178 / 1000 - r * cos l) * (8178 / 1000 - r * cos l) + r * sin l * (r * sin l)) with ((8178 / 1000 - r * cos l) ^ 2 + (r * sin l) ^ 2) by ring.
  set (q := sqrt _). set (z := Rabs (sin b)).
  replace (-1 * r * z / (3/10) - q / (26/10)) with (- (q / (2600/1000)) + - (r * z / (300/1000))) by field. rewrite exp_plus. field. apply PI_neq0.
Qed.
(** Full statement: [forall l b r x y z, 0 <= r -> Position l b r x y z -> star_density l b r = r ^ 2 * disk x y z].
    It fails off the plane, see below. *)
Theorem C407_plane_partial : forall l r x y z, 0 <= r -> Position l 0 r x y z -> star_density l 0 r = r ^ 2 * disk x y z.
Proof. intros l r x y z P (-> & -> & ->). rewrite cos_0, !Rmult_1_r. apply disk_is, P. Qed.
Print Assumptions C407_plane_partial.
(** off the plane the height is right, but the distance from the axis of the Galaxy is that of a star at distance [r] in the plane *)
Theorem C407_off_plane_partial : forall l b r x y z x' y' z', 0 <= r -> Position l b r x y z -> Position l 0 r x' y' z' ->
  star_density l b r = r ^ 2 * disk x' y' z.
Proof. intros l b r x y z x' y' z' P (_ & _ & ->) (-> & -> & _). rewrite cos_0, !Rmult_1_r. apply disk_is, P. Qed.
Print Assumptions C407_off_plane_partial.
(** above the Sun stars are counted as if they were nearer to the center *)
Theorem C407_refuted : exists l b r x y z, 0 <= r /\ Position l b r x y z /\ r ^ 2 * disk x y z < star_density l b r.
Proof.
  exists 0, (PI / 2), 1, (8178/1000), 0, 1. split; [lra|]. split; [unfold Position; rewrite cos_PI2, sin_PI2, sin_0; repeat split; ring|].
  rewrite disk_is by lra. rewrite cos_0, sin_0, sin_PI2. unfold disk. rewrite !Rmult_1_r, !pow1, !Rmult_1_l.
  apply Rmult_lt_compat_r; [apply exp_pos|]. apply Rmult_lt_compat_l.
  { pose proof PI_RGT_0. apply Rmult_lt_0_compat; [lra|]. apply Rinv_0_lt_compat. lra. }
  apply exp_increasing. replace ((8178/1000) ^ 2 + 0 ^ 2) with ((8178/1000) * (8178/1000)) by ring.
  replace ((8178/1000 - 1) ^ 2 + 0 ^ 2) with ((7178/1000) * (7178/1000)) by field.
  rewrite !sqrt_square by lra. lra.
Qed.
Print Assumptions C407_refuted.
Example C407_case : Position 0 0 2 (6178/1000) 0 0.
Proof. unfold Position. rewrite cos_0, sin_0. repeat split; field. Qed.
