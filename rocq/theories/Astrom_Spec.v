(** Vocabulary for the statements about astrometric metrics. *)
From Verif Require Import Base.
From Coq Require Import Reals.
Open Scope R_scope.

Definition total (l : list R) : R := fold_right Rplus 0 l.
(** a linear estimate sum (a_i y_i) of the slope of a line that is right for every line: sum a_i = 0 and sum a_i x_i = 1;
    a triple is the coefficient, the position and the uncertainty of a measurement *)
Definition unbiased (l : list (R * (R * R))) : Prop :=
  total (map fst l) = 0 /\ total (map (fun t => fst t * fst (snd t)) l) = 1.
(** the variance of such an estimate for independent measurements *)
Definition variance (l : list (R * (R * R))) : R := total (map (fun t => (fst t * snd (snd t)) * (fst t * snd (snd t))) l).
(** measurements with a real uncertainty *)
Definition uncertain (ps : list (R * R)) : Prop := forall p, In p ps -> 0 < snd p.
(** unit vector of a point on the sphere *)
Definition vec (ra dec : R) : R * R * R := (cos dec * cos ra, cos dec * sin ra, sin dec).
Definition dot (a b : R * R * R) : R := let '(x, y, z) := a in let '(x', y', z') := b in x * x' + y * y' + z * z'.
