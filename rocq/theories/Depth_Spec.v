(** Vocabulary for the statements about depth. *)
From Verif Require Import Base.
From Coq Require Import Reals.
Open Scope R_scope.

(** the depth whose noise is that of inverse-variance weighted images: the only number [c] with
    10^(0.8 c) = sum of 10^(0.8 m) *)
Definition same_flux (c : R) (ms : list R) : Prop :=
  Rpower 10 (4/5 * c) = fold_right Rplus 0 (map (fun m => Rpower 10 (4/5 * m)) ms).
