(** What the properties of LsqrSolver say, without the helpers of the model. *)
From Coq Require Import Reals Permutation Sorted Lia.
From Verif Require Import Base SelfSolve_Model.
Open Scope Z_scope.

(** sort(order=...) arranges the same rows in order of a column *)
Definition sorts (sort : (obs -> Z) -> list obs -> list obs) : Prop :=
  forall key l, Permutation (sort key l) l /\ StronglySorted (fun a b => key a <= key b) (sort key l).
(** part [m] of the rows [l] *)
Definition part_of (m l : list obs) : Prop := exists rest, Permutation l (m ++ rest).
(** every star has another observation, and so has every patch *)
Definition seen_twice (l : list obs) : Prop :=
  forall before o after, l = before ++ o :: after ->
    (exists p, In p (before ++ after) /\ o_id p = o_id o) /\ (exists p, In p (before ++ after) /\ o_patch p = o_patch o).
(** the largest part of the observations in which every star and every patch has two observations *)
Definition core (l r : list obs) : Prop := part_of r l /\ seen_twice r /\ forall m, part_of m l -> seen_twice m -> part_of m r.
(** numbers that are less than 2^32 apart *)
Definition near (key : obs -> Z) (l : list obs) : Prop := forall o p, In o l -> In p l -> Z.abs (key o - key p) < 2 ^ 32.

Open Scope R_scope.
Definition rsum (l : list R) : R := fold_right Rplus 0 l.
(** the sum of the squared residuals in units of the uncertainties *)
Definition chi2 (zp mag : Z -> R) (l : list obs) : R :=
  rsum (map (fun o => ((o_mag o - (zp (o_patch o) + mag (o_id o))) / o_unc o) ^ 2) l).
(** a table gives the values of a function *)
Definition tabulates (t : list (Z * R)) (f : Z -> R) : Prop := forall k v, In (k, v) t -> f k = v.

(** row i of a matrix times a vector *)
Definition row_times (a : matrix) (x : list R) (i : nat) : R :=
  rsum (map (fun q => if Nat.eqb (fst (fst q)) i then snd q * nth (Z.to_nat (snd (fst q))) x 0 else 0) (m_entries a)).
(** the squared norm of A x - b *)
Definition misfit (a : matrix) (b x : list R) : R := rsum (map (fun i => (row_times a x i - nth i b 0) ^ 2) (seq 0 (m_rows a))).
(** x solves A x = b in the sense of least squares *)
Definition least_squares (a : matrix) (b x : list R) : Prop :=
  length x = m_cols a /\ forall y, length y = m_cols a -> misfit a b x <= misfit a b y.
(** and has the least norm of all those *)
Definition norm2 (x : list R) : R := rsum (map (fun v => v ^ 2) x).
Definition least_norm (a : matrix) (b x : list R) : Prop :=
  least_squares a b x /\ forall y, least_squares a b y -> norm2 x <= norm2 y.

(** observations that are linked by a chain in which neighbours share a star or a patch *)
Inductive linked (l : list obs) : obs -> obs -> Prop :=
| linked_self : forall o, In o l -> linked l o o
| linked_step : forall o p q, linked l o p -> In q l -> (o_id p = o_id q \/ o_patch p = o_patch q) -> linked l o q.

(** insertion sort: a sort to show examples with *)
Fixpoint insert_by (key : obs -> Z) (o : obs) (l : list obs) : list obs :=
  match l with [] => [o] | p :: t => if (key o <=? key p)%Z then o :: l else p :: insert_by key o t end.
Definition sort_by (key : obs -> Z) (l : list obs) : list obs := fold_right (insert_by key) [] l.
