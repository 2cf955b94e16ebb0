(** Vocabulary for the properties of Chebyshev series and fits. *)
From Verif Require Import Base Astrom_Model Cheby_Model.
From Coq Require Import Reals.
Open Scope R_scope.

(** p_0 cos(k theta) + p_1 cos((k+1) theta) + ..., the Chebyshev series at cos(theta) by its definition, from k = 0 *)
Fixpoint cos_series (k : nat) (p : list R) (theta : R) : R :=
  match p with [] => 0 | c :: rest => c * cos (INR k * theta) + cos_series (S k) rest theta end.
(** the value of the fitted polynomial at the time [u], over the times from [t0] to [t1] *)
Definition value_at (t0 t1 : R) (p : list R) (u : R) : R :=
  match chebeval u p [t0; t1] false false with Ok (Some y, _) => y | _ => 0 end.
(** its slope *)
Definition slope_at (t0 t1 : R) (p : list R) (u : R) : R :=
  match chebeval u p [t0; t1] true false with Ok (_, Some (Some v)) => v | _ => 0 end.
(** [n] regular times from [t0] in steps of [h] *)
Definition regular (t0 h : R) (n : nat) : list R := map (fun i => t0 + INR i * h) (seq 0 n).
(** a function that inverts matrices: whatever it returns is a right inverse *)
Definition inverts (inv : inverter) : Prop :=
  forall n a m, inv n a = Ok m -> forall r c, (r < n)%nat -> (c < n)%nat -> sumn n (fun k => a r k * m k c) = one_if (Nat.eqb r c).
(** the system of a matrix has at most one solution *)
Definition regular_matrix (n : nat) (a : mat) : Prop :=
  forall z : nat -> R, (forall r, (r < n)%nat -> sumn n (fun k => a r k * z k) = 0) -> forall k, (k < n)%nat -> z k = 0.
(** the sum of squares that a fit is to make small: of the positions, and with the weight [w] of the velocities, these in
    units of half the length of the interval *)
Definition squares (t0 h : R) (x : list R) (p : list R) : R :=
  let n := length x in let t1 := t0 + INR (n - 1) * h in
  sumn n (fun i => (nth i x 0 - value_at t0 t1 p (t0 + INR i * h)) ^ 2).
Definition squares_v (w t0 h : R) (x d : list R) (p : list R) : R :=
  let n := length x in let t1 := t0 + INR (n - 1) * h in
  squares t0 h x p + w * sumn n (fun i => ((nth i d 0 - slope_at t0 t1 p (t0 + INR i * h)) * ((t1 - t0) / 2)) ^ 2).
(** where the multipliers of a fit come from: make_cheb_matrix_only_x, either called beforehand or because there is none of the
    right shape *)
Definition misfit (q : option multiplier) (n m : nat) : Prop := match q with None => True | Some q => m_cols q <> n \/ m_rows q <> m end.
Definition from_only_x (inv : inverter) (n m : nat) (xm : option multiplier) : Prop :=
  misfit xm n m \/ exists q, make_cheb_matrix_only_x inv n m = Ok q /\ xm = Some q.
(** ... make_cheb_matrix with the weight [w] *)
Definition from_matrix (inv : inverter) (n m : nat) (w : R) (xm dxm : option multiplier) : Prop :=
  ((misfit xm n m \/ misfit dxm n m) /\ w = default_weight) \/
  exists qa qb, make_cheb_matrix inv n m w = Ok (qa, qb) /\ xm = Some qa /\ dxm = Some qb.

(** np.linalg.inv in exact arithmetic: elimination with the first pivot that is not 0 *)
Definition pivot (n : nat) (a : mat) : option nat := find (fun r => if Req_EM_T (a r 0%nat) 0 then false else true) (seq 0 n).
Definition swap (p r : nat) : nat := if Nat.eqb r p then 0%nat else if Nat.eqb r 0 then p else r.
Fixpoint elim (n : nat) (a : mat) (b : nat -> R) : option (nat -> R) :=
  match n with
  | O => Some (fun _ => 0)
  | S n' =>
      match pivot n a with
      | None => None
      | Some p =>
          let a1 := fun r c => a (swap p r) c in
          let b1 := fun r => b (swap p r) in
          let f := fun r => a1 (S r) 0%nat / a1 0%nat 0%nat in
          match elim n' (fun r c => a1 (S r) (S c) - f r * a1 0%nat (S c)) (fun r => b1 (S r) - f r * b1 0%nat) with
          | None => None
          | Some z => Some (fun k => match k with
                                     | O => (b1 0%nat - sumn n' (fun c => a1 0%nat (S c) * z c)) / a1 0%nat 0%nat
                                     | S k' => z k'
                                     end)
          end
      end
  end.
Definition exact_inv : inverter := fun n a =>
  match elim n a (fun _ => 0) with
  | None => Err LinAlgError
  | Some _ => Ok (fun k c => match elim n a (fun r => one_if (Nat.eqb r c)) with Some z => z k | None => 0 end)
  end.
