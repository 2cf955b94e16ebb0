(** Model of rubin_sim/moving_objects/chebyshev_utils.py: the evaluation of Chebyshev series and the constrained fit.
    Numbers are real numbers [R] (exact; rounding of floats is not modelled).  Arrays of points are handled element by
    element, so [chebeval] is modelled for one point.  A matrix is a function of row and column; np.linalg.inv is an argument. *)
From Verif Require Import Base Astrom_Model.
From Coq Require Import Reals.
Open Scope R_scope.

(** * Evaluation, lines 13-98 *)
(** the scaled variable, lines 50-51 *)
Definition scaled (a b x : R) : R := (2 * x - a - b) / (b - a).
(** the loop with velocities, lines 65-84; [t2] is twice the scaled variable, [p] the coefficients from i on: with one left
    i is N - 1, so that y1 and v1 are 0 and j is i *)
Fixpoint vel_loop (t2 : R) (p : list R) (y v y0 y1 v0 v1 : R) : R * R :=
  match p with
  | [] => (y, v)
  | [c] => (y + (c * y0 + c * 0), v + (c * v0 + c * 0))
  | c :: d :: rest =>
      let y2 := t2 * y1 - y0 in
      let y3 := t2 * y2 - y1 in
      let v2 := t2 * v1 - v0 + 2 * y1 in
      let v3 := t2 * v2 - v1 + 2 * y2 in
      vel_loop t2 rest (y + (c * y0 + d * y1)) (v + (c * v0 + d * v1)) y2 y3 v2 v3
  end.
(** the loop without, lines 91-97 *)
Fixpoint pos_loop (t2 : R) (p : list R) (y y0 y1 : R) : R :=
  match p with
  | [] => y
  | [c] => y + (c * y0 + c * 0)
  | c :: d :: rest =>
      let y0' := t2 * y1 - y0 in
      let y1' := t2 * y0' - y1 in
      pos_loop t2 rest (y + (c * y0 + d * y1)) y0' y1'
  end.
(** the values of the two loops at [x] *)
Definition cheb_yv (a b x : R) (p : list R) : R * R := let t := scaled a b x in vel_loop (2 * t) p 0 0 1 t 0 1.
Definition cheb_y (a b x : R) (p : list R) : R := let t := scaled a b x in pos_loop (2 * t) p 0 1 t.
(** the mask, lines 86 and 98: [None] is NaN *)
Definition outside (a b x : R) : bool := if Rlt_dec x a then true else if Rlt_dec b x then true else false.
Definition masked (mask : bool) (a b x v : R) : option R := if (mask && outside a b x)%bool then None else Some v.
(** chebeval: the value, and the velocity unless it is not asked for *)
Definition chebeval (x : R) (p : list R) (interval : list R) (do_velocity mask : bool) : result (option R * option (option R)) :=
  match interval with
  | [a; b] =>
      if do_velocity then
        let yv := cheb_yv a b x p in
        Ok (masked mask a b x (fst yv), Some (option_map (fun v => 2 * v / (b - a)) (masked mask a b x (snd yv))))
      else Ok (masked mask a b x (cheb_y a b x p), None)
  | _ => Err RuntimeError
  end.

(** * The matrices of the fit, lines 106-258 *)
Definition mat := nat -> nat -> R.
Definition sumn (n : nat) (f : nat -> R) : R := rsum (map f (seq 0 n)).
(** np.dot of a matrix with [m] columns and another one *)
Definition dot (m : nat) (a b : mat) : mat := fun r c => sumn m (fun k => a r k * b k c).
(** cj[:] = 0; cj[i] = 1 *)
Definition unit_vec (n k : nat) : list R := map (fun i => if Nat.eqb i k then 1 else 0) (seq 0 n).
(** np.linspace(1, -1, n)[i] *)
Definition node (n i : nat) : R := 1 + INR i * ((- 1 - 1) / INR (n - 1)).
(** tmat and tdot, lines 148-159 (the derivative for the interval (-1, 1) is the velocity) *)
Definition tmat (n_points n_poly : nat) : mat := fun i k => fst (cheb_yv (- 1) 1 (node n_points i) (unit_vec n_poly k)).
Definition tdot (n_points n_poly : nat) : mat :=
  fun i k => 2 * snd (cheb_yv (- 1) 1 (node n_points i) (unit_vec n_poly k)) / (1 - - 1).
Definition one_if (b : bool) : R := if b then 1 else 0.

(** the matrices C2 and C1 with velocities, lines 161-188; the columns of C2 alternate between positions and velocities *)
Definition c2_v (n m : nat) (w : R) : mat := fun r c =>
  if Nat.ltb r m then (if Nat.even c then tmat n m (Nat.div2 c) r else tdot n m (Nat.div2 c) r * w)
  else if Nat.eqb r m then one_if (Nat.eqb c 0%nat)
  else if Nat.eqb r (m + 1) then one_if (Nat.eqb c 1%nat)
  else if Nat.eqb r (m + 2) then one_if (Nat.eqb c (2 * n - 2))
  else one_if (Nat.eqb c (2 * n - 1)).
(** the rows of the constraints: value and derivative at the first node (1), then at the last (-1) *)
Definition ends_v (n m : nat) (e k : nat) : R :=
  match e with O => tmat n m 0%nat k | 1%nat => tdot n m 0%nat k | 2%nat => tmat n m (n - 1)%nat k | _ => tdot n m (n - 1)%nat k end.
Definition c1_v (n m : nat) (w : R) : mat := fun r c =>
  if Nat.ltb r m then
    if Nat.ltb c m then sumn n (fun i => tmat n m i r * tmat n m i c) + sumn n (fun i => tdot n m i r * w * tdot n m i c)
    else ends_v n m (c - m)%nat r
  else if Nat.ltb c m then ends_v n m (r - m)%nat c else 0.
(** ... and without, lines 230-251 *)
Definition c2_x (n m : nat) : mat := fun r c =>
  if Nat.ltb r m then tmat n m c r else if Nat.eqb r m then one_if (Nat.eqb c 0%nat) else one_if (Nat.eqb c (n - 1)).
Definition ends_x (n m : nat) (e k : nat) : R := match e with O => tmat n m 0%nat k | _ => tmat n m (n - 1)%nat k end.
Definition c1_x (n m : nat) : mat := fun r c =>
  if Nat.ltb r m then
    if Nat.ltb c m then sumn n (fun i => tmat n m i r * tmat n m i c) else ends_x n m (c - m)%nat r
  else if Nat.ltb c m then ends_x n m (r - m)%nat c else 0.
(** a multiplier: its shape and its entries *)
Record multiplier := { m_rows : nat; m_cols : nat; m_at : mat }.
(** np.linalg.inv of a square matrix of the given size *)
Definition inverter := nat -> mat -> result mat.
(** make_cheb_matrix, lines 106-199: the columns of C1^(-1) C2 in the order of increasing x, separated *)
Definition make_cheb_matrix (inv : inverter) (n m : nat) (w : R) : result (multiplier * multiplier) :=
  do c1inv <- inv (m + 4)%nat (c1_v n m w);
  let c := dot (m + 4) c1inv (c2_v n m w) in
  Ok ({| m_rows := m; m_cols := n; m_at := fun k i => c k (2 * (n - 1 - i))%nat |},
      {| m_rows := m; m_cols := n; m_at := fun k i => c k (2 * (n - 1 - i) + 1)%nat |}).
(** make_cheb_matrix_only_x, lines 202-258 *)
Definition make_cheb_matrix_only_x (inv : inverter) (n m : nat) : result multiplier :=
  do c1inv <- inv (m + 2)%nat (c1_x n m);
  let c := dot (m + 2) c1inv (c2_x n m) in
  Ok {| m_rows := m; m_cols := n; m_at := fun k i => c k (n - 1 - i)%nat |}.

(** * The fit, lines 261-365 *)
(** np.dot(multiplier, x) *)
Definition apply_mult (q : multiplier) (x : list R) : list R :=
  map (fun k => sumn (m_cols q) (fun i => m_at q k i * nth i x 0)) (seq 0 (m_rows q)).
Definition redo (q : option multiplier) (n m : nat) : bool :=
  match q with None => true | Some q => negb (Nat.eqb (m_cols q) n && Nat.eqb (m_rows q) m) end.
Definition default_weight : R := 16 / 100.
(** the coefficients, lines 307-348.  Without velocities dx_multiplier is not used *)
Definition fit_coeffs (inv : inverter) (t x : list R) (dxdt : option (list R)) (xm dxm : option multiplier) (m : nat) : result (list R) :=
  let n := length t in
  match dxdt with
  | None =>
      do q <- match xm with Some q => if redo xm n m then make_cheb_matrix_only_x inv n m else Ok q
              | None => make_cheb_matrix_only_x inv n m end;
      Ok (apply_mult q x)
  | Some d =>
      do q <- match xm, dxm with
              | Some a, Some b => if (redo dxm n m || redo xm n m)%bool then make_cheb_matrix inv n m default_weight else Ok (a, b)
              | _, _ => make_cheb_matrix inv n m default_weight
              end;
      if Nat.eqb (length d) n then
        let span := nth (n - 1) t 0 - nth 0 t 0 - (nth 0 t 0 - nth 0 t 0) in
        Ok (map (fun p => fst p + snd p) (combine (apply_mult (fst q) x) (apply_mult (snd q) (map (fun v => v * span / 2) d))))
      else Err ValueError
  end.
Definition max_abs (l : list R) : R := fold_right Rmax 0 (map Rabs l).
(** chebfit: the coefficients, the residuals, their rms and the largest *)
Definition chebfit (inv : inverter) (t x : list R) (dxdt : option (list R)) (xm dxm : option multiplier) (m : nat)
  : result (list R * list R * R * R) :=
  let n := length t in
  if negb (Nat.eqb (length x) n) then Err ValueError
  else if (match dxdt with
           | None => Nat.ltb n m || Nat.ltb m 2
           | Some _ => Nat.ltb (2 * n) m || Nat.ltb m 4
           end)%bool then Err RuntimeError
  else
    do a <- fit_coeffs inv t x dxdt xm dxm m;
    let t0 := nth 0 t 0 in
    let t1 := nth (n - 1) t 0 in
    let approx := map (fun u => match dxdt with
                                | Some _ => fst (cheb_yv (t0 - t0) (t1 - t0) (u - t0) a)
                                | None => cheb_y (t0 - t0) (t1 - t0) (u - t0) a
                                end) t in
    let residuals := map (fun p => fst p - snd p) (combine x approx) in
    Ok (a, residuals, sqrt (rsum (map (fun r => r * r) residuals) / (INR n - 1)), max_abs residuals).
