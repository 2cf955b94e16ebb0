(** Model of rubin_sim/selfcal/solver.py: LsqrSolver.  Magnitudes are reals; star and patch numbers are int64, whose products wrap.
    scipy's lsqr is an argument. *)
From Coq Require Import Reals.
From Verif Require Import Base Technical_Model.
Open Scope Z_scope.

(** a row of the observations: the columns that are used (lines 19-20) *)
Record obs := { o_id : Z; o_patch : Z; o_mag : R; o_unc : R }.
Definition set_id (o : obs) (k : Z) : obs := {| o_id := k; o_patch := o_patch o; o_mag := o_mag o; o_unc := o_unc o |}.
Definition set_patch (o : obs) (k : Z) : obs := {| o_id := o_id o; o_patch := k; o_mag := o_mag o; o_unc := o_unc o |}.

(** np.roll(l, 1) and np.roll(l, -1) *)
Definition roll_fwd {A} (l : list A) : list A := match rev l with [] => [] | x :: t => x :: rev t end.
Definition roll_back {A} (l : list A) : list A := match l with [] => [] | x :: t => t ++ [x] end.
(** a number of int64 arithmetic is 0 *)
Definition int64_zero (z : Z) : bool := z mod 2 ^ 64 =? 0.
(** lines 60-65, and 70-75 *)
Definition keep (key : obs -> Z) (l : list obs) : list obs :=
  let k := map key l in
  map fst (filter (fun q => int64_zero ((key (fst q) - fst (snd q)) * (key (fst q) - snd (snd q)))) (combine l (combine (roll_fwd k) (roll_back k)))).

(** np.searchsorted of a sorted array, side left and right *)
Definition ss_left (l : list Z) (x : Z) : nat := length (filter (fun y => y <? x) l).
Definition ss_right (l : list Z) (x : Z) : nat := length (filter (fun y => y <=? x) l).
(** column[a:b] = v *)
Definition assign_slice (set : obs -> Z -> obs) (l : list obs) (a b : nat) (v : Z) : list obs :=
  map (fun q => if (Nat.leb a (fst q) && Nat.ltb (fst q) b)%bool then set (snd q) v else snd q) (combine (seq 0 (length l)) l).
(** lines 80-88 (start 0) and 94-101 (start 1): the numbers of a sorted column become a running index.  The edges of the slices are
    computed before the loop *)
Definition reindex (key : obs -> Z) (set : obs -> Z -> obs) (start : Z) (l : list obs) : list obs :=
  let k := map key l in
  fold_left (fun acc q => assign_slice set acc (ss_left k (snd q)) (ss_right k (snd q)) (start + Z.of_nat (fst q)))
    (combine (seq 0 (length (unique_z k))) (unique_z k)) l.

Section Solver.
  (** observations.sort(order=...): by a column, ties by the remaining columns *)
  Context (sort : (obs -> Z) -> list obs -> list obs).
  (** the body of the loop, lines 57-75 *)
  Definition one_pass (l : list obs) : list obs := keep o_patch (sort o_patch (keep o_id (sort o_id l))).
  (** the loop, lines 54-76: until a pass leaves the number of observations as it is; None: out of fuel, which does not happen *)
  Fixpoint clean_loop (fuel : nat) (l : list obs) : option (list obs) :=
    match fuel with
    | O => None
    | S f => let r := one_pass l in if Nat.eqb (length r) (length l) then Some r else clean_loop f r
    end.
  (** clean_data, lines 49-101: the observations with running numbers, the patches and the stars *)
  Record cleaned := { c_obs : list obs; c_patches : list Z; c_stars : list Z }.
  Definition clean_data (l : list obs) : option cleaned :=
    match clean_loop (S (length l)) l with
    | None => None
    | Some r =>
        let r1 := sort o_patch r in
        let r2 := sort o_id (reindex o_patch set_patch 0 r1) in
        Some {| c_obs := reindex o_id set_id 1 r2; c_patches := unique_z (map o_patch r1); c_stars := unique_z (map o_id r2) |}
    end.
  (** the caller's array after clean_data: the first sort is in place (line 57), everything later works on copies (line 65) *)
  Definition caller_array (l : list obs) : list obs := sort o_id l.

  (** a sparse matrix: shape and entries (row, column, value) *)
  Record matrix := { m_rows : nat; m_cols : nat; m_entries : list (nat * Z * R) }.
  (** coo_matrix(..., shape): columns out of range raise ValueError (line 122) *)
  Definition coo_matrix (rows cols : nat) (e : list (nat * Z * R)) : result matrix :=
    if forallb (fun q => (0 <=? snd (fst q)) && (snd (fst q) <? Z.of_nat cols)) e
    then Ok {| m_rows := rows; m_cols := cols; m_entries := e |} else Err ValueError.
  (** np.max: of nothing raises ValueError *)
  Definition maximum (l : list Z) : result Z := match l with [] => Err ValueError | x :: t => Ok (fold_left Z.max t x) end.
  (** solve_matrix up to the call of lsqr, lines 103-123: the matrix and the right hand side *)
  Definition build_matrix (c : cleaned) : result (matrix * list R) :=
    let n := length (c_obs c) in
    do top <- maximum (map o_patch (c_obs c));
    let at_ := combine (seq 0 n) (c_obs c) in
    let entries := map (fun q => (fst q, o_patch (snd q), (1 / o_unc (snd q))%R)) at_ ++
                   map (fun q => (fst q, o_id (snd q) + top, (1 / o_unc (snd q))%R)) at_ in
    do a <- coo_matrix n (length (c_patches c) + length (c_stars c)) entries;
    Ok (a, map (fun o => (o_mag o / o_unc o)%R) (c_obs c)).
  (** return_solution, lines 128-143: x is the vector of lsqr *)
  Definition solution_of (c : cleaned) (x : list R) : list (Z * R) * list (Z * R) :=
    (combine (c_patches c) (firstn (length (c_patches c)) x), combine (c_stars c) (skipn (length (c_patches c)) x)).

  (** an instance of the class: None after solve_matrix has deleted the observations (line 120) *)
  Record solver := { s_obs : option (list obs); s_solution : option (cleaned * list R) }.
  Definition new_solver (l : list obs) : solver := {| s_obs := Some l; s_solution := None |}.
  (** scipy.sparse.linalg.lsqr(A, b)[0] *)
  Context (lsqr : matrix -> list R -> list R).
  (** run, lines 44-47: a second run finds no observations: AttributeError *)
  Definition run (s : solver) : result solver :=
    match s_obs s with
    | None => Err AttributeError
    | Some l =>
        match clean_data l with
        | None => Err RuntimeError
        | Some c => do p <- build_matrix c; Ok {| s_obs := None; s_solution := Some (c, lsqr (fst p) (snd p)) |}
        end
    end.
  (** return_solution; before run there is no attribute patches *)
  Definition return_solution (s : solver) : result (list (Z * R) * list (Z * R)) :=
    match s_solution s with None => Err AttributeError | Some (c, x) => Ok (solution_of c x) end.
End Solver.
