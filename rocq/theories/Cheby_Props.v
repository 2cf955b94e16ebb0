(** C206-C210: Chebyshev series and the constrained fit. *)
From Verif Require Import Base Astrom_Model Cheby_Model Cheby_Spec Cheby_Proofs Cheby_Proofs2 Cheby_Proofs3 Cheby_Proofs4 Cheby_Proofs5.
From Coq Require Import Reals Lra Lia.
Open Scope R_scope.

(** C206: at the point of the interval with angle theta the value is the sum of p_k cos(k theta), asked with or without the
    velocity; the velocity is the derivative of the value with respect to the argument; outside the interval both are NaN with
    the mask, inside it changes nothing; an interval that is not a pair is refused *)
Theorem C206_series_value : forall a b theta p dv mask, a < b ->
  exists v, chebeval ((a + b) / 2 + (b - a) / 2 * cos theta) p [a; b] dv mask = Ok (Some (cos_series 0 p theta), v).
Proof. exact series_ok. Qed.
Print Assumptions C206_series_value.
Theorem C206_velocity : forall a b x p mask y v, a < b -> chebeval x p [a; b] true mask = Ok (Some y, Some (Some v)) ->
  chebeval x p [a; b] false mask = Ok (Some y, None) /\ derivable_pt_lim (value_at a b p) x v.
Proof. exact velocity_ok. Qed.
Print Assumptions C206_velocity.
Theorem C206_mask : forall a b x p dv, a < b ->
  (x < a \/ b < x -> chebeval x p [a; b] dv true = Ok (None, if dv then Some None else None)) /\
  (a <= x <= b -> chebeval x p [a; b] dv true = chebeval x p [a; b] dv false).
Proof. exact mask_ok. Qed.
Print Assumptions C206_mask.
Theorem C206_interval : forall x p iv dv,
  (length iv = 2%nat -> exists y v, chebeval x p iv dv false = Ok (Some y, v) /\ (v = None <-> dv = false)) /\
  (length iv <> 2%nat -> forall mask, chebeval x p iv dv mask = Err RuntimeError).
Proof.
  intros x p iv dv. split; [apply chebeval_total|]. intros H mask. destruct iv as [|a [|b [|c iv]]]; try reflexivity. contradiction H. reflexivity.
Qed.
Print Assumptions C206_interval.
Example C206_case : (* 1 + 2 T1 + 3 T2 at the end of (0, 2) is 6, and its derivative there is 2 + 3 * 4 *)
  chebeval 2 [1; 2; 3] [0; 2] true true = Ok (Some 6, Some (Some 14)) /\ cos_series 0 [1; 2; 3] 0 = 6 /\
  chebeval 3 [1; 2; 3] [0; 2] true true = Ok (None, Some None).
Proof.
  split; [|split].
  - unfold chebeval, masked, outside. destruct (Rlt_dec 2 0); [lra|]. destruct (Rlt_dec 2 2); [lra|]. cbn [andb option_map].
    unfold cheb_yv, scaled. cbn [vel_loop fst snd]. do 3 f_equal; [|do 2 f_equal]; field.
  - cbn [cos_series]. rewrite !Rmult_0_r, cos_0. ring.
  - unfold chebeval, masked, outside. destruct (Rlt_dec 3 0); [lra|]. destruct (Rlt_dec 2 3); [|lra]. reflexivity.
Qed.

(** C207: a fit to positions passes through the first and the last of them, and has the number of coefficients asked for *)
Theorem C207_ends_exact : forall inv t x xm dxm m a res rms mx,
  inverts inv -> from_only_x inv (length t) m xm -> nth 0 t 0 <> nth (length t - 1) t 0 ->
  chebfit inv t x None xm dxm m = Ok (a, res, rms, mx) ->
  let at_ := value_at (nth 0 t 0) (nth (length t - 1) t 0) a in
  length a = m /\ at_ (nth 0 t 0) = nth 0 x 0 /\ at_ (nth (length t - 1) t 0) = nth (length t - 1) x 0.
Proof. intros. apply (ends_exact_x inv t x xm dxm m a res rms mx); assumption. Qed.
Print Assumptions C207_ends_exact.
(** so that fits to pieces with a common point agree there *)
Theorem C207_pieces_meet : forall inv t x xm dxm m a res rms mx t' x' xm' dxm' m' a' res' rms' mx',
  inverts inv -> from_only_x inv (length t) m xm -> from_only_x inv (length t') m' xm' ->
  nth 0 t 0 <> nth (length t - 1) t 0 -> nth 0 t' 0 <> nth (length t' - 1) t' 0 ->
  chebfit inv t x None xm dxm m = Ok (a, res, rms, mx) -> chebfit inv t' x' None xm' dxm' m' = Ok (a', res', rms', mx') ->
  nth (length t - 1) t 0 = nth 0 t' 0 -> nth (length t - 1) x 0 = nth 0 x' 0 ->
  value_at (nth 0 t 0) (nth (length t - 1) t 0) a (nth 0 t' 0) = value_at (nth 0 t' 0) (nth (length t' - 1) t' 0) a' (nth 0 t' 0).
Proof.
  intros inv t x xm dxm m a res rms mx t' x' xm' dxm' m' a' res' rms' mx' HI F F' T T' H H' ET EX.
  destruct (ends_exact_x _ _ _ _ _ _ _ _ _ _ HI F T H) as [_ [_ E1]]. destruct (ends_exact_x _ _ _ _ _ _ _ _ _ _ HI F' T' H') as [_ [E2 _]].
  unfold t_first, t_last in *. rewrite E2, <- EX, <- E1, ET. reflexivity.
Qed.
Print Assumptions C207_pieces_meet.
Lemma cons_eq (a b : R) l l' : a = b -> l = l' -> a :: l = b :: l'.
Proof. intros -> ->. reflexivity. Qed.
Example C207_case : (* 0, 1, 4 at the times 0, 1, 2 *)
  exists res rms mx, chebfit exact_inv [0; 1; 2] [0; 1; 4] None None None 3 = Ok ([3 / 2; 2; 1 / 2], res, rms, mx) /\
  inverts exact_inv /\ from_only_x exact_inv 3 3 None /\ value_at 0 2 [3 / 2; 2; 1 / 2] 2 = 4.
Proof.
  destruct (fit_total [0; 1; 2] [0; 1; 4] None None None 3 eq_refl) as [[[[a res] rms] mx] H]; [cbn; lia|].
  assert (V : value_at 0 2 [3 / 2; 2; 1 / 2] 2 = 4) by (unfold value_at, chebeval, cheb_y, scaled; cbn [pos_loop masked andb]; field).
  assert (E : a = [3 / 2; 2; 1 / 2]).
  { apply (exact_x exact_inv 0 1 3 None None 3 [3 / 2; 2; 1 / 2] a res rms mx exact_inverts); [left; reflexivity|lra|reflexivity|].
    rewrite <- H. f_equal; unfold regular; cbn [seq map INR Nat.sub]; repeat apply cons_eq; try reflexivity; try ring;
      unfold value_at, chebeval, cheb_y, scaled; cbn [pos_loop masked andb INR]; field. }
  subst a. exists res, rms, mx. split; [exact H|]. split; [exact exact_inverts|]. split; [left; reflexivity|exact V].
Qed.

(** C208: a fit to positions and velocities also has the given velocities at both ends *)
Theorem C208_end_slopes : forall inv t x d xm dxm m w a res rms mx,
  inverts inv -> from_matrix inv (length t) m w xm dxm -> nth 0 t 0 <> nth (length t - 1) t 0 ->
  chebfit inv t x (Some d) xm dxm m = Ok (a, res, rms, mx) ->
  let at_ := value_at (nth 0 t 0) (nth (length t - 1) t 0) a in
  let slope := slope_at (nth 0 t 0) (nth (length t - 1) t 0) a in
  length a = m /\ at_ (nth 0 t 0) = nth 0 x 0 /\ slope (nth 0 t 0) = nth 0 d 0 /\
  at_ (nth (length t - 1) t 0) = nth (length t - 1) x 0 /\ slope (nth (length t - 1) t 0) = nth (length t - 1) d 0.
Proof. intros. apply (ends_exact_v inv t x d xm dxm m w a res rms mx); assumption. Qed.
Print Assumptions C208_end_slopes.
Theorem C208_pieces_smooth : forall inv t x d xm dxm m w a res rms mx t' x' d' xm' dxm' m' w' a' res' rms' mx',
  inverts inv -> from_matrix inv (length t) m w xm dxm -> from_matrix inv (length t') m' w' xm' dxm' ->
  nth 0 t 0 <> nth (length t - 1) t 0 -> nth 0 t' 0 <> nth (length t' - 1) t' 0 ->
  chebfit inv t x (Some d) xm dxm m = Ok (a, res, rms, mx) -> chebfit inv t' x' (Some d') xm' dxm' m' = Ok (a', res', rms', mx') ->
  nth (length t - 1) t 0 = nth 0 t' 0 -> nth (length t - 1) x 0 = nth 0 x' 0 -> nth (length t - 1) d 0 = nth 0 d' 0 ->
  let u := nth 0 t' 0 in
  value_at (nth 0 t 0) (nth (length t - 1) t 0) a u = value_at (nth 0 t' 0) (nth (length t' - 1) t' 0) a' u /\
  slope_at (nth 0 t 0) (nth (length t - 1) t 0) a u = slope_at (nth 0 t' 0) (nth (length t' - 1) t' 0) a' u.
Proof.
  intros inv t x d xm dxm m w a res rms mx t' x' d' xm' dxm' m' w' a' res' rms' mx' HI F F' T T' H H' ET EX ED u.
  destruct (ends_exact_v _ _ _ _ _ _ _ _ _ _ _ _ HI F T H) as [_ [_ [_ [E1 D1]]]].
  destruct (ends_exact_v _ _ _ _ _ _ _ _ _ _ _ _ HI F' T' H') as [_ [E2 [D2 _]]].
  unfold t_first, t_last, u in *. split.
  - rewrite E2, <- EX, <- E1, ET. reflexivity.
  - rewrite D2, <- ED, <- D1, ET. reflexivity.
Qed.
Print Assumptions C208_pieces_smooth.
Example C208_case : (* the cube of the time, from -1 to 1 in three points *)
  exists res rms mx, chebfit exact_inv [-1; 0; 1] [-1; 0; 1] (Some [3; 0; 3]) None None 4 = Ok ([0; 3 / 4; 0; 1 / 4], res, rms, mx) /\
  from_matrix exact_inv 3 4 default_weight None None /\ slope_at (-1) 1 [0; 3 / 4; 0; 1 / 4] 1 = 3.
Proof.
  destruct (fit_total [-1; 0; 1] [-1; 0; 1] (Some [3; 0; 3]) None None 4 eq_refl) as [[[[a res] rms] mx] H]; [cbn; lia|].
  assert (V : slope_at (-1) 1 [0; 3 / 4; 0; 1 / 4] 1 = 3) by (unfold slope_at, chebeval, cheb_yv, scaled; cbn [vel_loop masked andb option_map fst snd]; field).
  assert (E : a = [0; 3 / 4; 0; 1 / 4]).
  { apply (exact_v exact_inv (-1) 1 3 None None 4 default_weight [0; 3 / 4; 0; 1 / 4] a res rms mx exact_inverts);
      [left; split; [left; exact I|reflexivity]|unfold default_weight; lra|lra|reflexivity|].
    rewrite <- H. f_equal; [| |f_equal]; unfold regular; cbn [seq map INR Nat.sub]; repeat apply cons_eq; try reflexivity; try ring;
      [unfold value_at, chebeval, cheb_y, scaled; cbn [pos_loop masked andb INR]; field..| | |];
      unfold slope_at, chebeval, cheb_yv, scaled; cbn [vel_loop masked andb INR option_map fst snd]; field. }
  subst a. exists res, rms, mx. split; [exact H|]. split; [left; split; [left; exact I|reflexivity]|exact V].
Qed.

(** C209: at regular times, of all polynomials with as many terms through the end points the fit has the least sum of squares
    over the points; with velocities, the least sum of squares of both, the velocities with their weight *)
Theorem C209_least_squares : forall inv t0 h n x xm dxm m a res rms mx b,
  inverts inv -> from_only_x inv n m xm -> h <> 0 ->
  chebfit inv (regular t0 h n) x None xm dxm m = Ok (a, res, rms, mx) ->
  length b = m -> value_at t0 (t0 + INR (n - 1) * h) b t0 = nth 0 x 0 ->
  value_at t0 (t0 + INR (n - 1) * h) b (t0 + INR (n - 1) * h) = nth (n - 1) x 0 ->
  squares t0 h x a <= squares t0 h x b.
Proof. exact best_x. Qed.
Print Assumptions C209_least_squares.
Theorem C209_least_squares_velocities : forall inv t0 h n x d xm dxm m w a res rms mx b,
  inverts inv -> from_matrix inv n m w xm dxm -> 0 <= w -> h <> 0 ->
  chebfit inv (regular t0 h n) x (Some d) xm dxm m = Ok (a, res, rms, mx) ->
  length b = m -> value_at t0 (t0 + INR (n - 1) * h) b t0 = nth 0 x 0 ->
  slope_at t0 (t0 + INR (n - 1) * h) b t0 = nth 0 d 0 ->
  value_at t0 (t0 + INR (n - 1) * h) b (t0 + INR (n - 1) * h) = nth (n - 1) x 0 ->
  slope_at t0 (t0 + INR (n - 1) * h) b (t0 + INR (n - 1) * h) = nth (n - 1) d 0 ->
  squares_v w t0 h x d a <= squares_v w t0 h x d b.
Proof. exact best_v. Qed.
Print Assumptions C209_least_squares_velocities.
(** values of a polynomial with that many terms give back its coefficients *)
Theorem C209_polynomials_recovered : forall inv t0 h n xm dxm m w b a res rms mx,
  inverts inv -> h <> 0 -> length b = m ->
  (from_only_x inv n m xm ->
   chebfit inv (regular t0 h n) (map (value_at t0 (t0 + INR (n - 1) * h) b) (regular t0 h n)) None xm dxm m = Ok (a, res, rms, mx) ->
   a = b) /\
  (from_matrix inv n m w xm dxm -> 0 < w ->
   chebfit inv (regular t0 h n) (map (value_at t0 (t0 + INR (n - 1) * h) b) (regular t0 h n))
     (Some (map (slope_at t0 (t0 + INR (n - 1) * h) b) (regular t0 h n))) xm dxm m = Ok (a, res, rms, mx) ->
   a = b).
Proof.
  intros inv t0 h n xm dxm m w b a res rms mx HI Hh HB. split.
  - intros HF. apply exact_x; assumption.
  - intros HF Hw. apply (exact_v inv t0 h n xm dxm m w); assumption.
Qed.
Print Assumptions C209_polynomials_recovered.
Example C209_case : (* the line through the ends of 0, 0, 3 misses the middle by 3 / 2 *)
  exists a res rms mx, chebfit exact_inv (regular 0 1 3) [0; 0; 3] None None None 2 = Ok (a, res, rms, mx) /\
  length [3 / 2; 3 / 2] = 2%nat /\ value_at 0 (0 + INR 2 * 1) [3 / 2; 3 / 2] 0 = 0 /\ value_at 0 (0 + INR 2 * 1) [3 / 2; 3 / 2] (0 + INR 2 * 1) = 3 /\
  squares 0 1 [0; 0; 3] [3 / 2; 3 / 2] = 9 / 4.
Proof.
  destruct (fit_total (regular 0 1 3) [0; 0; 3] None None None 2 eq_refl) as [[[[a res] rms] mx] H]; [cbn; lia|].
  exists a, res, rms, mx. split; [exact H|]. split; [reflexivity|].
  unfold squares, sumn, value_at, chebeval, cheb_y, scaled. cbn [length Nat.sub seq map pos_loop masked andb INR nth rsum fold_right].
  split; [field|]. split; [field|]. field.
Qed.

(** C210: the residuals are the differences from the values of the fit at the times, the rms is the root of their sum of squares
    over one less than their number, the last number the largest of their absolute values *)
Theorem C210_residuals : forall inv t x d xm dxm m a res rms mx, chebfit inv t x d xm dxm m = Ok (a, res, rms, mx) ->
  length res = length t /\
  (forall i, (i < length t)%nat -> nth i res 0 = nth i x 0 - value_at (nth 0 t 0) (nth (length t - 1) t 0) a (nth i t 0)) /\
  rms = sqrt (rsum (map (fun r => r ^ 2) res) / (INR (length t) - 1)) /\
  (forall i, (i < length t)%nat -> Rabs (nth i res 0) <= mx) /\ (exists i, (i < length t)%nat /\ mx = Rabs (nth i res 0)).
Proof. exact residuals_ok. Qed.
Print Assumptions C210_residuals.
(** the sizes that are accepted give a system with one solution, so that the inverse exists *)
Theorem C210_one_solution : forall n m w,
  ((2 <= m <= n)%nat -> regular_matrix (m + 2) (c1_x n m)) /\
  ((4 <= m <= 2 * n)%nat -> 0 < w -> regular_matrix (m + 4) (c1_v n m w)).
Proof. intros n m w. split; [intros [H1 H2]; apply regular_x; assumption|intros [H1 H2] Hw; apply regular_v; assumption]. Qed.
Print Assumptions C210_one_solution.
Theorem C210_accepted_sizes : forall t x d xm dxm m, length x = length t ->
  match d with None => (2 <= m <= length t)%nat | Some d => length d = length t /\ (4 <= m <= 2 * length t)%nat end ->
  exists r, chebfit exact_inv t x d xm dxm m = Ok r.
Proof. exact fit_total. Qed.
Print Assumptions C210_accepted_sizes.
Theorem C210_other_sizes : forall inv t x d xm dxm m,
  (length x <> length t -> chebfit inv t x d xm dxm m = Err ValueError) /\
  (length x = length t -> ~ (match d with None => (2 <= m <= length t)%nat | Some _ => (4 <= m <= 2 * length t)%nat end) ->
   chebfit inv t x d xm dxm m = Err RuntimeError).
Proof. exact fit_errors. Qed.
Print Assumptions C210_other_sizes.
(** what the documentation says of the number of terms with velocities, from 2 to twice the number of points, is not so *)
Theorem C210_documented_sizes_refuted : ~ (forall t x d m, length x = length t -> length d = length t -> (2 <= m <= 2 * length t)%nat ->
  exists r, chebfit exact_inv t x (Some d) None None m = Ok r).
Proof.
  intros C. specialize (C [0; 1] [0; 1] [1; 1] 2%nat eq_refl eq_refl ltac:(cbn; lia)). destruct C as [r C]. vm_compute in C. discriminate C.
Qed.
Print Assumptions C210_documented_sizes_refuted.
(** numpy's inverse in exact arithmetic is an instance of what the theorems above ask of the inverse *)
Theorem C210_inverse_exists : inverts exact_inv /\ forall n a, regular_matrix n a -> exists M, exact_inv n a = Ok M.
Proof. split; [exact exact_inverts|exact exact_total]. Qed.
Print Assumptions C210_inverse_exists.
Example C210_case : (exists r, chebfit exact_inv [0; 1; 2] [0; 0; 3] (Some [0; 0; 1]) None None 6 = Ok r) /\
  chebfit exact_inv [0; 1; 2] [0; 0; 3] None None None 4 = Err RuntimeError /\
  chebfit exact_inv [0; 1; 2] [0; 0] None None None 2 = Err ValueError.
Proof. split; [apply fit_total; [reflexivity|cbn; lia]|]. split; reflexivity. Qed.
