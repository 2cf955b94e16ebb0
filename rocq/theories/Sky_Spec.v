(** What a user of the sky brightness model expects, stated without the model. *)
From Coq Require Import String Reals ZArith List.
Import ListNotations.
Open Scope R_scope.

(** [y] is the angle [x] brought into [0, 2 pi) *)
Definition Wrapped (x y : R) : Prop := 0 <= y < 2 * PI /\ exists k : Z, y = x + 2 * PI * IZR k.
(** [d] is the angle between two azimuths, either way round *)
Definition Between (az1 az2 d : R) : Prop :=
  0 <= d <= PI /\ exists k : Z, d = az1 - az2 + 2 * PI * IZR k \/ d = az2 - az1 + 2 * PI * IZR k.

(** strictly increasing *)
Definition Increasing (l : list R) : Prop :=
  forall i j x y, (i < j)%nat -> nth_error l i = Some x -> nth_error l j = Some y -> x < y.
(** [p] lies between the first and the last entry *)
Definition Inside (l : list R) (p : R) : Prop := exists a b, In a l /\ In b l /\ a <= p <= b.
(** [v] is the value at [p] of the broken line through the points (grid, values) *)
Definition Interp (grid values : list R) (p v : R) : Prop :=
  exists i x0 x1 y0 y1,
    nth_error grid i = Some x0 /\ nth_error values i = Some y0 /\
    ((p = x0 /\ v = y0) \/
     (nth_error grid (S i) = Some x1 /\ nth_error values (S i) = Some y1 /\ x0 < p < x1
      /\ v = y0 + (p - x0) / (x1 - x0) * (y1 - y0))).
(** interpolation in two directions: first along each row, then along the column of the results *)
Definition Interp2 (xs ys : list R) (table : list (list R)) (x y v : R) : Prop :=
  exists column, Forall2 (fun row c => Interp ys row y c) table column /\ Interp xs column x v.

(** a full table: one row of [n] entries for each of [m] grid points *)
Definition Full {A} (m n : nat) (table : list (list A)) : Prop := length table = m /\ Forall (fun r => length r = n) table.

(** the flux [f] that the code gives to a magnitude [m]: [10^(-0.4 (m - log10 3631))] *)
Definition FluxMag (f m : R) : Prop := f = Rpower 10 (- (4/10) * (m - ln 3631 / ln 10)).

(** total of possibly undefined numbers *)
Fixpoint Total (l : list (option R)) : option R :=
  match l with [] => Some 0 | x :: t => match x, Total t with Some a, Some b => Some (a + b) | _, _ => None end end.

(** the entries of [l] at the places where the list of flags says so, in order *)
Fixpoint Picked {A} (flags : list bool) (l : list A) : list A :=
  match flags, l with b :: fs, x :: t => if b then x :: Picked fs t else Picked fs t | _, _ => [] end.

(** the part of a table that belongs to the [j]-th pixel *)
Definition Pixel (j : nat) (table : list (list (list R))) : list (list R) := map (map (fun row => nth j row 0)) table.
