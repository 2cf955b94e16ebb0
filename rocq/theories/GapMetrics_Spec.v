(** Vocabulary for the statements about gap metrics. *)
From Verif Require Import Base GapMetrics_Model.
From Coq Require Import Permutation Sorted.
Open Scope Z_scope.

(** the unordered pairs of positions of a list, as pairs of values *)
Fixpoint pairs (l : list Z) : list (Z * Z) :=
  match l with [] => [] | x :: t => map (fun y => (x, y)) t ++ pairs t end.

(** [s] is the list [l] in time order *)
Definition time_ordered (l s : list Z) : Prop :=
  Permutation s l /\ forall i j a b, (i < j)%nat -> nth_error s i = Some a -> nth_error s j = Some b -> a <= b.

(** the consecutive differences of a list: s_1 - s_0, s_2 - s_1, ... *)
Definition successive (s g : list Z) : Prop :=
  S (length g) = length s /\
  forall i a b, nth_error s i = Some a -> nth_error s (S i) = Some b -> nth_error g i = Some (b - a).

Definition zsum (l : list Z) : Z := fold_right Z.add 0 l.

(** [x] falls in bin [k] of a histogram: half open, the last bin closed *)
Definition hist_bin (edges : list Z) (k : nat) (x : Z) : bool :=
  match nth_error edges k, nth_error edges (S k) with
  | Some a, Some b => (a <=? x) && ((x <? b) || ((S (S k) =? length edges)%nat && (x =? b)))
  | _, _ => false
  end.

Definition countb {A} (P : A -> bool) (l : list A) : nat := length (filter P l).

(** visit [i] has another visit between [lo] and [hi] away in time *)
Definition has_partner (lo hi : Z) (times : list Z) (i : nat) : bool :=
  match nth_error times i with
  | None => false
  | Some t =>
    existsb (fun j => match nth_error times j with
                      | Some u => negb (j =? i)%nat && (lo <=? Z.abs (u - t)) && (Z.abs (u - t) <=? hi)
                      | None => false
                      end) (seq 0 (length times))
  end.

(** the same with the interval ends the code uses: [lo, hi) looking forward, (lo, hi] looking back *)
Definition has_partner_code (lo hi : Z) (times : list Z) (i : nat) : bool :=
  match nth_error times i with
  | None => false
  | Some t =>
    existsb (fun j => match nth_error times j with
                      | Some u => negb (j =? i)%nat &&
                                  (((lo <=? u - t) && (u - t <? hi)) || ((lo <? t - u) && (t - u <=? hi)))
                      | None => false
                      end) (seq 0 (length times))
  end.

(** time-adjacent visits *)
Definition adj (data : list visit) : list (visit * visit) := combine data (tl data).

(** the gap between two visits *)
Definition gap (p : visit * visit) : Z := mjd (snd p) - mjd (fst p).
Definition same_night (p : visit * visit) : bool := night (fst p) =? night (snd p).

(** visit [i] of the time-ordered seeing column has an earlier visit of equal or better seeing *)
Definition earlier_as_good (seeing : list Z) (i : nat) : bool :=
  match nth_error seeing i with
  | Some x => existsb (fun y => y <=? x) (firstn i seeing)
  | None => false
  end.


(** a metric hands this list to its reduce function, or reports its bad value when it is empty *)
Definition or_bad (g : list Z) : option (list Z) := match g with [] => None | _ => Some g end.

(** the visits in time order, with nights that do not decrease with time *)
Definition nights_in_order (data : list visit) : Prop :=
  forall i j a b, (i < j)%nat -> nth_error data i = Some a -> nth_error data j = Some b ->
    mjd a <= mjd b /\ night a <= night b.
