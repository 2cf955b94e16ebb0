(** What a user of the template metric expects, stated without the model. *)
From Coq Require Import Reals List Permutation Sorted.
Import ListNotations.
Open Scope R_scope.

(** [m] lists, in order, exactly the entries of [l] that satisfy [P]. *)
Inductive Sel {A} (P : A -> Prop) : list A -> list A -> Prop :=
| sel_nil : Sel P [] []
| sel_yes : forall x l m, P x -> Sel P l m -> Sel P (x :: l) (x :: m)
| sel_no : forall x l m, ~ P x -> Sel P l m -> Sel P (x :: l) m.

(** [x] is the [p]-th percentile of [l]: the point a fraction [p/100] of the way from the first to the last of the values
    in increasing order, neighbours being joined by straight lines. *)
Definition Percentile (p : R) (l : list R) (x : R) : Prop :=
  exists s i f a b, Permutation l s /\ StronglySorted Rle s
    /\ p / 100 * INR (length l - 1) = INR i + f /\ 0 <= f < 1
    /\ nth_error s i = Some a
    /\ (nth_error s (S i) = Some b \/ f = 0 /\ b = a)
    /\ x = a + f * (b - a).

(** The template made from the first [n] visits (in time) that satisfy [good]: it is complete with visit [c], [pre] are the
    visits before it and [inputs] the visits it is made of. *)
Definition TemplateFrom {A} (time : A -> R) (good : A -> Prop) (n : nat) (data pre : list A) (c : A) (post inputs : list A) : Prop :=
  Permutation data (pre ++ c :: post)
  /\ StronglySorted (fun v w => time v <= time w) (pre ++ c :: post)
  /\ good c /\ Sel good (pre ++ [c]) inputs /\ length inputs = n.

(** A depth as the noise it stands for: an image of depth [m] has noise proportional to [10^(-0.4 m)]. *)
Definition noise (m : R) : R := Rpower 10 (- (4/10) * m).
