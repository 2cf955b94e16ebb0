(** Vocabulary for the statements about bundle groups. *)
From Verif Require Import Base Bundle_Model.

(** Two stackers of the same class with different settings: running one destroys the columns of the other. *)
Definition stackers_conflict (b1 b2 : bundle) : Prop :=
  exists s1 s2, In s1 (b_stackers b1) /\ In s2 (b_stackers b2) /\
                st_class s1 = st_class s2 /\ st_attrs s1 <> st_attrs s2.

(** What two bundles calculated together must share (maps apart). *)
Definition compatible_bundles (b1 b2 : bundle) : Prop :=
  b_constraint b1 = b_constraint b2 /\ b_slicer b1 = b_slicer b2 /\ ~ stackers_conflict b1 b2.

Definition same_maps (b1 b2 : bundle) : Prop :=
  forall m, In m (b_maps b1) <-> In m (b_maps b2).

(** Two lists of visit indices denote the same set of visits. *)
Definition same_visits (l1 l2 : list nat) : Prop := forall x, In x l1 <-> In x l2.

(** The metric looks only at the set of visits (not at their order, nor at the slice point). *)
Definition depends_on_visits_only {V} (metric : list nat -> nat -> result V) : Prop :=
  forall l1 l2 i1 i2, l1 <> [] -> same_visits l1 l2 -> metric l1 i1 = metric l2 i2.

(** number of times key [k] occurs in the groups to be calculated *)
Definition times_calculated {B} (k : string) (groups : list (list (string * B))) : nat :=
  count_occ string_dec (map fst (concat groups)) k.
