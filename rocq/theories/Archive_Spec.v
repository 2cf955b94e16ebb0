(** Vocabulary for the statements about the archive. *)
From Verif Require Import Base Archive_Model.
From Coq Require Import Sorting Permutation.

(** the set of tags that a history of calls describes: the last call that mentions (u, g) decides *)
Definition tags_after (h : list tag_op) (u : uuid) (g : string) : Prop :=
  fold_left (fun P o => match o with
                        | Tag u' gs => (u' = u /\ In g gs) \/ P
                        | Untag u' g' => P /\ ~ (u' = u /\ g' = g)
                        end) h False.
Definition pair_dec : forall a b : nat * string, {a = b} + {a <> b}.
Proof. decide equality; [apply string_dec|apply Nat.eq_dec]. Defined.
Definition times_stored (t : list tag_row) (u : uuid) (g : string) : nat := count_occ pair_dec t (u, g).

(** file registry and store agree *)
Definition hash_ok (sha256 : string -> string) (s : fstate) (u : uuid) (ft : string) : Prop :=
  forall h p, get_file_sha256 s u ft = Ok h -> get_file_url s u ft = Ok p ->
  exists c, read_url s p = Some c /\ sha256 c = h.

(** orders that a database may use for ROW_NUMBER *)
Definition sorts_by_time (order : list (uuid * Z) -> list (uuid * Z)) : Prop :=
  forall l, Permutation l (order l) /\ StronglySorted (fun a b => (snd a <= snd b)%Z) (order l).

(** outcome of a pool history *)
Definition pool_of (h : list pcall) : pool := fst (pool_run pool_init h).
Definition no_pool_error (h : list pcall) : Prop := ~ In (Err PoolError) (snd (pool_run pool_init h)).
Definition inserts (h : list pcall) : nat :=
  length (filter (fun c => match c with CInsertStats _ => true | _ => false end) h).
