(** Vocabulary for the statements about the tracking database and sanitised names. *)
From Verif Require Import Base ResultsDb_Model TrackingDb_Model.
From Coq Require Import Ascii.

(** the characters that must not occur in a file name *)
Definition unsafe : list N :=
  map N_of_ascii [">"; "<"; "="; " "; "."; ","; "/"; "\"; "("; ")"; ":"; ";"; "%"; "#"]%char.
Definition safe_name (s : list N) : Prop :=
  (forall c, In c unsafe -> ~ In c s) /\ (forall p q, s <> p ++ [N_of_ascii "_"; N_of_ascii "_"] ++ q).
