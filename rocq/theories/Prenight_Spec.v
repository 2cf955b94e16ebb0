(** Independent vocabulary for C40, C41, C46 and C90-C94. *)
From Verif Require Import Base Calendar_Model Calendar_Spec Prenight_Model.
From Coq Require Import QArith.
Open Scope Z_scope.

Definition tagged_all (wanted have : list string) : Prop := forall g, In g wanted -> In g have.
(** a row may be chosen: it has the tags, and less than (limit + 1) days passed between its creation and the reading
    of the clock *)
Definition eligible (now : Z) (tags : list string) (max_age : Z) (s : psim) : Prop :=
  tagged_all tags (ps_tags s) /\ now - ps_created s < (max_age + 1) * 86400000000.
(** newer by (execution date, daily index) *)
Definition newer (a b : osim) : Prop := os_exec b < os_exec a \/ (os_exec b = os_exec a /\ os_index b < os_index a).
Definition covers (lower : string -> string) (first last : Z) (tel : string) (tags : list string) (s : osim) : Prop :=
  os_first s <= first /\ last <= os_last s /\ tagged_all tags (os_tags s) /\
  (forall t, os_tel s = Some t -> lower t = lower tel).
(** an almanac that starts with the night of day number n0 and lists consecutive nights: the i-th sunset, twilight
    and sunrise are, in this order, in the 24 hours from noon of day n0 + i, and the sun always rises later in such
    a day than the evening twilight of any night plus the delay *)
Definition regular_almanac (al : list night) (n0 delay : Z) : Prop :=
  (forall i n, nth_error al i = Some n ->
     let noon := (n0 + Z.of_nat i) * 86400000000 + 43200000000 in
     noon <= sunset n /\ sunset n <= sun_n12_setting n /\ sun_n12_setting n < sunrise n /\ sunrise n < noon + 86400000000) /\
  (forall i j n m, nth_error al i = Some n -> nth_error al j = Some m ->
     sun_n12_setting n - Z.of_nat i * 86400000000 + delay < sunrise m - Z.of_nat j * 86400000000).
