(** Specification: updates of a bucket process that mention the wildcard. *)
From Verif Require Export SBucket.
Open Scope string_scope.
Open Scope list_scope.
Open Scope Z_scope.

(** the update of the row adds the wildcard "*" *)
Definition addsWildcard (r : brow) : Prop := 0 < change (br_upd r) "*".
(** the updates as the user may write them: dictionaries, "*" allowed; no two rows at one position *)
Definition anyUpdates (rows : list brow) : Prop :=
  rows <> [] /\ NoDup (map br_c rows) /\ forall r, In r rows -> NoDup (map fst (br_upd r)).
