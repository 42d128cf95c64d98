(** Specification: one position of a bucket process in the words of the user. *)
From Verif Require Export SPyProcess STypes SBucket.
Open Scope string_scope.
Open Scope list_scope.
Open Scope Z_scope.

(** What the backend gets for one position: the position relative to the first one, as many particles of each type as the entry asks for in
    total, and for each type the last change given; nothing is said of types that are not named. *)
Record saysRow (c0 c : coord) (needed changes : list (Z * string)) (r : brow) : Prop := {
  sr_place : br_c r = csub c c0;
  sr_needed : forall s, SBucket.howMany s (br_before r) = Z.max 0 (STypes.countOf s needed);
  sr_change : forall s, change (br_upd r) s = lastChange changes s;
  sr_dict : NoDup (map fst (br_upd r));
  sr_only : forall s, In s (map fst (br_upd r)) -> In s (map snd changes) }.
