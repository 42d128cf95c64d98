(** Specification: cells and lattices as the user describes them, and a whole simulation given by Python values. *)
From Verif Require Export MPyLattice SPyProcess SLattice.
Open Scope string_scope.
Open Scope list_scope.
Open Scope Z_scope.

(** the volume of the cell spanned by a, b, c, with a sign: a . (b x c) *)
Definition dot (a b : coord) : Z := cx a * cx b + cy a * cy b + cz a * cz b.
Definition cross (a b : coord) : coord := mkC (cy a * cz b - cz a * cy b) (cz a * cx b - cx a * cz b) (cx a * cy b - cy a * cx b).
Definition volume (a b c : coord) : Z := dot a (cross b c).
Definition scaled (n : Z) (a : coord) : coord := mkC (n * cx a) (n * cy a) (n * cz a).
(** no combination of the vectors vanishes but the trivial one *)
Definition independent (a b c : coord) : Prop :=
  forall x y z, cadd (scaled x a) (cadd (scaled y b) (scaled z c)) = czero -> x = 0 /\ y = 0 /\ z = 0.
(** 0 <= component < 1 *)
Definition fractionalPoint (S : Z) (p : coord) : Prop := 0 <= cx p < S /\ 0 <= cy p < S /\ 0 <= cz p < S.
(** a sequence of three integers, none smaller than 1; (1,1,1) if nothing is given *)
Definition readsRepetitions (v : pyval) (ra rb rc : Z) : Prop :=
  1 <= ra /\ 1 <= rb /\ 1 <= rc /\
  ((v = VNone /\ ra = 1 /\ rb = 1 /\ rc = 1) \/ exists x y z, asSeq v = Some [x; y; z] /\ asInt x = Some ra /\ asInt y = Some rb /\ asInt z = Some rc).
(** a sequence of three bools; all True if nothing is given *)
Definition readsPeriodic (v : pyval) (pa pb pc : bool) : Prop :=
  (v = VNone /\ pa = true /\ pb = true /\ pc = true) \/ asSeq v = Some [VBool pa; VBool pb; VBool pc].
(** no infinity or nan anywhere in the value *)
Fixpoint allFinite (v : pyval) : bool :=
  match v with VFloat (FNum _) => true | VFloat _ => false | VList l => forallb allFinite l | VTuple l => forallb allFinite l | _ => true end.
