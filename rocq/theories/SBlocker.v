(** What block averaging means, said without looking at how the blocker works. *)
From Coq Require Export Reals.
From Verif Require Export Base MLattice MBlocker SStep.
Open Scope Z_scope.
Open Scope list_scope.

(** the values registered for bin b, oldest first *)
Definition registeredIn {A} (b : Z) (calls : list (Z * A)) : list A := map snd (filter (fun c => fst c =? b) calls).
(** the values cut in blocks of the given size, in order, with an incomplete rest; no blocks if the size is not positive *)
Definition cutIn {A} (size : Z) (values : list A) (blocks : list (list A)) (rest : list A) : Prop :=
  values = concat blocks ++ rest /\ (forall k, In k blocks -> zlen k = size) /\ (0 < size -> zlen rest < size) /\ (size <= 0 -> blocks = []).
(** the arithmetic mean of component f *)
Definition meanOf (f : coord -> Z) (l : list coord) : R := (IZR (zsum (map f l)) / IZR (zlen l))%R.
(** the sum of the squared deviations of the means of the blocks from m *)
Definition deviation (f : coord -> Z) (m : R) (blocks : list (list coord)) : R := fold_right (fun b s => ((meanOf f b - m) ^ 2 + s)%R) 0%R blocks.
(** the components of a coordinate and of a reported value *)
Definition components : list ((coord -> Z) * (rcoord -> R)) := [(cx, rx); (cy, ry); (cz, rz)].
