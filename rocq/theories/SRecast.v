(** Specification: the same processes in another order, and the same rates in another unit of time. *)
From Verif Require Export SChain SLaw.
From Coq Require Import Reals.
Open Scope list_scope.
Open Scope Z_scope.

(** the process that was number i is number f i in the other list *)
Definition reordered {A} (f : Z -> Z) (l l' : list A) : Prop :=
  zlen l' = zlen l /\ (forall i j, 0 <= i < zlen l -> 0 <= j < zlen l -> f i = f j -> i = j) /\ forall i a, zget l i = Some a -> zget l' (f i) = Some a.
(** the same processes, where rate' = rate * m / n *)
Definition rescaled (m n : Z) (prs prs' : list cproc) : Prop :=
  Forall2 (fun pr pr' => cp_basis pr' = cp_basis pr /\ cp_spec pr' = cp_spec pr /\ forall x s, n * cp_rate pr' x s = m * cp_rate pr x s) prs prs'.
(** events with the numbers of the processes changed *)
Definition renumbered (f : Z -> Z) (es : list (Z * Z * R)) : list (Z * Z * R) := map (fun e => ((f (fst (fst e)), snd (fst e)), snd e)) es.
(** events with the waiting times multiplied by n / m *)
Definition retimed (m n : Z) (es : list (Z * Z * R)) : list (Z * Z * R) := map (fun e => (fst e, snd e * IZR n / IZR m)%R) es.
