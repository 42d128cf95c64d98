(** Specification: how many particles there are of each type in all, what a process adds to them, and how often processes have happened. *)
From Verif Require Export SChain.
From Coq Require Import Reals.
Open Scope list_scope.
Open Scope Z_scope.

(** the number of particles of type t on all sites together *)
Definition totalOf (L : lattice) (names : list string) (s : pstate) (t : string) : Z := zsum (map (fun y => numberAt names s y t) (sites L)).
(** what one event of process pr adds to the number of particles of type t: the sum over its rows, wildcards apart *)
Definition netOf (pr : cproc) (t : string) : Z := zsum (map (fun r => if anyRow r then 0 else change (br_upd r) t) (cp_rows pr)).
(** how many of the events are events of process number i *)
Definition timesOf (es : list (Z * Z * R)) (i : Z) : Z := zlen (filter (fun e => fst (fst e) =? i) es).
(** the processes with their numbers *)
Definition numbered {A} (l : list A) : list (Z * A) := combine (zrange 0 (zlen l - 1)) l.
(** a weighted number of particles: w says how much a particle of each type counts *)
Definition weighted (L : lattice) (names : list string) (w : string -> Z) (s : pstate) : Z := zsum (map (fun t => w t * totalOf L names s t) names).
Definition weightedNet (names : list string) (w : string -> Z) (pr : cproc) : Z := zsum (map (fun t => w t * netOf pr t) names).
