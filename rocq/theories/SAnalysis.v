(** What the analysis objects report, said without looking at how they work. *)
From Coq Require Export QArith.
From Verif Require Export Base.
Open Scope Z_scope.
Open Scope list_scope.

(** A history is a list of (time, observation).  A block is a part of the history; it starts at the time of its first observation. *)
Definition startsAt {A} (block : list (Z * A)) (t : Z) : Prop := exists x rest, block = (t, x) :: rest.
(** The division of a history in blocks: a new block begins with the first observation more than [interval] after the start of the block before. *)
Definition inBlocks {A} (interval : Z) (history : list (Z * A)) (blocks : list (list (Z * A))) : Prop :=
  concat blocks = history
  /\ (forall i b, zget blocks i = Some b -> exists t, startsAt b t /\ forall x, In x b -> fst x - t <= interval)
  /\ (forall i b b' t t', zget blocks i = Some b -> zget blocks (i + 1) = Some b' -> startsAt b t -> startsAt b' t' -> interval < t' - t).
(** The values of column j in the observations of a block. *)
Definition column (j : Z) (block : list (Z * list Z)) : list Z := map (fun x => match zget (snd x) j with Some v => v | None => 0 end) block.
(** The arithmetic mean. *)
Definition isMean (vs : list Z) (q : Q) : Prop := (0 < length vs)%nat /\ (q * inject_Z (zlen vs) == inject_Z (zsum vs))%Q.
(** How many elements satisfy the predicate. *)
Definition tally {A} (f : A -> bool) (l : list A) : Z := zlen (filter f l).
(** The differences between successive times. *)
Fixpoint increments (t : Z) (times : list Z) : list Z := match times with [] => [] | t' :: times' => (t' - t) :: increments t' times' end.
(** Times do not run backwards. *)
Definition forwards (t : Z) (times : list Z) : Prop := forall d, In d (increments t times) -> 0 <= d.
(** An observation of the process statistics is the (process, site) of the latest event, None at the start: is the process one of those followed,
    did it happen at the site? *)
Definition tracked (procs : list Z) (e : Z * option (Z * Z)) : bool := match snd e with Some (p, _) => zmem p procs | None => false end.
Definition trackedAt (procs : list Z) (site : Z) (e : Z * option (Z * Z)) : bool := match snd e with Some (p, x) => zmem p procs && (x =? site) | None => false end.
(** the history of a run that starts at time t *)
Definition withStart {A} (t : Z) (steps : list (Z * A)) : list (Z * option A) := (t, None) :: map (fun s => (fst s, Some (snd s))) steps.
(** the bin b of a histogram with bins of the given size *)
Definition inBin (size b d : Z) : bool := (b * size <=? d) && (d <? (b + 1) * size).
