(** Specification for C74: the numbers of a seeded engine, and how a run uses them. *)
From Verif Require Export MRandom.
Open Scope Z_scope.
Open Scope list_scope.
(** the first k numbers of an engine of the C++ library in state e *)
Fixpoint numbers {E} (canonical : rng -> E -> deviate * E) (ty : rng) (e : E) (k : nat) : list deviate :=
  match k with O => [] | S k' => fst (canonical ty e) :: numbers canonical ty (snd (canonical ty e)) k' end.
(** A step uses some numbers for the clock, then one to choose the process and one to choose the site. *)
Definition stepNumbers : Type := list deviate * (deviate * deviate).
(** all numbers of some steps, in the order in which they are used; those of the clock; those of the choices *)
Definition allNumbers (steps : list stepNumbers) : list deviate := flat_map (fun s => fst s ++ [fst (snd s); snd (snd s)]) steps.
Definition clockNumbers (steps : list stepNumbers) : list R := map realOf (flat_map fst steps).
Definition choiceNumbers (steps : list stepNumbers) : list (deviate * deviate) := map snd steps.
(** what a run leaves behind, apart from the generators *)
Definition leaves {E} (r : ran E) : option (model * double * ending) :=
  match r with Unsupported _ => None | Ran md t _ e => Some (md, t, e) end.
(** the seed that is used: with a time seed, the time [now] of the master is added *)
Definition usedSeed (c : rngControl) (now : Z) : Z := if rc_time c then rc_seed c + now else rc_seed c.
