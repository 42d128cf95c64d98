(** Specification for C80: what a sequence of runs on one model does, in terms of the numbers of the engines. *)
From Verif Require Export SRandom MRepeat.
Open Scope Z_scope.
Open Scope list_scope.
(** the seed a call uses *)
Definition callSeed (c : runCall) : Z := usedSeed (rl_rng c) (rl_now c).
Definition callType (c : runCall) : rng := rc_type (rl_rng c).
(** One call, on a model in state md at time t: it uses the numbers of the engine of its type, newly seeded with its own seed, from the first on,
    and with them makes the given steps. *)
Inductive callDoes {E} (seeded : rng -> Z -> E) (canonical : rng -> E -> deviate * E) (c : runCall) (md : model) (t : double) : list stepNumbers -> callEnd -> model -> double -> Prop :=
| does_nothing : totalAvailableSites (md_in md) = 0 -> callDoes seeded canonical c md t [] NothingAvailable md t
| does_steps steps e md' t' : totalAvailableSites (md_in md) <> 0 ->
    allNumbers steps = numbers canonical (callType c) (seeded (callType c) (callSeed c)) (length (allNumbers steps)) ->
    timedRun md t (choiceNumbers steps) (clockNumbers steps) = Some (md', t', []) ->
    (e = AllSteps /\ length steps = rl_steps c \/ e = NoProcess /\ (length steps < rl_steps c)%nat /\ totalAvailableSites (md_in md') = 0) ->
    callDoes seeded canonical c md t steps (Looped e) md' t'.
(** The calls one after the other, each starting from where the one before ended *)
Inductive callsDo {E} (seeded : rng -> Z -> E) (canonical : rng -> E -> deviate * E) : list runCall -> model -> double -> list (list stepNumbers) -> list callEnd -> model -> double -> Prop :=
| calls_nil md t : callsDo seeded canonical [] md t [] [] md t
| calls_cons c cs md t steps e md1 t1 ss es md2 t2 : callDoes seeded canonical c md t steps e md1 t1 -> callsDo seeded canonical cs md1 t1 ss es md2 t2 ->
    callsDo seeded canonical (c :: cs) md t (steps :: ss) (e :: es) md2 t2.
(** l is the beginning of m *)
Definition startsWith {A} (l m : list A) : Prop := exists r, m = l ++ r.
