(** Model of several calls of KMCLatticeModel.run on one KMCLatticeModel object, on a single process:
    python/src/KMCLib/CoreComponents/KMCLatticeModel.py 66-88 and 154-286. *)
From Verif Require Export MRandom.
Open Scope Z_scope.
Open Scope list_scope.

(** KMCLatticeModel.py 45-64: the C++ objects the constructor arguments give ([None]: their construction fails), and the stored backend with the time of its timer.
    Simplification: a failed construction ends everything. *)
Record kmcModel := mkKmcModel { km_make : option model; km_backend : option (model * double) }.
(** KMCLatticeModel.py 66-88: made at the first query, with a new timer; simulationtimer.cpp 18-22: the time is 0 *)
Definition kmcBackend (km : kmcModel) : option (model * double) :=
  match km_backend km with
  | Some b => Some b
  | None => md <- km_make km ;; Some (md, DFin 0)
  end.
(** A call: the number of steps and the settings of the generator in the KMCControlParameters, and what time() gives *)
Record runCall := mkCall { rl_steps : nat; rl_rng : rngControl; rl_now : Z }.
(** How a call ends: the generator is refused (156), nothing is available before the loop (172), after all steps or with the Error of line 217 *)
Inductive callEnd := RefusedDevice | NothingAvailable | Looped (e : ending).

Section Repeat.
Context {E : Type} (seeded : rng -> Z -> E) (canonical : rng -> E -> deviate * E).
(** KMCLatticeModel.py 154-286.  Output and analysis are left out (C49).  [fuel] bounds the draws of one advance of the clock. *)
Definition runOnce (fuel : nat) (c : runCall) (km : kmcModel) (g : generators E) : option (callEnd * kmcModel * generators E) :=
  let (ok, g1) := setRngType (rc_type (rl_rng c)) g in
  if ok then
    let g2 := seedRandom seeded (rc_time (rl_rng c)) (rl_now c) (rc_seed (rl_rng c)) g1 in
    b <- kmcBackend km ;;
    let (md, t) := b in
    if totalAvailableSites (md_in md) =? 0 then Some (NothingAvailable, mkKmcModel (km_make km) (Some (md, t)), g2)
    else
      r <- loopDrawn canonical fuel (rl_steps c) md t g2 ;;
      let '(md', t', g', e) := r in Some (Looped e, mkKmcModel (km_make km) (Some (md', t')), g')
  else Some (RefusedDevice, km, g1).
(** The calls a script makes one after the other (it catches the Errors) *)
Fixpoint runCalls (fuel : nat) (cs : list runCall) (km : kmcModel) (g : generators E) : option (list callEnd * kmcModel * generators E) :=
  match cs with
  | [] => Some ([], km, g)
  | c :: cs' =>
      r <- runOnce fuel c km g ;;
      let '(e, km1, g1) := r in
      x <- runCalls fuel cs' km1 g1 ;;
      let '(es, km2, g2) := x in Some (e :: es, km2, g2)
  end.
End Repeat.
