(** The whole program with an xyz trajectory: KMCLatticeModel.run (MRun.v) on the C++ backend (MEnd.v) with XYZTrajectory.py (MTrajectory.v, MXyz.v). *)
From Verif Require Export MEnd MXyz.
Open Scope string_scope.
Open Scope list_scope.
Open Scope Z_scope.

(** KMCConfiguration.atomIDTypes and atomIDCoordinates (KMCConfiguration.py 234-244, c++/src/configuration.h 59, 69).  The coordinates are numbers in units that are q times smaller than those of the backend model *)
Definition atomTypes (cf : config) : list string := cf_aidelements cf.
Definition atomPositions (q : Z) (cf : config) : list (Z * Z * Z) := map (fun c => (cx c * q, cy c * q, cz c * q)) (cf_aidcoords cf).

Section Trajectory.
(** The trajectory object that run makes at KMCLatticeModel.py 174-190 for the type "xyz": U stands for 1.0; header: what the constructor wrote (MXyz.xyzHeader); live, now: the handle of the types, and the types when
    the trajectory is made (MTrajectory.v); maxSize, maxTime, [size]: the limits and the size of the buffer; [ticks k]: what time.time() returns in the append of step k. *)
Context (U q : Z) (header : string) (live : bool) (now : list string) (size : @xyzTraj Z Z -> Z) (maxSize maxTime : Z) (ticks : Z -> Z * Z).
(** one call: the constructor, XYZTrajectory.py 24-58, append(simulation_time, step, configuration), Trajectory.py 55-87 with XYZTrajectory.py 92-109, flush 126-157 *)
Definition xyzCall (c : @MRun.call sim) (st : @xyzTraj Z Z * Z) : (@xyzTraj Z Z * Z) * outcome unit :=
  match c with
  | MRun.CNew => (xtNew header now, Ok tt)
  | MRun.CAppend t k s =>
      trajAppend (xtStore live) size (xtFlush (fmtXyz U) (fmtXyz U)) maxSize maxTime (t, k, atomTypes (md_cf (sm_md s)), atomPositions q (md_cf (sm_md s))) (fst (ticks k)) (snd (ticks k)) st
  | MRun.CFlush => doCall (xtStore live) size (xtFlush (fmtXyz U) (fmtXyz U)) maxSize maxTime TFlush st
  | _ => (st, Ok tt)
  end.
(** the calls in order; what the last one returned *)
Definition xyzDo (log : list (@MRun.call sim)) : (@xyzTraj Z Z * Z) * outcome unit := fold_left (fun st c => xyzCall c (fst st)) log ((mkXT [] [] [] [] "" now, 0), Ok tt).
(** what is in the file *)
Definition xyzFileAfter (log : list (@MRun.call sim)) : string := xt_file (fst (fst (xyzDo log))).
(** The answers in MRun.v: the trajectory as above; [others]: the analysis and breaker objects. *)
Definition withXyz (others : list (@MRun.call sim) -> MRun.outcome Z) (log : list (@MRun.call sim)) : MRun.outcome Z :=
  match rev log with
  | MRun.CNew :: _ | MRun.CAppend _ _ _ :: _ | MRun.CFlush :: _ => match snd (xyzDo log) with Ok _ => MRun.Ok 0 | Raise _ => MRun.Raise (MRun.OtherExn 1) end
  | _ => others log
  end.
End Trajectory.
