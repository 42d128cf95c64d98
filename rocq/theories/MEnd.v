(** The whole program: KMCLatticeModel.run (MRun.v) on the C++ backend (MModel.v, MTimer.v) with a lattice trajectory (MTrajectory.v). *)
From Verif Require Export MTimer MTrajectory MScript.
From Verif Require MRun.
Open Scope string_scope.
Open Scope list_scope.
Open Scope Z_scope.

(** The backend: the LatticeModel, the timer's time and the deviates that will be drawn, those of the selection and those of the clock (as in timedRun). *)
Record sim := mkSim { sm_md : model; sm_time : double; sm_us : list (deviate * deviate); sm_vs : list R }.
(** interactions().totalAvailableSites() (c++/src/interactions.cpp 191-200), simulationTime(), propagateTime() and singleStep() (c++/src/latticemodel.cpp 44-95).
    [clock]: how many of the small units of MRun.v the time of the timer is.  The exception stands for undefined behaviour and for deviates that have run out. *)
Definition simBackend (clock : double -> Z) : @MRun.backend sim := MRun.mkBackend
  (fun s => totalAvailableSites (md_in (sm_md s)))
  (fun s => clock (sm_time s))
  (fun s => match (rate <- totalRate (md_in (sm_md s)) ;; propagateTime (IZR rate) (sm_time s) (sm_vs s)) with
            | Some r => (mkSim (sm_md s) (fst r) (sm_us s) (snd r), MRun.Ok tt)
            | None => (s, MRun.Raise (MRun.OtherExn 0))
            end)
  (fun s => match sm_us s with
            | u :: us' => match singleStep (sm_md s) (fst u) (snd u) with Some md' => (mkSim md' (sm_time s) us' (sm_vs s), MRun.Ok tt) | None => (s, MRun.Raise (MRun.OtherExn 0)) end
            | [] => (s, MRun.Raise (MRun.OtherExn 0))
            end).

Section Trajectory.
(** The trajectory object that run makes at lines 174-190 for the configuration kc: U stands for 1.0; [ctime]: time.ctime(); sites: configuration.sites(); maxSize, maxTime, [size]: the limits and the size of
    the buffer; [ticks k]: what time.time() returns in the append of step k. *)
Context (U u : Z) (kc : kconf) (ctime : string) (sites : list (Z * Z * Z)) (size : @latTraj Z -> Z) (maxSize maxTime : Z) (ticks : Z -> Z * Z).
(** one call: the constructor, LatticeTrajectory.py 44-56, append(simulation_time, step, configuration), Trajectory.py 55-87 with types() of the configuration (LatticeTrajectory.py 105-110), flush *)
Definition trajCall (c : @MRun.call sim) (st : @latTraj Z * Z) : (@latTraj Z * Z) * outcome unit :=
  match c with
  | MRun.CNew => (ltNew (latHeader (fmtF 15 6 U) ctime sites), Ok tt)
  | MRun.CAppend t k s =>
      match typesQuery kc (md_cf (sm_md s)) with
      | Ok y => trajAppend ltStore size (ltFlush (fmtE 18 10 U) u) maxSize maxTime (t, k, y) (fst (ticks k)) (snd (ticks k)) st
      | Raise e => (st, Raise e)
      end
  | MRun.CFlush => doCall ltStore size (ltFlush (fmtE 18 10 U) u) maxSize maxTime TFlush st
  | _ => (st, Ok tt)
  end.
(** the calls in order; what the last one returned *)
Definition trajDo (log : list (@MRun.call sim)) : (@latTraj Z * Z) * outcome unit := fold_left (fun st c => trajCall c (fst st)) log ((mkLT [] [] [] "", 0), Ok tt).
(** what is in the file *)
Definition fileAfter (log : list (@MRun.call sim)) : string := lt_file (fst (fst (trajDo log))).
(** The answers in MRun.v: the trajectory as above; [others]: the analysis and breaker objects. *)
Definition withTrajectory (others : list (@MRun.call sim) -> MRun.outcome Z) (log : list (@MRun.call sim)) : MRun.outcome Z :=
  match rev log with
  | MRun.CNew :: _ | MRun.CAppend _ _ _ :: _ | MRun.CFlush :: _ => match snd (trajDo log) with Ok _ => MRun.Ok 0 | Raise _ => MRun.Raise (MRun.OtherExn 1) end
  | _ => others log
  end.
End Trajectory.
