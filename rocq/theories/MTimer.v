(** Model of c++/src/simulationtimer.cpp and LatticeModel::propagateTime (c++/src/latticemodel.cpp 70-74), with real numbers for doubles. *)
From Coq Require Export Reals.
From Verif Require Export MModel.
Open Scope Z_scope.
Open Scope list_scope.

(** The values a double can take.  Simplification: finite values are real numbers without rounding, overflow or underflow. *)
Inductive double := DFin (x : R) | DInf | DNegInf | DNan.
(** std::log: log(0) is minus infinity.  Not needed for negative arguments (deviates are not negative). *)
Definition dlog (u : R) : double := if Req_EM_T u 0 then DNegInf else if Rlt_dec u 0 then DNan else DFin (ln u).
Definition dneg (x : double) : double := match x with DFin a => DFin (- a) | DInf => DNegInf | DNegInf => DInf | DNan => DNan end.
(** division by a finite number; division by zero gives an infinity or not-a-number; the sign of a zero divisor is taken as positive *)
Definition ddiv (x : double) (r : R) : double :=
  match x with
  | DFin a => if Req_EM_T r 0 then (if Req_EM_T a 0 then DNan else if Rlt_dec 0 a then DInf else DNegInf) else DFin (a / r)
  | DInf => if Rlt_dec r 0 then DNegInf else DInf
  | DNegInf => if Rlt_dec r 0 then DInf else DNegInf
  | DNan => DNan
  end.
(** time += dt *)
Definition dplus (t x : double) : double :=
  match t, x with
  | DFin a, DFin b => DFin (a + b)
  | DNan, _ => DNan | _, DNan => DNan
  | DInf, DNegInf => DNan | DNegInf, DInf => DNan
  | DInf, _ => DInf | _, DInf => DInf | DNegInf, _ => DNegInf | _, DNegInf => DNegInf
  end.
Definition isinf (x : double) : bool := match x with DInf => true | DNegInf => true | _ => false end.
(** simulationtimer.cpp 28-40.  [us] are the deviates that will be drawn; the remaining ones are returned.  None: the loop used up all of them. *)
Fixpoint propagateTime (rate : R) (t : double) (us : list R) : option (double * list R) :=
  match us with
  | [] => None
  | u :: us' => let dt := ddiv (dneg (dlog u)) rate in if isinf dt then propagateTime rate t us' else Some (dplus t dt, us')
  end.
(** A run with the clock, KMCLatticeModel.py 215-231: each step first advances the time with the total rate, then makes the step.
    Simplification: the deviates of the clock and those of the selection are given separately. *)
Fixpoint timedRun (md : model) (t : double) (us : list (deviate * deviate)) (vs : list R) : option (model * double * list R) :=
  match us with
  | [] => Some (md, t, vs)
  | u :: us' =>
      rate <- totalRate (md_in md) ;;
      r <- propagateTime (IZR rate) t vs ;;
      md' <- singleStep md (fst u) (snd u) ;;
      timedRun md' (fst r) us' (snd r)
  end.
