(** Model of KMCLatticeModel.run: python/src/KMCLib/CoreComponents/KMCLatticeModel.py 90-286. *)
From Verif Require Export Base.
Open Scope Z_scope.
Open Scope list_scope.

(** Python exceptions: KMCLib's own Error (python/src/KMCLib/Exceptions/Error.py), ZeroDivisionError, anything else. *)
Inductive exn := KmcError | ZeroDivision | OtherExn (n : Z).
Inductive outcome (A : Type) := Ok (a : A) | Raise (e : exn).
Arguments Ok {A}. Arguments Raise {A}.

(** The Python operator % on integers. *)
Definition pymod (a b : Z) : outcome Z := if b =? 0 then Raise ZeroDivision else Ok (a mod b).

(** The accepted control parameters: KMCControlParameters.py 19-112 (the constructor is modelled in MControl.v).
    Simplification: simulation times are integers (a multiple of some unit of time), so their arithmetic is exact. *)
Record control := mkControl { ct_steps : Z; ct_dump : option Z; ct_analyse : Z; ct_dtime : option Z }.

Section Run.
Context {St : Type}.
(** The C++ backend as seen by the loop: interactions().totalAvailableSites(), the timer's simulationTime(), propagateTime(), singleStep()
    (c++/src/latticemodel.cpp 44-95).  The state includes the random number generator.  Each may throw. *)
Record backend := mkBackend { bk_avail : St -> Z; bk_time : St -> Z; bk_propagate : St -> St * outcome unit; bk_single : St -> St * outcome unit }.

(** What the loop does to the world outside, with the arguments it passes.  [CSingle s]: singleStep was called and left the backend in s. *)
Inductive call :=
| CNew | CAppend (time step : Z) (s : St) | CFlush
| CPropagate | CSingle (s : St)
| CSetup (k time : Z) (s : St) | CRegister (k step time : Z) (s : St) | CFinalize (k : Z)
| CInterval (k : Z) | CEvaluate (k step time : Z) (s : St).
(** The answers of trajectory, analysis and breaker objects: an arbitrary function of everything that happened so far, the call itself last.
    An answer can be an exception.  Truth values are 0 and everything else.
    Simplification: these objects do not modify the backend. *)
Context (B : backend) (env : list call -> outcome Z).
Record world := mkWorld { w_st : St; w_log : list call }.
Definition M (A : Type) := world -> world * outcome A.
Definition ret {A} (a : A) : M A := fun w => (w, Ok a).
Definition throw {A} (e : exn) : M A := fun w => (w, Raise e).
Definition bind {A C} (m : M A) (f : A -> M C) : M C := fun w => match m w with (w1, Ok a) => f a w1 | (w1, Raise e) => (w1, Raise e) end.
Definition lift {A} (o : outcome A) : M A := fun w => (w, o).
Definition ask (c : call) : M Z := fun w => let log := w_log w ++ [c] in (mkWorld (w_st w) log, env log).
Definition get : M St := fun w => (w, Ok (w_st w)).
(** cpp_model.propagateTime() and cpp_model.singleStep() *)
Definition propagate : M unit := fun w => let (s, o) := bk_propagate B (w_st w) in (mkWorld s (w_log w ++ [CPropagate]), o).
Definition single : M unit := fun w => let (s, o) := bk_single B (w_st w) in (mkWorld s (w_log w ++ [CSingle s]), o).
Notation "'do' x <- m ;; k" := (bind m (fun x => k)) (at level 100, x name, m at next level, right associativity).
Notation "m ;;; k" := (bind m (fun _ => k)) (at level 100, right associativity).

(** for ap in analysis: f(ap) *)
Fixpoint each (f : Z -> M unit) (ks : list Z) : M unit :=
  match ks with [] => ret tt | k :: ks' => f k ;;; each f ks' end.
(** Lines 262-272: evaluate the breakers whose interval divides the step, stop at the first that says yes. *)
Fixpoint breakers (step now : Z) (ks : list Z) : M bool :=
  match ks with
  | [] => ret false
  | k :: ks' =>
      do iv <- ask (CInterval k) ;;
      do m <- lift (pymod step iv) ;;
      if m =? 0 then
        do s <- get ;;
        do b <- ask (CEvaluate k step now s) ;;
        if b =? 0 then breakers step now ks' else ret true
      else breakers step now ks'
  end.

(** One pass of the loop, lines 212-276: returns whether to break, and the new (time_step, last_time). *)
Definition iteration (ct : control) (traj : bool) (nA nB step time_step last : Z) : M (bool * Z * Z) :=
  do s0 <- get ;;
  if bk_avail B s0 =? 0 then throw KmcError else
  let before := bk_time B s0 in
  propagate ;;;
  do s1 <- get ;;
  let after := bk_time B s1 in
  do tl <- (match ct_dtime ct with
            | Some dt =>
                if dt <=? after - last then
                  (if traj then ask (CAppend before (step - 1) s1) ;;; ret tt else ret tt) ;;;
                  ret (time_step + 1, (time_step + 1) * dt)
                else ret (time_step, last)
            | None => ret (time_step, last)
            end) ;;
  single ;;;
  do s2 <- get ;;
  let now := bk_time B s2 in
  do last2 <- (match ct_dtime ct with
               | Some _ => ret (snd tl)
               | None =>
                   do m <- lift (match ct_dump ct with Some n => pymod step n | None => Raise (OtherExn 0) end) ;;
                   if m =? 0 then (if traj then ask (CAppend now step s2) ;;; ret now else ret now) else ret (snd tl)
               end) ;;
  do m <- lift (pymod step (ct_analyse ct)) ;;
  (if m =? 0 then each (fun k => ask (CRegister k step now s2) ;;; ret tt) (zrange 0 (nA - 1)) else ret tt) ;;;
  do b <- breakers step now (zrange 0 (nB - 1)) ;;
  ret (b, fst tl, last2).
(** Lines 208-276: the loop; [fuel] is the number of steps left. *)
Fixpoint loop (ct : control) (traj : bool) (nA nB : Z) (fuel : nat) (step time_step last : Z) : M unit :=
  match fuel with
  | O => ret tt
  | S fuel' =>
      do r <- iteration ct traj nA nB (step + 1) time_step last ;;
      match r with (b, ts, l) => if b then ret tt else loop ct traj nA nB fuel' (step + 1) ts l end
  end.
(** Lines 278-286: finally. *)
Definition cleanup (traj : bool) (nA : Z) : M unit :=
  (if traj then ask CFlush ;;; ret tt else ret tt) ;;;
  each (fun k => ask (CFinalize k) ;;; ret tt) (zrange 0 (nA - 1)).
Definition tryFinally (body fin : M unit) : M unit := fun w =>
  let (w1, o1) := body w in
  match fin w1 with (w2, Ok _) => (w2, o1) | (w2, Raise e) => (w2, Raise e) end.
(** Lines 169-198: everything before the loop. *)
Definition prologue (traj : bool) (nA : Z) : M unit :=
  do s <- get ;;
  if bk_avail B s =? 0 then throw KmcError else
  (if traj then ask CNew ;;; ask (CAppend (bk_time B s) 0 s) ;;; ret tt else ret tt) ;;;
  each (fun k => ask (CSetup k (bk_time B s) s) ;;; ret tt) (zrange 0 (nA - 1)).
(** The run, lines 169-286; [traj]: a trajectory file name was given; nA, nB: the numbers of analysis and breaker objects. *)
Definition run (ct : control) (traj : bool) (nA nB : Z) : M unit :=
  do s <- get ;;
  prologue traj nA ;;;
  tryFinally (loop ct traj nA nB (Z.to_nat (ct_steps ct)) 0 0 (bk_time B s)) (cleanup traj nA).
End Run.
