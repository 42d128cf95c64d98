(** Specification vocabulary for runs: what can be read off the list of calls a run makes. *)
From Verif Require Export MRun.
Open Scope Z_scope.
Open Scope list_scope.

Section Spec.
Context {St : Type}.
Notation call := (@call St).
(** the frames appended to the trajectory: time, step, state *)
Definition frames (l : list call) : list (Z * Z * St) := flat_map (fun c => match c with CAppend t k s => [(t, k, s)] | _ => [] end) l.
(** the calls of registerStep of analysis object k *)
Definition registered (k : Z) (l : list call) : list (Z * Z * St) := flat_map (fun c => match c with CRegister j n t s => if j =? k then [(t, n, s)] else [] | _ => [] end) l.
(** the states after each singleStep *)
Definition states (l : list call) : list St := flat_map (fun c => match c with CSingle s => [s] | _ => [] end) l.
Definition isCleanup (c : call) : Prop := c = CFlush \/ exists k, c = CFinalize k.
Definition isSetup (c : call) : Prop := c = CNew \/ exists k t s, c = CSetup k t s.
(** one step of the backend, and several *)
Definition bstep (B : @backend St) (s : St) : St := fst (bk_single B (fst (bk_propagate B s))).
Fixpoint stepped (B : @backend St) (n : nat) (s : St) : St := match n with O => s | S n' => stepped B n' (bstep B s) end.
Definition stateAt (B : @backend St) (s : St) (k : Z) : St := stepped B (Z.to_nat k) s.
(** the call c was made and got the answer v *)
Definition answered (env : list call -> outcome Z) (l : list call) (c : call) (v : outcome Z) : Prop :=
  exists pre post, l = pre ++ c :: post /\ env (pre ++ [c]) = v.
(** the last call of the log l got the answer "exception e" *)
Definition raised (env : list call -> outcome Z) (l : list call) (e : exn) : Prop := exists pre c, l = pre ++ [c] /\ env l = Raise e.
(** the positive multiples of d up to n *)
Definition multiples (d n : Z) : list Z := filter (fun k => k mod d =? 0) (zrange 1 n).
(** what is shown of the system at step k of a run started in s0: time, step number, state *)
Definition atStep (B : @backend St) (s0 : St) (k : Z) : Z * Z * St := (bk_time B (stateAt B s0 k), k, stateAt B s0 k).
(** breaker k is asked at step m *)
Definition asked (B : @backend St) (s0 : St) (k m : Z) : call := CEvaluate k m (bk_time B (stateAt B s0 m)) (stateAt B s0 m).
(** every breaker k < nB always gives the interval iv k *)
Definition intervals (env : list call -> outcome Z) (nB : Z) (iv : Z -> Z) : Prop := forall pre k, 0 <= k < nB -> env (pre ++ [CInterval k]) = Ok (iv k) /\ 1 <= iv k.
(** the calls due before the loop and after it *)
Definition setups (B : @backend St) (traj : bool) (nA : Z) (s : St) : list call := (if traj then [CNew; CAppend (bk_time B s) 0 s] else []) ++ map (fun k => CSetup k (bk_time B s) s) (zrange 0 (nA - 1)).
Definition flushAndFinalise (traj : bool) (nA : Z) : list call := (if traj then [CFlush] else []) ++ map CFinalize (zrange 0 (nA - 1)).
(** the frames fs are those of a time-based dump with interval dt of the first n steps from s0: the number of frames is the number of elapsed intervals,
    and frame i shows the system as it was when the time start + (i+1)*dt was reached: after step m, with the event m+1 happening at or after that time *)
Definition equidistant (B : @backend St) (s0 : St) (dt n : Z) (fs : list (Z * Z * St)) : Prop :=
  let T j := bk_time B (stateAt B s0 j) in
  zlen fs = (T n - T 0) / dt /\
  forall i t m s, zget fs i = Some (t, m, s) -> 0 <= m < n /\ t = T m /\ s = fst (bk_propagate B (stateAt B s0 m)) /\ T m < T 0 + (i + 1) * dt <= T (m + 1).
End Spec.
