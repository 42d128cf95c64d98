(** Model of c++/src/random.{h,cpp}, and of a run of KMCLatticeModel.py in which the clock and the selection of the events
    draw from this one generator, in the order of the program. *)
From Verif Require Export MTimer.
Open Scope Z_scope.
Open Scope list_scope.

(** random.h 18 *)
Inductive rng := MT | MINSTD | RANLUX24 | RANLUX48 | DEVICE.
Definition isDevice (ty : rng) : bool := match ty with DEVICE => true | _ => false end.

Section Random.
(** The engines of the C++ standard library are not modelled: E is the type of their states, [seeded ty s] the state after .seed(s)
    and [canonical ty] is std::generate_canonical<double,32>.  All of these are arbitrary. *)
Context {E : Type} (seeded : rng -> Z -> E) (canonical : rng -> E -> deviate * E).

(** random.cpp 33-42: the static variables of a process.  [g_device] are the numbers std::random_device will deliver to this process,
    [g_entropy] whether its entropy is not zero. *)
Record generators := mkGen {
  g_type : rng; g_mt : E; g_minstd : E; g_ranlux24 : E; g_ranlux48 : E; g_device : nat -> deviate; g_entropy : bool }.

(** random.cpp 46-70 *)
Definition setRngType (ty : rng) (g : generators) : bool * generators :=
  (if isDevice ty then g_entropy g else true,
   mkGen ty (g_mt g) (g_minstd g) (g_ranlux24 g) (g_ranlux48 g) (g_device g) (g_entropy g)).

(** random.cpp 97-124: the seed is the sum of the given seed and of the time.  Simplification: no overflow of int. *)
Definition seedEngine (seed : Z) (g : generators) : generators :=
  match g_type g with
  | MT => mkGen (g_type g) (seeded MT seed) (g_minstd g) (g_ranlux24 g) (g_ranlux48 g) (g_device g) (g_entropy g)
  | MINSTD => mkGen (g_type g) (g_mt g) (seeded MINSTD seed) (g_ranlux24 g) (g_ranlux48 g) (g_device g) (g_entropy g)
  | RANLUX24 => mkGen (g_type g) (g_mt g) (g_minstd g) (seeded RANLUX24 seed) (g_ranlux48 g) (g_device g) (g_entropy g)
  | RANLUX48 => mkGen (g_type g) (g_mt g) (g_minstd g) (g_ranlux24 g) (seeded RANLUX48 seed) (g_device g) (g_entropy g)
  | DEVICE => g
  end.
(** random.cpp 75-125, for a single process: [now] is what time() gives *)
Definition seedRandom (time_seed : bool) (now seed : Z) (g : generators) : generators :=
  seedEngine (if time_seed then seed + now else seed) g.

(** random.cpp 131-156 *)
Definition randomDouble01 (g : generators) : deviate * generators :=
  match g_type g with
  | MT => let (u, e) := canonical MT (g_mt g) in (u, mkGen (g_type g) e (g_minstd g) (g_ranlux24 g) (g_ranlux48 g) (g_device g) (g_entropy g))
  | MINSTD => let (u, e) := canonical MINSTD (g_minstd g) in (u, mkGen (g_type g) (g_mt g) e (g_ranlux24 g) (g_ranlux48 g) (g_device g) (g_entropy g))
  | RANLUX24 => let (u, e) := canonical RANLUX24 (g_ranlux24 g) in (u, mkGen (g_type g) (g_mt g) (g_minstd g) e (g_ranlux48 g) (g_device g) (g_entropy g))
  | RANLUX48 => let (u, e) := canonical RANLUX48 (g_ranlux48 g) in (u, mkGen (g_type g) (g_mt g) (g_minstd g) (g_ranlux24 g) e (g_device g) (g_entropy g))
  | DEVICE => (g_device g O, mkGen (g_type g) (g_mt g) (g_minstd g) (g_ranlux24 g) (g_ranlux48 g) (fun n => g_device g (S n)) (g_entropy g))
  end.

(** The real number a deviate stands for *)
Definition realOf (u : deviate) : R := (IZR (dv_num u) / IZR (dv_den u))%R.

(** simulationtimer.cpp 28-40: the loop draws until the increment is finite.  [fuel] bounds the number of draws; None when it is used up. *)
Fixpoint propagateDrawn (fuel : nat) (rate : R) (t : double) (g : generators) : option (double * generators) :=
  match fuel with
  | O => None
  | S fuel' =>
      let (u, g') := randomDouble01 g in
      let dt := ddiv (dneg (dlog (realOf u))) rate in
      if isinf dt then propagateDrawn fuel' rate t g' else Some (dplus t dt, g')
  end.

(** KMCLatticeModel.py 211-231: the loop ends when all steps are made, or with an Error when no process is available *)
Inductive ending := AllSteps | NoProcess.
(** KMCLatticeModel.py 209-231 on a single process; latticemodel.cpp 70-99; interactions.cpp 239 and process.cpp 164 draw one number each.
    Output and analysis are left out (they do not draw numbers and do not touch the model: C49). *)
Fixpoint loopDrawn (fuel n : nat) (md : model) (t : double) (g : generators) : option (model * double * generators * ending) :=
  match n with
  | O => Some (md, t, g, AllSteps)
  | S n' =>
      if totalAvailableSites (md_in md) =? 0 then Some (md, t, g, NoProcess)
      else
        rate <- totalRate (md_in md) ;;
        r <- propagateDrawn fuel (IZR rate) t g ;;
        let (u1, g1) := randomDouble01 (snd r) in
        let (u2, g2) := randomDouble01 g1 in
        md' <- singleStep md u1 u2 ;;
        loopDrawn fuel n' md' (fst r) g2
  end.

(** How a run ends: refused before the model is set up (KMCLatticeModel.py 155-156), or after the loop *)
Inductive ran := Unsupported (g : generators) | Ran (md : model) (t : double) (g : generators) (e : ending).
(** The settings of KMCControlParameters that concern the generator *)
Record rngControl := mkRngControl { rc_type : rng; rc_time : bool; rc_seed : Z }.
(** KMCLatticeModel.py 154-231 on a single process.  [start] is the backend model: a new one, or the one of an earlier run. *)
Definition runAlone (fuel n : nat) (c : rngControl) (now : Z) (start : option model) (t : double) (g : generators) : option ran :=
  let (ok, g1) := setRngType (rc_type c) g in
  if ok then
    let g2 := seedRandom (rc_time c) now (rc_seed c) g1 in
    md <- start ;;
    r <- loopDrawn fuel n md t g2 ;;
    let '(md', t', g', e) := r in Some (Ran md' t' g' e)
  else Some (Unsupported g1).
End Random.
Arguments generators : clear implicits.
Arguments ran : clear implicits.
