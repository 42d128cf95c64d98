(** Model of the arguments of KMCLatticeModel.run and of what the call does before the analysis objects are set up:
    python/src/KMCLib/CoreComponents/KMCLatticeModel.py 90-190; CheckUtilities.checkSequenceOf 172-197. *)
From Verif Require Export MControl MRepeat.
Open Scope string_scope.
Open Scope list_scope.
Open Scope Z_scope.

(** The objects that are neither numbers, strings nor sequences: whether object n is an instance of KMCControlParameters (with the values it stores), of KMCAnalysisPlugin
    and of KMCBreakerPlugin (a class of the user may inherit from both) *)
Record pyobject := mkObject { ob_control : option params; ob_analysis : bool; ob_breaker : bool }.
(** The five arguments, lines 90-95; None when not given *)
Record runArgs := mkRunArgs { ra_control : pyval; ra_file : pyval; ra_type : pyval; ra_analysis : pyval; ra_breakers : pyval }.
Inductive trajKind := LatticeKind | XyzKind.
(** How the call goes until line 190: an Error from the checks of the arguments (113-152), of the generator (156), because nothing can happen (172), of the type of the
    trajectory (184), or the run begins: with a trajectory file, the objects for analysis and the breakers *)
Inductive started := RefusedArgs | RefusedRng | RefusedNothing | RefusedKind
  | Started (p : params) (file : option (trajKind * string)) (analysis breakers : list pyval).

(** KMCControlParameters.py 113-132: the constants of the backend by their names *)
Definition rngNamed (s : string) : rng :=
  if String.eqb s "MINSTD" then MINSTD else if String.eqb s "RANLUX24" then RANLUX24 else if String.eqb s "RANLUX48" then RANLUX48 else if String.eqb s "DEVICE" then DEVICE else MT.
(** CheckUtilities.py 172-197, with any class *)
Definition checkSequenceOf (cls : pyval -> bool) (v : pyval) : outcome (list pyval) :=
  match asSeq v with
  | None => Raise KmcError
  | Some [] => Raise KmcError
  | Some l => if forallb cls l then Ok l else Raise KmcError
  end.
(** KMCLatticeModel.py 138-152 *)
Definition checkObjects (cls : pyval -> bool) (v : pyval) : outcome (list pyval) := match v with VNone => Ok [] | _ => checkSequenceOf cls v end.
(** 120-131: None: no trajectory is used *)
Definition checkFilename (v : pyval) : outcome (option string) := match v with VNone => Ok None | VStr s => Ok (Some s) | _ => Raise KmcError end.
(** 133-136 *)
Definition checkTrajType (v : pyval) : outcome string := match v with VNone => Ok "lattice" | VStr s => Ok s | _ => Raise KmcError end.

Section Args.
Context (objects : Z -> pyobject).
(** isinstance *)
Definition asControl (v : pyval) : option params := match v with VOther n => ob_control (objects n) | _ => None end.
Definition isAnalysis (v : pyval) : bool := match v with VOther n => ob_analysis (objects n) | _ => false end.
Definition isBreaker (v : pyval) : bool := match v with VOther n => ob_breaker (objects n) | _ => false end.
(** KMCLatticeModel.py 113-152 *)
Definition checkRunArgs (a : runArgs) : outcome (params * option string * string * list pyval * list pyval) :=
  match asControl (ra_control a) with
  | None => Raise KmcError
  | Some p =>
      try file <- checkFilename (ra_file a) ;;
      try ty <- checkTrajType (ra_type a) ;;
      try an <- checkObjects isAnalysis (ra_analysis a) ;;
      try br <- checkObjects isBreaker (ra_breakers a) ;;
      Ok (p, file, ty, an, br)
  end.
(** 174-184: which trajectory is made (the outer None: the Error of line 184) *)
Definition trajectoryOf (file : option string) (ty : string) : option (option (trajKind * string)) :=
  match file with
  | None => Some None
  | Some f => if String.eqb ty "lattice" then Some (Some (LatticeKind, f)) else if String.eqb ty "xyz" then Some (Some (XyzKind, f)) else None
  end.

Context {E : Type} (seeded : rng -> Z -> E).
(** 113-184.  The model, and the generators of the process, before and after; [now] is what time() gives.  Simplification: all Errors have one class and their texts and the
    warning of lines 122-124 are left out; the outer None: the construction of the backend fails. *)
Definition runStart (now : Z) (a : runArgs) (km : kmcModel) (g : generators E) : option (started * kmcModel * generators E) :=
  match checkRunArgs a with
  | Raise _ => Some (RefusedArgs, km, g)
  | Ok (p, file, ty, an, br) =>
      let (ok, g1) := setRngType (rngNamed (p_rng p)) g in
      if ok then
        let g2 := seedRandom seeded (p_timeSeed p) now (p_seed p) g1 in
        match kmcBackend km with
        | None => None
        | Some (md, t) =>
            let km' := mkKmcModel (km_make km) (Some (md, t)) in
            if totalAvailableSites (md_in md) =? 0 then Some (RefusedNothing, km', g2)
            else match trajectoryOf file ty with
                 | None => Some (RefusedKind, km', g2)
                 | Some tr => Some (Started p tr an br, km', g2)
                 end
        end
      else Some (RefusedRng, km, g1)
  end.
End Args.
