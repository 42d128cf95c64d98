(** Model of the header and the number formats of the xyz trajectory files: python/src/KMCLib/Utilities/Trajectory/XYZTrajectory.py.  The float 1.0 is the integer U. *)
From Verif Require Export MScript.
Open Scope string_scope.
Open Scope list_scope.
Open Scope Z_scope.

(** %15.10e, for times and coordinates (lines 78-80, 142, 148) *)
Definition fmtXyz (U x : Z) : string := fmtE 15 10 U x.
(** "%15.10e %15.10e %15.10e\n", lines 78-80 *)
Definition xyzVector (U : Z) (v : Z * Z * Z) : string := let '(x, y, z) := v in (fmtXyz U x ++ " " ++ fmtXyz U y ++ " " ++ fmtXyz U z ++ NL)%string.
(** __writeHeader 60-88.  Simplification: the master's file only; the other processes write nothing *)
Definition xyzHeader (U : Z) (a b c : Z * Z * Z) (reps : Z * Z * Z) (periodic : bool * bool * bool) : string :=
  let '(na, nb, nc) := reps in
  let '(pa, pb, pc) := periodic in
  ("KMCLib XYZ FORMAT VERSION 2013.10.15" ++ NL ++ NL ++
   "CELL VECTORS" ++ NL ++
   "a: " ++ xyzVector U a ++ "b: " ++ xyzVector U b ++ "c: " ++ xyzVector U c ++ NL ++
   "REPETITIONS " ++ showZ na ++ " " ++ showZ nb ++ " " ++ showZ nc ++ NL ++ NL ++
   "PERIODICITY " ++ boolText pa ++ " " ++ boolText pb ++ " " ++ boolText pc ++ NL ++ NL)%string.
