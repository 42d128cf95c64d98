(** Specification: the variables that a reader finds after executing a lattice trajectory file. *)
From Verif Require Export SPython SScript STrajectory.
Open Scope string_scope.
Open Scope list_scope.
Open Scope Z_scope.

Section File.
(** Simulation times and coordinates are integers, U of them stand for 1.0; [fl m k] is the float that Python makes of m * 10^k. *)
Context (U : Z) (fl : Z -> Z -> pyval).
(** the float is within half of the sixth decimal of x/U *)
Definition coordinateOf (x : Z) (v : pyval) : Prop := exists m, v = fl m (-6) /\ within 6 U x m (-6).
Definition siteOf (c : Z * Z * Z) (v : pyval) : Prop :=
  exists a b d, v = VList [a; b; d] /\ coordinateOf (fst (fst c)) a /\ coordinateOf (snd (fst c)) b /\ coordinateOf (snd c) d.
(** the float has ten correct decimals after the first digit, and is exact if t/U has no more digits *)
Definition timeOf (t : Z) (v : pyval) : Prop := exists m k, v = fl m k /\ nearTo 10 U t m k /\ (shortDecimal 11 U t -> equalTo U t m k).
(** the names, or for each site the numbers of particles per type *)
Definition typesOf (y : shown) : pyval :=
  match y with
  | SNames l => VList (map VStr l)
  | SBuckets l => VList (map (fun e => VList (map (fun p => VTuple [VInt (fst p); VStr (snd p)]) (totals (map (fun s => (1, s)) e)))) l)
  end.
(** the variables of a file with these sites and frames *)
Definition fileVars (ctime : string) (sites : list (Z * Z * Z)) (frames : list (Z * Z * shown)) (vars : list (string * pyval)) : Prop :=
  exists sv tv, Forall2 siteOf sites sv /\ Forall2 (fun f v => timeOf (fst (fst f)) v) frames tv /\
    vars = [("version", VStr "2013.1.0"); ("creation_time", VStr ctime); ("sites", VList sv); ("times", VList tv);
            ("steps", VList (map (fun f => VInt (snd (fst f))) frames)); ("types", VList (map (fun f => typesOf (snd f)) frames))].
End File.
