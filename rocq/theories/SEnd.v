(** Specification: a history of the chain of SChain.v, and the frames that show it at every d-th step. *)
From Verif Require Export SChain SNoUB STrajFile SPyChain2 MEnd.
Open Scope string_scope.
Open Scope list_scope.
Open Scope Z_scope.

(** the states path 0, path 1, ... at the times time 0, time 1, ...: from each to the next by the next of the events es of the chain, after its waiting time *)
Definition historyPath (L : lattice) (basis : list coord) (names : list string) (prs : list cproc) (path : Z -> pstate) (time : Z -> R) (es : list (Z * Z * R)) : Prop :=
  forall k e v, zget es k = Some (e, v) -> chainHistory L basis names prs (path k) (time k) [(e, v)] (path (k + 1)) (time (k + 1)).
(** the particles that a frame shows: the names at each site are counted *)
Definition namesAt (v : pyval) : list string := match v with VStr t => [t] | VList l => flat_map (fun w => match w with VStr t => [t] | _ => [] end) l | _ => [] end.
Definition shows (names : list string) (y : shown) (s : pstate) : Prop := s = map (fun v => map (fun t => howMany t (namesAt v)) names) (asPython y).
(** the frames of the steps 0, d, 2d, ... up to m *)
Definition everyStep (clock : double -> Z) (names : list string) (path : Z -> pstate) (time : Z -> R) (d m : Z) (frames : list (Z * Z * shown)) : Prop :=
  zlen frames = m / d + 1 /\ forall i, 0 <= i <= m / d -> exists y, zget frames i = Some (clock (DFin (time (i * d))), i * d, y) /\ shows names y (path (i * d)).
(** the sites with coordinates in units that are q times smaller *)
Definition sitesOf (q : Z) (coords : list coord) : list (Z * Z * Z) := map (fun c => (cx c * q, cy c * q, cz c * q)) coords.
(** deviates in their ranges; for n steps there are enough of them: the clock draws again after a zero *)
Definition properDeviates (us : list (deviate * deviate)) (vs : list R) : Prop := Forall (fun u => unitDeviate (fst u) /\ unitDeviate (snd u)) us /\ (forall v, In v vs -> 0 <= v < 1)%R.
Definition nonzero (vs : list R) : list R := filter (fun v => if Req_EM_T v 0 then false else true) vs.
Definition enoughDeviates (n : Z) (us : list (deviate * deviate)) (vs : list R) : Prop := n <= zlen us /\ n <= zlen (nonzero vs).
