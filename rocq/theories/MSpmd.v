(** The same program run by every MPI process: each process has its own copy of the model and of the generators, and the
    processes meet only in the collective calls of c++/src/mpiroutines.{h,cpp}. *)
From Verif Require Export MRandom.
Open Scope Z_scope.
Open Scope list_scope.

(** ** Programs with collective calls *)
(** What a process does from now on: finish with a result, run into undefined behaviour or an uncaught exception, or make a collective call and go on
    with what it returns.  [Join] is joinOverProcesses with its local vector (mpiroutines.h 130-174), [Bcast] is distributeToAll (mpiroutines.cpp 19-39).
    Simplification: joinOverProcesses makes two MPI_Allreduce calls, the model takes them as one call; vectors of int and of double are not told apart. *)
Inductive prog (A : Type) : Type :=
| Ret (a : A)
| Fault
| Join (local : list Z) (k : list Z -> prog A)
| Bcast (v : Z) (k : Z -> prog A).
Arguments Ret {A}. Arguments Fault {A}. Arguments Join {A}. Arguments Bcast {A}.
Fixpoint pbind {A B} (p : prog A) (f : A -> prog B) : prog B :=
  match p with
  | Ret a => f a
  | Fault => Fault
  | Join l k => Join l (fun v => pbind (k v) f)
  | Bcast v k => Bcast v (fun w => pbind (k w) f)
  end.
Definition lift {A} (o : option A) : prog A := match o with Some a => Ret a | None => Fault end.
Notation "'do' x <- m ;; k" := (pbind m (fun x => k)) (at level 100, x name, m at next level, right associativity).

(** ** The processes together *)
(** [together size ps rs]: the processes running ps, one per rank, all finish and rs are their results.  A collective call returns when every
    process has made it: if some processes have finished, or have made another call, there is no result.  The order in which the processes
    work between the calls does not matter, because they have nothing in common. *)
Inductive together {A} (size : Z) : list (prog A) -> list A -> Prop :=
| allDone rs : together size (map Ret rs) rs
| allJoin lks v rs : joinOverProcesses size (map fst lks) = Some v ->
    together size (map (fun lk : list Z * (list Z -> prog A) => snd lk v) lks) rs ->
    together size (map (fun lk : list Z * (list Z -> prog A) => Join (fst lk) (snd lk)) lks) rs
| allBcast vks v rs : zget (map fst vks) 0 = Some v ->
    together size (map (fun vk : Z * (Z -> prog A) => snd vk v) vks) rs ->
    together size (map (fun vk : Z * (Z -> prog A) => Bcast (fst vk) (snd vk)) vks) rs.

(** ** What one rank does *)
Section Rank.
Context (rank : Z).

(** the pattern of matcher.cpp 152-160 and 211-250: split, compute on the local part, join *)
Definition rankMap {A} (size : Z) (f : A -> option Z) (global : list A) : prog (list Z) :=
  do l <- lift (splitOverProcesses size rank global) ;;
  do local <- lift (omap f l) ;;
  Join local Ret.

(** matcher.cpp 202-297: as matchIndicesWithProcesses.  A joined vector that is shorter than the own list of pairs is read past its end. *)
Definition rankMatchIndices (S : Z) (m : matcher) (pairs : list (Z * Z)) (it : interactions) (cf : config)
  : prog (list (Z * Z) * list ratetask * list ratetask) :=
  do types <- rankMap (mt_ranks m) (taskType S m it cf) pairs ;;
  if zlen types <? zlen pairs then Fault
  else lift (ofold (collectTask it cf) (combine pairs types) ([], [], [])).

(** matcher.cpp 96-189: as customRates.  The last loop runs over the joined rates and reads the own keys. *)
Definition rankCustomRates (m : matcher) (it : interactions) (cf : config) (upd add : list ratetask)
  : prog (matcher * list ratetask * list ratetask) :=
  do xa <- lift (omap (lookupTask m it cf) add) ;;
  do xu <- lift (omap (lookupTask m it cf) upd) ;;
  do rates <- rankMap (mt_ranks m)
             (fun x : ratetask * Z * option Z * Z =>
                let '(t, _, _, _) := x in
                p <- zget (in_procs it) (rt_process t) ;;
                updateSingleRate cf (in_rc it) p (rt_index t)) (filter isMiss xa ++ filter isMiss xu) ;;
  if zlen (filter isMiss xa ++ filter isMiss xu) <? zlen rates then Fault
  else
    lift (fa <- fillRates xa rates ;;
          fu <- fillRates xu (snd fa) ;;
          rt <- ofold (storeRate it) (combine (filter isMiss xa ++ filter isMiss xu) rates) (mt_rt m) ;;
          Some (set_rt m rt, fst fu, fst fa)).

(** matcher.cpp 41-198: as calculateMatching *)
Definition rankMatching (L : lattice) (m : matcher) (it : interactions) (cf : config) (indices : list Z)
  : prog (matcher * interactions * config) :=
  do cf' <- lift (ofold (refreshUsed L (in_procs it)) indices cf) ;;
  do tasks <- rankMatchIndices (lt_unit L) m (flat_map (pairsOf L (in_procs it)) indices) it cf' ;;
  let '(rem, upd, add) := tasks in
  do r <- (if in_custom it then rankCustomRates m it cf' upd add else Ret (m, upd, add)) ;;
  let '(m', upd', add') := r in
  lift (mi <- updateProcesses m' rem upd' add' it ;; Some (fst mi, snd mi, cf')).

(** latticemodel.cpp 23-38, 43-65: as mkLatticeModel *)
Definition rankNewModel (ranks : Z) (hash : list Z -> Z) (L : lattice) (cf : config) (it : interactions) : prog model :=
  do cf1 <- lift (initMatchLists L (maxRange it) cf) ;;
  do it1 <- lift (updateProcessMatchLists L cf1 (clearMatching it)) ;;
  do r <- rankMatching L (mkMatcher ranks hash (length (cf_coords cf)) (length (in_procs it))) it1 cf1 (zrange 0 (zlen (cf_elements cf1) - 1)) ;;
  let '(mt, it2, cf2) := r in Ret (mkMD L cf2 (updateProbabilityTable it2) mt).

(** latticemodel.cpp 77-99: as singleStep *)
Definition rankStep (md : model) (u1 u2 : deviate) : prog model :=
  let L := md_lat md in
  do x <- lift (r <- pickProcess (md_in md) u1 ;;
                let (p_idx, it) := r in
                p <- zget (in_procs it) p_idx ;;
                site <- pickSite p u2 ;;
                cp <- performBucketProcess (md_cf md) p site ;;
                let (cf, p') := cp in
                ps <- zset (in_procs it) p_idx p' ;;
                Some (cf, p', set_procs it ps)) ;;
  let '(cf, p', it') := x in
  do r <- rankMatching L (md_mt md) it' cf (supersetNeighbourIndices L (pr_aff p') (maxRange it')) ;;
  let '(mt, it'', cf') := r in
  Ret (mkMD L cf' (updateProbabilityTable it'') mt).

Section Engines.
Context {E : Type} (seeded : rng -> Z -> E) (canonical : rng -> E -> deviate * E).
Local Notation generators := (generators E).
Local Notation randomDouble01 := (randomDouble01 canonical).
(** KMCLatticeModel.py 209-231: as loopDrawn *)
Fixpoint rankLoop (fuel n : nat) (md : model) (t : double) (g : generators) : prog (model * double * generators * ending) :=
  match n with
  | O => Ret (md, t, g, AllSteps)
  | S n' =>
      if totalAvailableSites (md_in md) =? 0 then Ret (md, t, g, NoProcess)
      else
        do r <- lift (rate <- totalRate (md_in md) ;; propagateDrawn canonical fuel (IZR rate) t g) ;;
        let (u1, g1) := randomDouble01 (snd r) in
        let (u2, g2) := randomDouble01 g1 in
        do md' <- rankStep md u1 u2 ;;
        rankLoop fuel n' md' (fst r) g2
  end.
(** random.cpp 75-125: [now] is the time of this process; only the master (rank 0) reads it, and distributes it *)
Definition rankSeed (time_seed : bool) (now seed : Z) (g : generators) : prog generators :=
  if time_seed then Bcast (if rank =? 0 then now else 0) (fun w => Ret (seedEngine seeded (seed + w) g))
  else Ret (seedEngine seeded seed g).
(** KMCLatticeModel.py 154-231: as runAlone; [start] sets up the backend model *)
Definition rankRun (fuel n : nat) (c : rngControl) (now : Z) (start : prog model) (t : double) (g : generators) : prog (ran E) :=
  let (ok, g1) := setRngType (rc_type c) g in
  if ok then
    do g2 <- rankSeed (rc_time c) now (rc_seed c) g1 ;;
    do md <- start ;;
    do r <- rankLoop fuel n md t g2 ;;
    let '(md', t', g', e) := r in Ret (Ran md' t' g' e)
  else Ret (Unsupported g1).
End Engines.
End Rank.
