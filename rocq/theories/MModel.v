(** Model of c++/src/latticemodel.{h,cpp}. *)
From Verif Require Export MMatcher.
Open Scope Z_scope.
Open Scope list_scope.

(** latticemodel.h members (the simulation timer is modelled in MTimer.v) *)
Record model := mkMD {
  md_lat : lattice; md_cf : config; md_in : interactions; md_mt : matcher }.

(** latticemodel.cpp 43-65 *)
Definition calculateInitialMatching (md : model) : option model :=
  let L := md_lat md in
  cf <- initMatchLists L (maxRange (md_in md)) (md_cf md) ;;
  let it := clearMatching (md_in md) in
  it' <- updateProcessMatchLists L cf it ;;
  r <- calculateMatching L (md_mt md) it' cf (zrange 0 (zlen (cf_elements cf) - 1)) ;;
  let '(mt, it'', cf') := r in
  Some (mkMD L cf' it'' mt).

(** latticemodel.cpp 23-38 *)
Definition mkLatticeModel (ranks : Z) (hash : list Z -> Z) (L : lattice) (cf : config) (it : interactions)
  : option model :=
  md <- calculateInitialMatching
          (mkMD L cf it (mkMatcher ranks hash (length (cf_coords cf)) (length (in_procs it)))) ;;
  Some (mkMD (md_lat md) (md_cf md) (updateProbabilityTable (md_in md)) (md_mt md)).

(** latticemodel.cpp 77-99; [u1] selects the process, [u2] the site *)
Definition singleStep (md : model) (u1 u2 : deviate) : option model :=
  let L := md_lat md in
  r <- pickProcess (md_in md) u1 ;;
  let (p_idx, it) := r in
  p <- zget (in_procs it) p_idx ;;
  site <- pickSite p u2 ;;
  cp <- performBucketProcess (md_cf md) p site ;;
  let (cf, p') := cp in
  ps <- zset (in_procs it) p_idx p' ;;
  let it' := set_procs it ps in
  let indices := supersetNeighbourIndices L (pr_aff p') (maxRange it') in
  r <- calculateMatching L (md_mt md) it' cf indices ;;
  let '(mt, it'', cf') := r in
  Some (mkMD L cf' (updateProbabilityTable it'') mt).

(** A history: the pairs of deviates drawn in successive steps. *)
Definition runSteps (md : model) (us : list (deviate * deviate)) : option model :=
  ofold (fun md u => singleStep md (fst u) (snd u)) us md.
