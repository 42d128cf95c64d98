(** Specification: simulations with and without caching of custom rates. *)
From Verif Require Export SBucket SModel.
Open Scope Z_scope.
Open Scope list_scope.

(** the same process, with the answer "do not cache" *)
Definition uncache (p : process) : process :=
  mkPR (pr_custom p) false (pr_number p) (pr_range p) (pr_rate p) (pr_cut2 p) (pr_sites p) (pr_mult p) (pr_srates p) (pr_inc p) (pr_ml p) (pr_aff p) (pr_basis p)
       (pr_idmoves p) (pr_bucket p) (pr_total p).
(** the same interactions without any caching *)
Definition uncached (it : interactions) : interactions := set_procs it (map uncache (in_procs it)).

(** the rate the calculator gives for p does not depend on positions *)
Definition occupationOnly (rc : ratecalc) (p : process) : Prop :=
  (forall geo geo' before after g g', rc_plain rc geo before after (pr_rate p) (pr_number p) g = rc_plain rc geo' before after (pr_rate p) (pr_number p) g') /\
  (forall geo geo' occ upd names g g', rc_bucket rc geo occ upd names (pr_rate p) (pr_number p) g = rc_bucket rc geo' occ upd names (pr_rate p) (pr_number p) g').
(** the processes carry their positions in the list as numbers (KMCInteractions._backend numbers them so) *)
Definition numbered (it : interactions) : Prop := forall i p, zget (in_procs it) i = Some p -> pr_number p = i.
(** The integers that are hashed for process p at site x (hash.cpp 115-145): its number, and the occupation of every site within its cutoff, nearest first.
    The environments of a state are those of all processes at the sites they belong to. *)
Definition environmentIn (md : model) (d : list Z) : Prop :=
  exists i p x, zget (in_procs (md_in md)) i = Some p /\ 0 <= x < nsites (md_lat md) /\ pairIn (md_lat md) (md_in md) x i /\ hashData (md_cf md) p x = Some d.
(** different environments among D have different keys.  (No function to 64-bit numbers has different keys for all environments: C75_no_perfect_key.) *)
Definition distinctKeys (D : list Z -> Prop) (hash : list Z -> Z) : Prop := forall a b, D a -> D b -> hash a = hash b -> a = b.
(** what caching needs: different keys for the different environments D; the rates of cached processes follow from the occupations alone; where a
    cached process is a plain process (its calculator is told the first name at each site), all sites start with one particle *)
Record cacheInput (D : list Z -> Prop) (hash : list Z -> Z) (cf : config) (it : interactions) : Prop := {
  ca_keys : distinctKeys D hash;
  ca_numbered : numbered it;
  ca_occ : forall p, In p (in_procs it) -> pr_cache p = true -> occupationOnly (in_rc it) p;
  ca_first : (forall e, In e (cf_elements cf) -> exists s, e = [s]) \/ (forall p, In p (in_procs it) -> pr_cache p = true -> pr_bucket p = true) }.

(** a simulation from its start *)
Definition simulate (ranks : Z) (hash : list Z -> Z) (L : lattice) (cf : config) (it : interactions) (us : list (deviate * deviate)) : option model :=
  md0 <- mkLatticeModel ranks hash L cf it ;; runSteps md0 us.
(** the environments that come up on the way *)
Definition comesUp (ranks : Z) (hash : list Z -> Z) (L : lattice) (cf : config) (it : interactions) (us : list (deviate * deviate)) (d : list Z) : Prop :=
  exists before after md, us = before ++ after /\ simulate ranks hash L cf it before = Some md /\ environmentIn md d.
(** the environments of all states that can be reached *)
Definition canComeUp (ranks : Z) (hash : list Z -> Z) (L : lattice) (cf : config) (it : interactions) (d : list Z) : Prop := exists us, comesUp ranks hash L cf it us d.
(** two states show the same: configuration, available events with their rates, cumulated rates *)
Record sameState (a b : model) : Prop := {
  ss_cf : md_cf b = md_cf a;
  ss_evt : forall i x r, evt (md_in b) i x r <-> evt (md_in a) i x r;
  ss_table : in_table (md_in b) = in_table (md_in a) }.
