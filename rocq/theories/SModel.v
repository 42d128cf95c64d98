(** Specification vocabulary for processes and their bookkeeping. *)
From Verif Require Export MModel SLattice.
Open Scope Z_scope.
Open Scope list_scope.

(** The rate the tables assign to each listed site: the stored custom rate, or the rate constant. *)
Definition prates (p : process) : list Z :=
  if pr_custom p then pr_srates p else map (fun _ => pr_rate p) (pr_sites p).
(** The listed events of a process: site and rate. *)
Definition events (p : process) : list (Z * Z) := combine (pr_sites p) (prates p).

(** Bookkeeping of one process is consistent. *)
Record pInv (p : process) : Prop := {
  pi_nodup : NoDup (pr_sites p);
  pi_mult : pr_mult p = map (fun _ => 1) (pr_sites p);
  pi_rates : length (prates p) = length (pr_sites p);
  pi_total : pr_total p = zsum (map snd (events p)) }.

(** What the bookkeeping operations never change. *)
Definition pstatic (p : process) :=
  (pr_custom p, pr_cache p, pr_number p, pr_range p, pr_rate p, pr_cut2 p, pr_ml p,
   pr_basis p, pr_idmoves p, pr_bucket p, length (pr_aff p)).

(** ** What the model lists *)
(** process number i lists the site x with rate r *)
Definition evt (it : interactions) (i x r : Z) : Prop :=
  exists p, zget (in_procs it) i = Some p /\ In (x, r) (events p).

(** entry of the inverse table of the matcher *)
Definition invAt (inv : list (list bool)) (x i : Z) : option bool := row <- zget inv x ;; zget row i.

(** the bookkeeping invariant: every process is consistent and the inverse table tells what is listed *)
Record Binv (it : interactions) (inv : list (list bool)) : Prop := {
  bi_proc : forall i p, zget (in_procs it) i = Some p -> pInv p;
  bi_inv : forall x i b, invAt inv x i = Some b -> (b = true <-> exists r, evt it i x r);
  bi_has : forall i x r, evt it i x r -> exists b, invAt inv x i = Some b }.

(** key of a task *)
Definition tkey (t : ratetask) : Z * Z := (rt_index t, rt_process t).

(** the stored match list of process i matches the stored match list of site x *)
Definition matchAt (S : Z) (it : interactions) (cf : config) (i x : Z) : Prop :=
  exists p cl, zget (in_procs it) i = Some p /\ zget (cf_mlists cf) x = Some cl /\
    whateverMatch S (pr_ml p) cl = Some true.

(** a table stores value v under key k *)
Definition rtHas (rt : ratetable) (k v : Z) : Prop := exists t, In t (rt_tabs rt) /\ kfind t k = Some v.


(** process i may act on site x: the basis position of x is one of those given for the process *)
Definition pairIn (L : lattice) (it : interactions) (x i : Z) : Prop :=
  exists p, zget (in_procs it) i = Some p /\ In (basisSiteFromIndex L x) (pr_basis p).
Definition usedBy (L : lattice) (it : interactions) (x : Z) : Prop := exists i, pairIn L it x i.

(** all processes are custom rate processes exactly when a rate calculator is used *)
Definition custOK (it : interactions) : Prop :=
  forall i p, zget (in_procs it) i = Some p -> pr_custom p = in_custom it.

(** ** Matching from scratch *)
(** the surroundings of site x, read from the present configuration *)
Definition scratchML (L : lattice) (R : Z) (cf : config) (x : Z) : option (list centry) :=
  configMatchList L cf x (neighbourIndices L x R).
(** process i matches at site x when everything is computed from the present configuration *)
Definition scratchMatch (L : lattice) (it : interactions) (cf : config) (i x : Z) : Prop :=
  exists p cl, zget (in_procs it) i = Some p /\ In (basisSiteFromIndex L x) (pr_basis p) /\
    scratchML L (maxRange it) cf x = Some cl /\ whateverMatch (lt_unit L) (pr_ml p) cl = Some true.

(** ** Input accepted by the model constructor: sizes agree, the two kinds of processes are not mixed,
    nothing was performed yet *)
Record wfInput (ranks : Z) (L : lattice) (cf : config) (it : interactions) : Prop := {
  wi_lat : wf_lattice L;
  wi_ranks : 1 <= ranks;
  wi_coords : zlen (cf_coords cf) = nsites L;
  wi_types : zlen (cf_types cf) = nsites L;
  wi_elements : zlen (cf_elements cf) = nsites L;
  wi_cust : custOK it;
  wi_aff : forall i p a, zget (in_procs it) i = Some p -> In a (pr_aff p) -> a = 0 }.

(** ** Observable state *)
(** process number i lists site x as available *)
Definition listed (md : model) (i x : Z) : Prop := exists r, evt (md_in md) i x r.
(** md is reached from the given input by some history of random numbers *)
Definition reachable (ranks : Z) (hash : list Z -> Z) (L : lattice) (cf : config) (it : interactions) (md : model) : Prop :=
  exists md0 us, mkLatticeModel ranks hash L cf it = Some md0 /\ runSteps md0 us = Some md.

(** ** Geometry and requirements of a process entry, as the user gives them *)
Definition wildEntry (e : pentry) : Prop := zget (pe_match e) 0 = Some 1.
(** two displacements coincide to the tolerance of the code: every component differs by at most 1e-5 *)
Definition closeTo (S : Z) (a b : coord) : Prop :=
  100000 * Z.abs (cx a - cx b) <= S /\ 100000 * Z.abs (cy a - cy b) <= S /\ 100000 * Z.abs (cz a - cz b) <= S.
(** the occupation [have] contains at least the particles [need], type by type *)
Definition contains (have need : bucket) : Prop :=
  zlen have = zlen need /\ forall t n m, zget need t = Some n -> zget have t = Some m -> n <= m.
(** site y of the configuration sits at the position of entry e relative to site x (up to periodic
    images and the tolerance) and holds the required particles *)
Definition suits (L : lattice) (cf : config) (x : Z) (e : pentry) (y : Z) : Prop :=
  exists cx0 cy0 d t, zget (cf_coords cf) x = Some cx0 /\ zget (cf_coords cf) y = Some cy0 /\
    sameDisp L (csub cy0 cx0) d /\ closeTo (lt_unit L) (pe_c e) d /\
    zget (cf_types cf) y = Some t /\ contains t (pe_match e).

(** ** Selection *)
(** the total rate of the events of a process *)
Definition processRate (p : process) : Z := zsum (map snd (events p)).
(** the entries of [rs] cut the interval (0, total] into consecutive pieces of lengths rs; u * total lies in
    the piece of entry i *)
Definition chosen (rs : list Z) (u : deviate) (i : Z) : Prop :=
  zsum (firstn (Z.to_nat i) rs) * dv_den u < dv_num u * zsum rs <= zsum (firstn (Z.to_nat (i + 1)) rs) * dv_den u.

(** ** Implicit wildcards *)
(** an entry that asks for nothing and changes nothing *)
Definition inert (e : pentry) : Prop :=
  wildEntry e /\ (forall t n, zget (pe_upd e) t = Some n -> n = 0) /\ pe_hasmove e = false /\ pe_move e = czero.
(** [l'] is [l] with inert entries put between the entries: entry j of [l] becomes entry [pos j] of [l'] *)
Definition paddedBy (pos : Z -> Z) (l l' : list pentry) : Prop :=
  (forall j e, zget l j = Some e -> zget l' (pos j) = Some e) /\
  (forall j k, 0 <= j < k -> k < zlen l -> pos j < pos k) /\
  (forall k e, zget l' k = Some e -> (exists j, 0 <= j < zlen l /\ pos j = k) \/ inert e).
