(** Specification: a simulation with plain and bucket processes, and possibly a rate calculator, as a Python script sets it up, and the Markov chain of SChain.v which it describes. *)
From Verif Require Export SPyChain SPyRow SChain SRates SCache.
Open Scope string_scope.
Open Scope list_scope.
Open Scope Z_scope.

(** ** The arguments of the constructors *)
Record bucketArgs := mkBA { ba_coordinates : pyval; ba_minimum : pyval; ba_update : pyval; ba_basis : pyval; ba_rate : pyval }.
Inductive anyArgs := PlainArgs (a : procArgs) | BucketArgs (a : bucketArgs).
Record mixedArgs := mkMA { ma_cell : pyval; ma_points : pyval; ma_repetitions : pyval; ma_periodic : pyval;
  ma_types : pyval; ma_default : pyval; ma_possible : pyval; ma_processes : list anyArgs; ma_wildcards : pyval; ma_calculator : option plugin }.
(** KMCProcess(...) or KMCBucketProcess(...) *)
Definition makeProcess (S : Z) (a : anyArgs) : outcome kprocess :=
  match a with
  | PlainArgs p => try q <- KMCProcess S (pa_coordinates p) (pa_before p) (pa_after p) (pa_moves p) (pa_basis p) (pa_rate p) ;; Ok (KPlainP q)
  | BucketArgs b => try q <- KMCBucketProcess S (ba_coordinates b) (ba_minimum b) (ba_update b) (ba_basis b) (ba_rate b) ;; Ok (KBucketP q)
  end.
(** the script: the constructors are called one after the other; the first exception ends it *)
Definition mixedScript (S : Z) (a : mixedArgs) : outcome (klattice * kconf * kinter) :=
  try u <- KMCUnitCell S (ma_cell a) (ma_points a) ;;
  try kl <- KMCLattice S (Some u) (ma_repetitions a) (ma_periodic a) ;;
  try kc <- KMCConfiguration S (kl_lat kl) (ma_types a) (ma_default a) (ma_possible a) ;;
  try ps <- oall (makeProcess S) (ma_processes a) ;;
  try ki <- KMCInteractions (Some (map Some ps)) (ma_wildcards a) (ma_calculator a) ;;
  Ok (kl, kc, ki).

(** ** What they describe *)
(** The arguments describe the process pr of the chain and give it the rate constant k: one basis point, names from the list.  A plain process: its move vectors, if given, start
    at different positions ... *)
Definition describesPlain (names : list string) (a : procArgs) (k : Z) (pr : cproc) : Prop :=
  exists cs before after, readsCoords (pa_coordinates a) cs /\ readsNames (pa_before a) before /\ readsNames (pa_after a) after /\ incl before names /\ incl after names /\
    cp_spec pr = Plain (plainRows cs before after) /\ readsBasis (pa_basis a) [cp_basis pr] /\ readsRate (pa_rate a) k /\
    (pa_moves a = VNone \/ exists mvs, readsMoves (pa_moves a) mvs /\ NoDup (map (fun iv => startOf (zlen cs) (fst iv)) mvs)).
(** ... a bucket process: every position asks for something and wildcards are not changed. *)
Definition describesBucket (names : list string) (a : bucketArgs) (k : Z) (pr : cproc) : Prop :=
  exists cs entries needs changes rows, readsCoords (ba_coordinates a) cs /\ asSeq (ba_minimum a) = Some entries /\ Forall2 (fun v n => entryOf v = Some n) entries needs /\
    readsUpdate (ba_update a) changes /\ zlen needs = zlen cs /\ zlen changes = zlen cs /\ zlen rows = zlen cs /\
    (forall i c n ch c0 r, zget cs 0 = Some c0 -> zget cs i = Some c -> zget needs i = Some n -> zget changes i = Some ch -> zget rows i = Some r -> saysRow c0 c n ch r) /\
    (forall n, In n needs -> (exists s, 0 < STypes.countOf s n) /\ incl (map snd n) names) /\ (forall n, In n changes -> incl (map snd n) names /\ ~ In "*" (map snd n)) /\
    cp_spec pr = Bucket rows /\ readsBasis (ba_basis a) [cp_basis pr] /\ readsRate (ba_rate a) k.
Definition describesAny (names : list string) (a : anyArgs) (kpr : Z * cproc) : Prop :=
  match a with PlainArgs p => describesPlain names p (fst kpr) (snd kpr) | BucketArgs b => describesBucket names b (fst kpr) (snd kpr) end.

(** the particles at the sites: the numbers of each type, as lists of pairs *)
Definition particles := list (list (Z * string)).
Definition present (ns : particles) : list string := concat (map (map snd) ns).
(** the state the chain starts from *)
Definition particleNumbers (names : list string) (ns : particles) : pstate := map (fun n => map (fun t => Z.max 0 (STypes.countOf t n)) names) ns.
(** the types argument is a list of entries ("A", (2,"A"), or a list of such), one for each site, not all of them single names; there is something at every site *)
Definition readsBuckets (L : lattice) (types default : pyval) (ns : particles) : Prop :=
  exists l, types = VList l /\ default = VNone /\ zlen l = nsites L /\ Forall2 (fun v n => entryOf v = Some n) l ns /\ (exists v, In v l /\ forall t, v <> VStr t) /\
    forall n, In n ns -> exists t, 0 < STypes.countOf t n.
Definition oneEachSite (s : state) : particles := map (fun t => [(1, t)]) s.
Definition isPlain (pr : cproc) : Prop := exists rows, cp_spec pr = Plain rows.
Definition isBucket (pr : cproc) : Prop := exists rows, cp_spec pr = Bucket rows.
(** a row of a bucket process that changes something asks for no wildcard and leaves at least one particle of what it asks for *)
Definition leavesSomething (names : list string) (sp : pspec) : Prop :=
  match sp with
  | Plain _ => True
  | Bucket rows => forall r, In r rows -> (exists s, change (br_upd r) s <> 0) ->
      ~ In "*" (br_before r) /\ exists s, In s names /\ 0 < SBucket.howMany s (br_before r) + change (br_upd r) s
  end.

(** ** The rate calculator *)
(** the square of the distance of the furthest position *)
Definition furthest (cs : list coord) : Z := fold_right (fun c m => Z.max (cnorm2 c) m) 0 cs.
(** the square of the distance up to which the calculator sees the surroundings of a process: its cutoff (1.0 if it gives none), but no less than the process reaches *)
Definition sight (S : Z) (g : plugin) (pr : cproc) : Z :=
  let cut := match pg_cutoff g with Some c => c | None => S end in
  if cut <? 0 then furthest (positions (cp_spec pr)) else Z.max (furthest (positions (cp_spec pr))) (cut * cut).
(** rates of process number i are cached *)
Definition caches (g : plugin) (i : Z) : Prop := pg_cache g = true /\ ~ In i (pg_exclude g).
Record answers (S : Z) (hash : list Z -> Z) (g : plugin) (L : lattice) (basis : list coord) (names : list string) (ns : particles) (kprs : list (Z * cproc)) (R : Z)
  (rateS : list coord -> list string -> list string -> Z -> Z -> coord -> Z)
  (rateB : list coord -> list (list (Z * string)) -> list (list (Z * string)) -> Z -> Z -> coord -> Z) : Prop := {
  (** the two rate functions of the user *)
  an_functions : pg_rates g = pyCalculator rateS rateB;
  (** nothing is cached, or different surroundings that come up have different keys (whatever the order of the types) and what is cached follows from the types around alone *)
  an_cache : (forall i kpr, zget kprs i = Some kpr -> ~ caches g i) \/
    ((forall types, Permutation names types -> distinctKeys (comeUp L basis names types (map snd kprs) (particleNumbers names ns) (map (fun kpr => sight S g (snd kpr)) kprs)) hash) /\
     (forall i k pr, zget kprs i = Some (k, pr) -> caches g i -> (forall ds ds' b a y y', rateS ds b a k i y = rateS ds' b a k i y') /\ (forall ds ds' b a y y', rateB ds b a k i y = rateB ds' b a k i y')) /\
     ((forall n, In n ns -> exists t, n = [(1, t)]) \/ forall i k pr, zget kprs i = Some (k, pr) -> caches g i -> isBucket pr));
  (** R is how many whole cells are seen, at least one; the sites within R cells include all that are seen and one that is not *)
  an_reach : (forall k pr, In (k, pr) kprs -> sight S g pr < ((R + 1) * S) * ((R + 1) * S)) /\ (R = 1 \/ exists k pr, In (k, pr) kprs /\ (R * S) * (R * S) <= sight S g pr);
  an_covers : forall k pr, In (k, pr) kprs -> coversCut L basis R (sight S g pr);
  an_beyond : forall k pr, In (k, pr) kprs -> exists v, inReach L basis R (cp_basis pr) v /\ sight S g pr < cnorm2 v;
  (** the rate of the chain is what the functions return for any correct account of the surroundings *)
  an_rates : forall s i k pr x y, comesTo L basis names (map snd kprs) (particleNumbers names ns) s -> zget kprs i = Some (k, pr) ->
     zget (generateLatticeSites L basis) x = Some y -> canHappen L basis names pr x s = true ->
     0 <= cp_rate pr x s /\
     forall ys ds, surroundings L (generateLatticeSites L basis) (sight S g pr) x ys ds ->
       match cp_spec pr with
       | Plain rows => forall before after, describesTypes names s rows ys ds before after -> rateS ds before after k i y = cp_rate pr x s
       | Bucket rows => forall before after, describesNumbers names s rows ys ds before after -> rateB ds before after k i y = cp_rate pr x s
       end }.
(** without a calculator: rate constants, and R cells is how far a process may reach *)
Record constants (S : Z) (kprs : list (Z * cproc)) (R : Z) : Prop := {
  co_rates : forall k pr x s, In (k, pr) kprs -> cp_rate pr x s = k;
  co_reach : 1 <= R /\ forall k pr c, In (k, pr) kprs -> In c (positions (cp_spec pr)) -> Z.abs (cx c) <= R * S /\ Z.abs (cy c) <= R * S /\ Z.abs (cz c) <= R * S }.
Definition isGiven {A} (o : option A) : bool := match o with Some _ => true | None => false end.
Inductive ratesFrom (S : Z) (hash : list Z -> Z) (L : lattice) (basis : list coord) (names : list string) (ns : particles) (kprs : list (Z * cproc)) (R : Z) : option plugin -> Prop :=
| fromConstants : constants S kprs R -> ratesFrom S hash L basis names ns kprs R None
| fromCalculator g rateS rateB : 1 <= R -> answers S hash g L basis names ns kprs R rateS rateB -> ratesFrom S hash L basis names ns kprs R (Some g).

(** ** What the user must observe *)
(** As in SPyChain.v; the names are those of the possible types and "*".  When the types are given by single names, types() shows one name at each site; then there must be no bucket processes. *)
Record mixedPosed (S : Z) (hash : list Z -> Z) (a : mixedArgs) (L : lattice) (basis : list coord) (names : list string) (ns : particles) (kprs : list (Z * cproc)) (R : Z) : Prop := {
  mp_unit : 0 < S < 100000;
  mp_lattice : exists ra rb rc pa pb pc, readsRepetitions (ma_repetitions a) ra rb rc /\ readsPeriodic (ma_periodic a) pa pb pc /\ L = mkLat (zlen basis) ra rb rc pa pb pc S;
  mp_points : readsCoords (ma_points a) basis;
  mp_distinct : NoDup basis;
  mp_types : (exists s, readsTypes L (ma_types a) (ma_default a) s /\ ns = oneEachSite s /\ forall k pr, In (k, pr) kprs -> isPlain pr) \/ readsBuckets L (ma_types a) (ma_default a) ns;
  mp_possible : forall given, ma_possible a = VList (map VStr given) -> NoDup given;
  mp_names : NoDup names /\ forall t, In t names <-> usable (ma_possible a) (present ns) t;
  mp_wild : ma_wildcards a = VNone \/ ma_wildcards a = VBool true;
  mp_processes : Forall2 (describesAny names) (ma_processes a) kprs;
  mp_proper : forall k pr, In (k, pr) kprs -> placed L basis (isGiven (ma_calculator a)) (cp_basis pr) (positions (cp_spec pr)) /\ takesWhatItAsksFor (cp_spec pr) /\ leavesSomething names (cp_spec pr);
  mp_room : uniform L R;
  mp_clean : forall b, 0 <= b < zlen basis -> cleanPts S (inReach L basis R b);
  mp_rates : ratesFrom S hash L basis names ns kprs R (ma_calculator a) }.
