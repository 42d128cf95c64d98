(** Specification: a simulation with plain processes as a Python script sets it up, and the Markov chain of SIdeal.v which it describes. *)
From Verif Require Export SPyLattice SIdeal STypes.
Open Scope string_scope.
Open Scope list_scope.
Open Scope Z_scope.

(** the arguments of the constructors *)
Record procArgs := mkPA { pa_coordinates : pyval; pa_before : pyval; pa_after : pyval; pa_moves : pyval; pa_basis : pyval; pa_rate : pyval }.
Record simArgs := mkSA { sa_cell : pyval; sa_points : pyval; sa_repetitions : pyval; sa_periodic : pyval;
  sa_types : pyval; sa_default : pyval; sa_possible : pyval; sa_processes : list procArgs; sa_wildcards : pyval }.
(** the script: the constructors are called one after the other; the first exception ends it *)
Definition script (S : Z) (a : simArgs) : outcome (klattice * kconf * kinter) :=
  try u <- KMCUnitCell S (sa_cell a) (sa_points a) ;;
  try kl <- KMCLattice S (Some u) (sa_repetitions a) (sa_periodic a) ;;
  try kc <- KMCConfiguration S (kl_lat kl) (sa_types a) (sa_default a) (sa_possible a) ;;
  try ps <- oall (fun p => KMCProcess S (pa_coordinates p) (pa_before p) (pa_after p) (pa_moves p) (pa_basis p) (pa_rate p)) (sa_processes a) ;;
  try ki <- KMCInteractions (Some (map (fun p => Some (KPlainP p)) ps)) (sa_wildcards a) None ;;
  Ok (kl, kc, ki).

(** the rows of a process: positions relative to the first one, types before and after *)
Definition plainRows (cs : list coord) (before after : list string) : list row := rowsOf cs before after [].
(** the arguments describe the process pr of the chain: one basis point; move vectors, if given, start at different positions *)
Definition describes (a : procArgs) (pr : iproc) : Prop :=
  exists cs before after, readsCoords (pa_coordinates a) cs /\ readsNames (pa_before a) before /\ readsNames (pa_after a) after /\
    ip_rows pr = plainRows cs before after /\ readsBasis (pa_basis a) [ip_basis pr] /\ readsRate (pa_rate a) (ip_rate pr) /\
    (pa_moves a = VNone \/ exists mvs, readsMoves (pa_moves a) mvs /\ NoDup (map (fun iv => startOf (zlen cs) (fst iv)) mvs)).
(** the types argument gives the type s_x to site x: a list of one name for each site, or a list of entries (i,j,k,basis point,name) and a default *)
Definition readsTypes (L : lattice) (types default : pyval) (s : state) : Prop :=
  zlen s = nsites L /\
  ((types = VList (map VStr s) /\ default = VNone) \/
   exists l es d, types = VList l /\ l <> [] /\ default = VStr d /\ omap longOf l = Some es /\ (forall i j k m t, In (i, j, k, m, t) es -> isSite L i j k m) /\
     forall i j k m, isSite L i j k m -> zget s (globalIndex L i j k m) = Some (lastNamed es i j k m d)).
(** t can be used in a process: a wildcard or one of the possible types *)
Definition usable (possible : pyval) (s : state) (t : string) : Prop := t = "*" \/ In t (possibleNames possible s).

(** What the user must observe.  R cells is how far a process may reach; along a periodic axis there must be 2 R + 1 cells, an open axis must have one;
    distances within that reach must not come closer to each other than 1e-5 without being equal; every process lies on the lattice ([placed]). *)
Record wellPosed (S : Z) (a : simArgs) (L : lattice) (basis : list coord) (s : state) (prs : list iproc) (R : Z) : Prop := {
  wp_unit : 0 < S < 100000;
  wp_lattice : exists ra rb rc pa pb pc, readsRepetitions (sa_repetitions a) ra rb rc /\ readsPeriodic (sa_periodic a) pa pb pc /\ L = mkLat (zlen basis) ra rb rc pa pb pc S;
  wp_points : readsCoords (sa_points a) basis;
  wp_distinct : NoDup basis;
  wp_types : readsTypes L (sa_types a) (sa_default a) s;
  wp_possible : forall names, sa_possible a = VList (map VStr names) -> NoDup names;
  wp_wild : sa_wildcards a = VNone \/ sa_wildcards a = VBool true;
  wp_processes : Forall2 describes (sa_processes a) prs;
  wp_usable : forall pr r, In pr prs -> In r (ip_rows pr) -> usable (sa_possible a) s (rw_before r) /\ usable (sa_possible a) s (rw_after r);
  wp_placed : forall pr, In pr prs -> placed L basis false (ip_basis pr) (map rw_c (ip_rows pr));
  wp_reach : 1 <= R /\ forall pr r, In pr prs -> In r (ip_rows pr) -> Z.abs (cx (rw_c r)) <= R * S /\ Z.abs (cy (rw_c r)) <= R * S /\ Z.abs (cz (rw_c r)) <= R * S;
  wp_room : uniform L R;
  wp_clean : forall b, 0 <= b < zlen basis -> cleanPts S (inReach L basis R b) }.
