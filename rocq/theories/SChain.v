(** Specification: the Markov chain of a simulation with plain and bucket processes, described without the program: numbers of particles
    at sites, rows of processes, rates.  Sites and displacements are those of SIdeal.v.  Everything here can be computed. *)
From Coq Require Import Reals.
From Verif Require Export SIdeal SNoUB SRates MCallback.
Open Scope string_scope.
Open Scope list_scope.
Open Scope Z_scope.

(** a plain row as a row of numbers: one particle of the type before is needed, it is replaced by one of the type after *)
Definition numberRow (r : row) : brow :=
  mkBRow (rw_c r) [rw_before r] (if String.eqb (rw_before r) (rw_after r) then [] else [(rw_before r, -1); (rw_after r, 1)]).
Definition numberRows (sp : pspec) : list brow := match sp with Plain rows => map numberRow rows | Bucket rows => rows end.
(** a state: at each site the numbers of particles of the types, in the order of a list of names *)
Definition pstate := list (list Z).
(** a process: its rate (which may depend on the site and the state), the basis point it starts from, and its rows as given *)
Record cproc := mkCP { cp_rate : Z -> pstate -> Z; cp_basis : Z; cp_spec : pspec }.
Definition cp_rows (pr : cproc) : list brow := numberRows (cp_spec pr).

Section Chain.
Context (L : lattice) (basis : list coord) (names : list string).

(** the number of particles of type t at site y *)
Definition numberAt (s : pstate) (y : Z) (t : string) : Z :=
  match zget s y with Some ns => match find (fun tn => String.eqb (fst tn) t) (combine names ns) with Some tn => snd tn | None => 0 end | None => 0 end.
(** a row with one wildcard asks for nothing *)
Definition anyRow (r : brow) : bool := howMany "*" (br_before r) =? 1.
(** process pr can happen at x: where a row lies there is a site with the particles it asks for *)
Definition canHappen (pr : cproc) (x : Z) (s : pstate) : bool :=
  (x mod lt_nb L =? cp_basis pr) &&
  forallb (fun r => anyRow r || existsb (fun y => there L basis x (br_c r) y && forallb (fun t => howMany t (br_before r) <=? numberAt s y t) names) (sites L)) (cp_rows pr).
(** the state after process pr happened at x: the row that lies at a site, if there is one, changes the numbers there *)
Definition happened (pr : cproc) (x : Z) (s : pstate) : pstate :=
  map (fun yn => match find (fun r => negb (anyRow r) && there L basis x (br_c r) (fst yn)) (cp_rows pr) with
                 | Some r => map (fun tn => snd tn + change (br_upd r) (fst tn)) (combine names (snd yn))
                 | None => snd yn
                 end) (combine (sites L) s).
(** the rate of the event "pr at x", of all events of a process, of all events *)
Definition eventRate (pr : cproc) (x : Z) (s : pstate) : Z := if canHappen pr x s then cp_rate pr x s else 0.
Definition ratesOf (pr : cproc) (s : pstate) : Z := zsum (map (fun x => eventRate pr x s) (sites L)).
Definition allRates (prs : list cproc) (s : pstate) : Z := zsum (map (fun pr => ratesOf pr s) prs).

(** one event: process number i happens at x *)
Inductive chainStep (prs : list cproc) (s : pstate) : Z * Z -> pstate -> Prop :=
| chainEvent i pr x : zget prs i = Some pr -> In x (sites L) -> 0 < eventRate pr x s -> chainStep prs s (i, x) (happened pr x s).
(** events with waiting times: -ln v over the total rate of the state that is left, v in (0, 1) *)
Inductive chainHistory (prs : list cproc) : pstate -> R -> list (Z * Z * R) -> pstate -> R -> Prop :=
| chainNone s t : chainHistory prs s t [] s t
| chainMore s t e v s1 es s2 t2 : chainStep prs s e s1 -> (0 < v < 1)%R ->
    chainHistory prs s1 (t + - ln v / IZR (allRates prs s))%R es s2 t2 -> chainHistory prs s t ((e, v) :: es) s2 t2.
(** the rate from s to s': the sum of the rates of the events that lead there *)
Definition sameNumbers (s s' : pstate) : bool := if list_eq_dec (list_eq_dec Z.eq_dec) s s' then true else false.
Definition rateBetween (prs : list cproc) (s s' : pstate) : Z :=
  zsum (map (fun pr => zsum (map (fun x => if sameNumbers (happened pr x s) s' then eventRate pr x s else 0) (sites L))) prs).
End Chain.

(** the numbers of particles that a configuration lists at its sites *)
Definition numbersIn (names : list string) (cf : config) : pstate := map (fun els => map (fun t => howMany t els) names) (cf_elements cf).

(** ** The input of a simulation of this kind *)
Definition specOfProc (prs : list cproc) (i : Z) : pspec := match zget prs i with Some pr => cp_spec pr | None => Plain [] end.
(** no bucket row takes more particles than it asks for *)
Definition takesWhatItAsksFor (sp : pspec) : Prop := match sp with Plain _ => True | Bucket rows => thrifty rows end.
(** The rows of every process have been given to a constructor of processes together with its basis point; they lie on the lattice ([placed]), take no more than they ask
    for and never empty a site; the lattice is periodic and wide enough ([geoInput]); the names are those of the types. *)
Record processesInput (ranks : Z) (L : lattice) (basis : list coord) (names : list string) (cf : config) (it : interactions) (prs : list cproc) : Prop := {
  pc_user : userInput ranks L cf it (specOfProc prs);
  pc_geo : geoInput L basis (maxRange it) (zlen (cf_ptypes cf)) cf;
  pc_wild : in_wild it = true;
  pc_names : NoDup names /\ forall t, In t names <-> exists k, tfind (cf_ptypes cf) t = Some k;
  pc_some : prs <> [];
  pc_len : zlen prs = zlen (in_procs it);
  pc_proc : forall i pr p, zget prs i = Some pr -> zget (in_procs it) i = Some p ->
     pr_basis p = [cp_basis pr] /\ pr_number p = i /\ placed L basis (pr_custom p) (cp_basis pr) (positions (cp_spec pr)) /\
     takesWhatItAsksFor (cp_spec pr) /\ neverEmpties (cf_ptypes cf) (cp_spec pr) }.
(** without a rate calculator: rate constants *)
Record constantRates (it : interactions) (prs : list cproc) : Prop := {
  cr_custom : in_custom it = false;
  cr_rates : forall i pr p, zget prs i = Some pr -> zget (in_procs it) i = Some p -> 0 <= pr_rate p /\ forall x s, cp_rate pr x s = pr_rate p }.

(** ** Custom rates *)
(** the states that events can lead to *)
Inductive comesTo (L : lattice) (basis : list coord) (names : list string) (prs : list cproc) (s0 : pstate) : pstate -> Prop :=
| comesStart : comesTo L basis names prs s0 s0
| comesEvent s i pr x : comesTo L basis names prs s0 s -> zget prs i = Some pr -> In x (sites L) -> canHappen L basis names pr x s = true ->
    comesTo L basis names prs s0 (happened L basis names pr x s).
(** A correct account of what the sites ys, at the displacements ds, hold in state s and after the event with these rows.  For plain processes: one type that is
    present at each site ... *)
Record describesTypes (names : list string) (s : pstate) (rows : list row) (ys : list Z) (ds : list coord) (before after : list string) : Prop := {
  dt_len : zlen before = zlen ys /\ zlen after = zlen ys;
  dt_before : forall j y t, zget ys j = Some y -> zget before j = Some t -> In t names /\ 0 < numberAt names s y t;
  dt_after : forall j d r, zget ds j = Some d -> In r rows -> rw_c r = d -> rw_before r <> rw_after r -> zget after j = Some (rw_after r);
  dt_same : forall j d, zget ds j = Some d -> (forall r, In r rows -> rw_c r = d -> rw_before r = rw_after r) -> zget after j = zget before j }.
(** ... for bucket processes: the numbers of the particles of all types that are present. *)
Definition counts (names : list string) (number : string -> Z) (l : list (Z * string)) : Prop :=
  NoDup (map snd l) /\ forall n t, In (n, t) l <-> t <> "*" /\ In t names /\ 0 < n /\ n = number t.
Record describesNumbers (names : list string) (s : pstate) (rows : list brow) (ys : list Z) (ds : list coord) (before after : list (list (Z * string))) : Prop := {
  dn_len : zlen before = zlen ys /\ zlen after = zlen ys;
  dn_before : forall j y l, zget ys j = Some y -> zget before j = Some l -> counts names (numberAt names s y) l;
  dn_after : forall j y d l r, zget ys j = Some y -> zget ds j = Some d -> zget after j = Some l -> In r rows -> br_c r = d ->
     counts names (fun t => numberAt names s y t + change (br_upd r) t) l;
  dn_same : forall j d, zget ds j = Some d -> (forall r, In r rows -> br_c r <> d) -> zget after j = zget before j }.
(** What identifies the surroundings of x for process number i in state s: the number i, and the numbers of particles at the sites ys around x, in the order of the list of types. *)
Definition identifies (types names : list string) (s : pstate) (i : Z) (ys : list Z) : list Z := i :: flat_map (fun y => map (numberAt names s y) types) ys.
(** those that come up, with the squares of the cutoffs of the processes *)
Inductive comeUp (L : lattice) (basis : list coord) (names types : list string) (prs : list cproc) (s0 : pstate) (cutoffs : list Z) : list Z -> Prop :=
| comesUpAt s i pr cut2 x ys ds : comesTo L basis names prs s0 s -> zget prs i = Some pr -> zget cutoffs i = Some cut2 -> In x (sites L) -> x mod lt_nb L = cp_basis pr ->
    surroundings L (generateLatticeSites L basis) cut2 x ys ds -> comeUp L basis names types prs s0 cutoffs (identifies types names s i ys).
(** With a rate calculator: the rate of process i at x in state s, if it can happen there, is what the function of the user returns for a correct account of the sites around x up to the
    cutoff of the process, whatever the account.  (The functions get positions, types before and after, rate constant, process number, position of x.)  The
    surroundings of the sites must reach beyond the cutoffs ([roomyStart], [coversCut]); answers may be cached if
    [cacheInput], where the keys of the different surroundings that come up must be different. *)
Record calculatorRates (hash : list Z -> Z) (L : lattice) (basis : list coord) (names : list string) (cf : config) (it : interactions) (prs : list cproc)
  (rateS : list coord -> list string -> list string -> Z -> Z -> coord -> Z)
  (rateB : list coord -> list (list (Z * string)) -> list (list (Z * string)) -> Z -> Z -> coord -> Z) : Prop := {
  cc_custom : in_custom it = true;
  cc_calculator : in_rc it = pyCalculator rateS rateB;
  cc_cache : (forall p, In p (in_procs it) -> pr_cache p = false) \/
     cacheInput (comeUp L basis names (cf_names cf) prs (numbersIn names cf) (map pr_cut2 (in_procs it))) hash cf it;
  cc_room : roomyStart L cf it;
  cc_cut : forall p, In p (in_procs it) -> coversCut L basis (maxRange it) (pr_cut2 p);
  cc_rates : forall s i pr p x g, comesTo L basis names prs (numbersIn names cf) s -> zget prs i = Some pr -> zget (in_procs it) i = Some p ->
     zget (generateLatticeSites L basis) x = Some g -> canHappen L basis names pr x s = true ->
     0 <= cp_rate pr x s /\
     forall ys ds, surroundings L (generateLatticeSites L basis) (pr_cut2 p) x ys ds ->
       match cp_spec pr with
       | Plain rows => forall before after, describesTypes names s rows ys ds before after -> rateS ds before after (pr_rate p) i g = cp_rate pr x s
       | Bucket rows => forall before after, describesNumbers names s rows ys ds before after -> rateB ds before after (pr_rate p) i g = cp_rate pr x s
       end }.
(** the rates of the chain are those of the simulation *)
Inductive ratesGiven (hash : list Z -> Z) (L : lattice) (basis : list coord) (names : list string) (cf : config) (it : interactions) (prs : list cproc) : Prop :=
| givenConstant : constantRates it prs -> ratesGiven hash L basis names cf it prs
| givenCalculator rateS rateB : calculatorRates hash L basis names cf it prs rateS rateB -> ratesGiven hash L basis names cf it prs.

(** ** Reading the surroundings *)
(** the representative of v modulo P from -P/2 (included) to P/2 *)
Definition nearest (periodic : bool) (P v : Z) : Z := if periodic then ((2 * v + P) mod (2 * P) - P) / 2 else v.
(** the shortest way from x to y, and the sites not further from x than the cutoff *)
Definition way (L : lattice) (basis : list coord) (x y : Z) : coord :=
  let a := place L basis x in let b := place L basis y in
  mkC (nearest (lt_pa L) (lt_ra L * lt_unit L) (cx b - cx a)) (nearest (lt_pb L) (lt_rb L * lt_unit L) (cy b - cy a)) (nearest (lt_pc L) (lt_rc L * lt_unit L) (cz b - cz a)).
Definition nearSites (L : lattice) (basis : list coord) (cut2 x : Z) : list Z := filter (fun y => cnorm2 (way L basis x y) <=? cut2) (sites L).
(** exactly one particle at every site *)
Definition oneEach (names : list string) (s : pstate) : Prop :=
  forall y ns, zget s y = Some ns -> exists t, In t names /\ numberAt names s y t = 1 /\ forall t', In t' names -> t' <> t -> numberAt names s y t' = 0.
