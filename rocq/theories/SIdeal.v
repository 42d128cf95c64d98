(** Specification: the Markov chain a lattice kinetic Monte Carlo simulation with plain processes is meant to follow, described without the
    program: types at sites, rows of processes, rates.  Everything here can be computed. *)
From Coq Require Import Reals.
From Verif Require Export SPlain SPossible.
Open Scope string_scope.
Open Scope list_scope.
Open Scope Z_scope.

(** a process: its rate constant, the basis point it starts from, and its rows (position, type before, type after) *)
Record iproc := mkIP { ip_rate : Z; ip_basis : Z; ip_rows : list row }.
(** a state: the type at each site *)
Definition state := list string.

Section Chain.
Context (L : lattice) (basis : list coord).

(** Sites are numbered cell by cell, the basis points of a cell one after the other; lt_unit L is the length of a cell. *)
Definition sites : list Z := zrange 0 (nsites L - 1).
Definition place (x : Z) : coord :=
  let b := nth (Z.to_nat (x mod lt_nb L)) basis czero in
  let cell := x / lt_nb L in
  let i := cell / (lt_rb L * lt_rc L) in
  let j := cell / lt_rc L mod lt_rb L in
  let k := cell mod lt_rc L in
  mkC (cx b + i * lt_unit L) (cy b + j * lt_unit L) (cz b + k * lt_unit L).
(** d is nothing, or leads once or more around a periodic axis *)
Definition around (periodic : bool) (repetitions d : Z) : bool :=
  if periodic then d mod (repetitions * lt_unit L) =? 0 else d =? 0.
(** y lies at displacement c from x *)
Definition there (x : Z) (c : coord) (y : Z) : bool :=
  around (lt_pa L) (lt_ra L) (cx (place y) - cx (place x) - cx c) &&
  around (lt_pb L) (lt_rb L) (cy (place y) - cy (place x) - cy c) &&
  around (lt_pc L) (lt_rc L) (cz (place y) - cz (place x) - cz c).

Definition typeIs (s : state) (y : Z) (t : string) : bool := match zget s y with Some t' => String.eqb t' t | None => false end.
Definition wildRow (r : row) : bool := String.eqb (rw_before r) "*".
(** process pr can happen at x *)
Definition enabled (pr : iproc) (x : Z) (s : state) : bool :=
  (x mod lt_nb L =? ip_basis pr) &&
  forallb (fun r => wildRow r || existsb (fun y => there x (rw_c r) y && typeIs s y (rw_before r)) sites) (ip_rows pr).
(** the state after process pr happened at x: the row that lies at a site, if there is one, says what is there now *)
Definition fire (pr : iproc) (x : Z) (s : state) : state :=
  map (fun ys => match find (fun r => negb (wildRow r) && there x (rw_c r) (fst ys)) (ip_rows pr) with Some r => rw_after r | None => snd ys end)
      (combine sites s).
(** the rate of the event "pr at x", of all events of a process, of all events *)
Definition propensity (pr : iproc) (x : Z) (s : state) : Z := if enabled pr x s then ip_rate pr else 0.
Definition processTotal (pr : iproc) (s : state) : Z := zsum (map (fun x => propensity pr x s) sites).
Definition total (prs : list iproc) (s : state) : Z := zsum (map (fun pr => processTotal pr s) prs).

(** one event: process number i happens at x *)
Inductive idealStep (prs : list iproc) (s : state) : Z * Z -> state -> Prop :=
| idealEvent i pr x : zget prs i = Some pr -> In x sites -> 0 < propensity pr x s -> idealStep prs s (i, x) (fire pr x s).
(** events one after the other *)
Inductive idealPath (prs : list iproc) : state -> list (Z * Z) -> state -> Prop :=
| idealNone s : idealPath prs s [] s
| idealMore s e s1 es s2 : idealStep prs s e s1 -> idealPath prs s1 es s2 -> idealPath prs s (e :: es) s2.
(** events with waiting times: -ln v over the total rate of the state that is left, v in (0, 1) *)
Inductive idealHistory (prs : list iproc) : state -> R -> list (Z * Z * R) -> state -> R -> Prop :=
| historyNone s t : idealHistory prs s t [] s t
| historyMore s t e v s1 es s2 t2 : idealStep prs s e s1 -> (0 < v < 1)%R ->
    idealHistory prs s1 (t + - ln v / IZR (total prs s))%R es s2 t2 -> idealHistory prs s t ((e, v) :: es) s2 t2.

(** the weight of the transitions from s to s': the sum of the rates of the events that lead there *)
Definition sameState (s s' : state) : bool := if list_eq_dec string_dec s s' then true else false.
Definition flow (prs : list iproc) (s s' : state) : Z :=
  zsum (map (fun pr => zsum (map (fun x => if sameState (fire pr x s) s' then propensity pr x s else 0) sites)) prs).
End Chain.

(** ** The input of a simulation of this kind *)
(** the configuration shows the state: one name at each site *)
Definition shows (cf : config) (s : state) : Prop := cf_elements cf = map (fun t => [t]) s.
Definition rowsOfProc (prs : list iproc) (i : Z) : list row := match zget prs i with Some pr => ip_rows pr | None => [] end.
(** The rows of every process have been given to the constructor of processes together with its rate and its basis point; they lie on the
    lattice ([placed]), the lattice is periodic and wide enough ([geoInput]). *)
Record chainInput (ranks : Z) (L : lattice) (basis : list coord) (cf : config) (it : interactions) (prs : list iproc) : Prop := {
  ch_user : plainUser ranks L cf it (rowsOfProc prs);
  ch_geo : geoInput L basis (maxRange it) (zlen (cf_ptypes cf)) cf;
  ch_wild : in_wild it = true;
  ch_custom : in_custom it = false;
  ch_some : prs <> [];
  ch_len : zlen prs = zlen (in_procs it);
  ch_proc : forall i pr p, zget prs i = Some pr -> zget (in_procs it) i = Some p ->
     pr_rate p = ip_rate pr /\ pr_basis p = [ip_basis pr] /\ pr_number p = i /\ 0 <= ip_rate pr /\
     placed L basis (pr_custom p) (ip_basis pr) (map rw_c (ip_rows pr)) }.
