(** Specification: plain processes and type tables as the user writes them. *)
From Verif Require Export SEvent.
Open Scope string_scope.
Open Scope list_scope.
Open Scope Z_scope.

(** a table of possible types: names and numbers are paired one to one, the numbers are 0, 1, ..., the wildcard is number 0 *)
Definition wfPT (pt : tmap) : Prop :=
  NoDup (map fst pt) /\ Permutation (map snd pt) (zrange 0 (zlen pt - 1)) /\ tfind pt "*" = Some 0.

(** one row of a plain process: a position, the type there before and after, and a move vector if the atom moves *)
Record row := mkRow { rw_c : coord; rw_before : string; rw_after : string; rw_move : option coord }.

(** the occupation with exactly one particle, of type number k *)
Definition unitAt (W k : Z) (t : bucket) : Prop :=
  zlen t = W /\ forall j a, zget t j = Some a -> a = if j =? k then 1 else 0.

(** the stored entry e says what row r says *)
Record entryFor (pt : tmap) (r : row) (e : pentry) : Prop := {
  en_c : pe_c e = rw_c r;
  en_kinds : exists kb ka, tfind pt (rw_before r) = Some kb /\ tfind pt (rw_after r) = Some ka /\
     unitAt (zlen pt) kb (pe_match e) /\ zlen (pe_upd e) = zlen pt /\
     forall j a, zget (pe_upd e) j = Some a -> a = (if j =? ka then 1 else 0) - (if j =? kb then 1 else 0);
  en_move : match rw_move r with Some v => pe_hasmove e = true /\ pe_move e = v | None => pe_hasmove e = false /\ pe_move e = czero end }.

(** the constructor arguments that express the rows *)
Definition movesGiven (rows : list row) (origins : list Z) (vectors : list coord) : Prop :=
  zlen origins = zlen vectors /\ NoDup origins /\ (forall o, In o origins -> 0 <= o < zlen rows) /\
  forall i r v, zget rows i = Some r -> (rw_move r = Some v <-> exists k, zget origins k = Some i /\ zget vectors k = Some v).
(** p was built by the constructor of processes (with or without a rate calculator) from the rows *)
Definition builtPlain (S : Z) (pt : tmap) (rows : list row) (basis : list Z) (p : process) : Prop :=
  exists first second origins vectors rate number,
    mkConfiguration (map rw_c rows) (map (fun r => [rw_before r]) rows) pt = Some first /\
    mkConfiguration (map rw_c rows) (map (fun r => [rw_after r]) rows) pt = Some second /\
    movesGiven rows origins vectors /\
    (mkProcess S first second rate basis origins vectors number = Some p \/
     exists cutoff cache, mkCustomProcess S first second rate basis cutoff origins vectors number cache = Some p).

(** what a user must respect: positions differ, a wildcard before is a wildcard after *)
Definition wfRows (rows : list row) : Prop :=
  NoDup (map rw_c rows) /\ forall r, In r rows -> (rw_before r = "*" <-> rw_after r = "*").
(** the rows whose atoms move, and the places they come from and go to *)
Definition movers (rows : list row) : list (coord * coord) :=
  flat_map (fun r => match rw_move r with Some v => [(rw_c r, cadd (rw_c r) v)] | None => [] end) rows.
Definition movesPermute (rows : list row) : Prop := Permutation (map snd (movers rows)) (map fst (movers rows)).
