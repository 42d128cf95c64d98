(** Specification: when an event is possible, in the terms of the rows the user wrote. *)
From Verif Require Export SBucket.
Open Scope string_scope.
Open Scope list_scope.
Open Scope Z_scope.

(** site y holds at least n particles of type s *)
Definition hasAtLeast (cf : config) (y : Z) (s : string) (n : Z) : Prop :=
  exists k t m, tfind (cf_ptypes cf) s = Some k /\ zget (cf_types cf) y = Some t /\ zget t k = Some m /\ n <= m.
(** the positions of a process *)
Definition positions (sp : pspec) : list coord := match sp with Plain rows => map rw_c rows | Bucket rows => map br_c rows end.
(** the process with these rows can happen at x: at the place of every row (wildcards apart) there is a site with the
    particles the row asks for *)
Definition rowsMatch (L : lattice) (cf : config) (sp : pspec) (x : Z) : Prop :=
  match sp with
  | Plain rows => forall r, In r rows -> rw_before r = "*" \/
      exists y, siteAt L (cf_coords cf) x (rw_c r) y /\ hasAtLeast cf y (rw_before r) 1
  | Bucket rows => forall r, In r rows -> howMany "*" (br_before r) = 1 \/
      exists y, siteAt L (cf_coords cf) x (br_c r) y /\
        forall s, tfind (cf_ptypes cf) s <> None -> hasAtLeast cf y s (howMany s (br_before r))
  end.

(** ** Where the rows of a process may lie *)
(** Component by component: a step of i cells from the basis point at beta to the one at beta'.  The code reads the number
    of cells off the coordinate, rounding 1.7 down to 1 and -1.2 up to 2, but never counts fewer than one; so a component that leads
    i > 1 cells further must be at least i.  With a rate calculator the number of cells is the rounded down distance, and the same is needed of
    components that lead backwards. *)
Definition cellsSeen (custom : bool) (i delta : Z) : Prop := (1 < i -> 0 <= delta) /\ (i < -1 -> custom = true -> delta <= 0).
Definition axisStep (custom p : bool) (rep S i x : Z) (delta : Z) : Prop :=
  x = delta + i * S /\ cellsSeen custom i delta /\ (p = false -> i = 0) /\ window1 p (rep * S) x.
(** c leads from a site on basis point b to another site of the lattice *)
Definition leadsOn (L : lattice) (basis : list coord) (custom : bool) (b : Z) (c : coord) : Prop :=
  exists b' beta beta' i j k, zget basis b = Some beta /\ zget basis b' = Some beta' /\
    axisStep custom (lt_pa L) (lt_ra L) (lt_unit L) i (cx c) (cx beta' - cx beta) /\
    axisStep custom (lt_pb L) (lt_rb L) (lt_unit L) j (cy c) (cy beta' - cy beta) /\
    axisStep custom (lt_pc L) (lt_rc L) (lt_unit L) k (cz c) (cz beta' - cz beta).
Record placed (L : lattice) (basis : list coord) (custom : bool) (b : Z) (cs : list coord) : Prop := {
  pl_first : zget cs 0 = Some czero;
  pl_nodup : NoDup cs;
  pl_leads : forall c, In c cs -> leadsOn L basis custom b c }.
