(** Specification vocabulary for the lattice.  Independent of how the code enumerates or wraps:
    a site is a quadruple (i,j,k,b), a displacement is compared modulo the periodic images. *)
From Verif Require Import Base MLattice.
Open Scope Z_scope.

(** What KMCLattice.py accepts: positive repetitions and at least one basis point; the coordinate
    unit is a positive number of subdivisions of a cell. *)
Record wf_lattice (L : lattice) : Prop := {
  wfl_nb : 0 < lt_nb L;
  wfl_ra : 0 < lt_ra L;
  wfl_rb : 0 < lt_rb L;
  wfl_rc : 0 < lt_rc L;
  wfl_unit : 0 < lt_unit L }.

(** (i,j,k) is a cell of the lattice and b one of its basis points *)
Definition isSite (L : lattice) (i j k b : Z) : Prop :=
  0 <= i < lt_ra L /\ 0 <= j < lt_rb L /\ 0 <= k < lt_rc L /\ 0 <= b < lt_nb L.

(** Along one axis, the cells [a] and [b] are at most [R] apart: directly, or through any number of
    periodic images when the axis is periodic. *)
Definition axisNear (periodic : bool) (rep R a b : Z) : Prop :=
  if periodic then exists n, Z.abs (b + n * rep - a) <= R else Z.abs (b - a) <= R.

(** The sites with numbers x and y lie in cells at most R apart along every axis. *)
Definition nearSites (L : lattice) (R x y : Z) : Prop :=
  exists i j k b i' j' k' b',
    isSite L i j k b /\ x = globalIndex L i j k b /\
    isSite L i' j' k' b' /\ y = globalIndex L i' j' k' b' /\
    axisNear (lt_pa L) (lt_ra L) R i i' /\
    axisNear (lt_pb L) (lt_rb L) R j j' /\
    axisNear (lt_pc L) (lt_rc L) R k k'.

(** Two displacements along an axis are the same up to periodic images. *)
Definition sameMod (periodic : bool) (P a b : Z) : Prop :=
  if periodic then exists n, b = a + n * P else b = a.
(** ... in three dimensions, with the periods given by the repetitions of the lattice *)
Definition sameDisp (L : lattice) (a b : coord) : Prop :=
  sameMod (lt_pa L) (lt_ra L * lt_unit L) (cx a) (cx b) /\
  sameMod (lt_pb L) (lt_rb L * lt_unit L) (cy a) (cy b) /\
  sameMod (lt_pc L) (lt_rc L * lt_unit L) (cz a) (cz b).
(** The basis points lie in the unit cell (KMCUnitCell.py 41-43 checks 0 <= b < 1). *)
Definition inUnitCell (L : lattice) (c : coord) : Prop :=
  0 <= cx c < lt_unit L /\ 0 <= cy c < lt_unit L /\ 0 <= cz c < lt_unit L.
Definition wf_basis (L : lattice) (basis : list coord) : Prop :=
  zlen basis = lt_nb L /\ Forall (inUnitCell L) basis /\ NoDup basis.
