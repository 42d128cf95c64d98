(** Model of c++/src/latticemap.{h,cpp} and of the site numbering of
    python/src/KMCLib/CoreComponents/KMCLattice.py.
    Coordinates are fixed point numbers: integers counting 1/S cells (see DESIGN.md). *)
From Verif Require Import Base.

(** c++/src/coordinate.h: a coordinate with x, y, z, here in units of 1/S. *)
Record coord := mkC { cx : Z; cy : Z; cz : Z }.

(** coordinate.h operator+, operator- *)
Definition cadd (a b : coord) : coord := mkC (cx a + cx b) (cy a + cy b) (cz a + cz b).
Definition csub (a b : coord) : coord := mkC (cx a - cx b) (cy a - cy b) (cz a - cz b).
Definition czero : coord := mkC 0 0 0.
(** coordinate.h: distanceToOrigin (346), norm (183): kept squared. *)
Definition cnorm2 (a : coord) : Z := cx a * cx a + cy a * cy a + cz a * cz a.

(** latticemap.h 150-157: members of LatticeMap, with the coordinate scale S. *)
Record lattice := mkLat {
  lt_nb : Z; lt_ra : Z; lt_rb : Z; lt_rc : Z;
  lt_pa : bool; lt_pb : bool; lt_pc : bool;
  lt_unit : Z }.

(** Number of sites: python KMCLattice.py 109-130 generates one site per (i,j,k,b). *)
Definition nsites (L : lattice) : Z := lt_ra L * lt_rb L * lt_rc L * lt_nb L.

(** latticemap.cpp 193-208 *)
Definition cellBase (L : lattice) (i j k : Z) : Z :=
  ((i * lt_rb L + j) * lt_rc L + k) * lt_nb L.
Definition indicesFromCell (L : lattice) (i j k : Z) : list Z :=
  map (fun l => cellBase L i j k + l) (zrange 0 (lt_nb L - 1)).

(** latticemap.cpp 276-302.  The code computes (int)((idx - 1.0e-9)/factor) in double
    precision; here the same expression in exact rational arithmetic
    (numerator and denominator multiplied by 10^9).  The effect of rounding is the subject of MFloat.v. *)
Definition truncEps (num den : Z) : Z := Z.quot (1000000000 * num - 1) (1000000000 * den).
Definition indexToCell (L : lattice) (index : Z) : Z * Z * Z :=
  let idx := Z.quot index (lt_nb L) + 1 in
  let factor_i := lt_rb L * lt_rc L in
  let ii := truncEps idx factor_i in
  let ci := ii * factor_i in
  let factor_j := lt_rc L in
  let idx_j := idx - ci in
  let jj := truncEps idx_j factor_j in
  let cij := ci + jj * factor_j in
  let idx_k := idx - cij in
  let kk := truncEps idx_k 1 in
  (ii, jj, kk).

(** latticemap.h 97: index % n_basis *)
Definition basisSiteFromIndex (L : lattice) (index : Z) : Z := Z.rem index (lt_nb L).

(** latticemap.cpp 77-89 (and 95-107, 113-125): wrap a cell number once. *)
Definition wrapCell (periodic : bool) (rep i : Z) : Z :=
  if periodic then
    if i <? 0 then i + rep else if rep <=? i then i - rep else i
  else i.
(** latticemap.cpp 91, 109, 128 *)
Definition inCell (rep i : Z) : bool := (0 <=? i) && (i <? rep).

(** latticemap.cpp 54-151; the preallocated buffer of (2s+1)^3 n entries is always large enough,
    it is modelled by appending. *)
Definition axisCells (periodic : bool) (rep c shells : Z) : list Z :=
  filter (inCell rep) (map (wrapCell periodic rep) (zrange (c - shells) (c + shells))).
Definition neighbourIndices (L : lattice) (index shells : Z) : list Z :=
  let '(ci, cj, ck) := indexToCell L index in
  flat_map (fun ii =>
    flat_map (fun jj =>
      flat_map (fun kk => indicesFromCell L ii jj kk)
        (axisCells (lt_pc L) (lt_rc L) ck shells))
      (axisCells (lt_pb L) (lt_rb L) cj shells))
    (axisCells (lt_pa L) (lt_ra L) ci shells).

(** latticemap.cpp 156-188 *)
Definition supersetNeighbourIndices (L : lattice) (indices : list Z) (shells : Z) : list Z :=
  zuniq (isort Z.ltb (flat_map (fun index => neighbourIndices L index shells) indices)).

(** latticemap.cpp 213-271 (only used by unit tests of the repository) *)
Definition indexFromMoveInfo (L : lattice) (index i j k basis : Z) : option Z :=
  let '(ci, cj, ck) := indexToCell L index in
  zget (indicesFromCell L (wrapCell (lt_pa L) (lt_ra L) (ci + i))
                          (wrapCell (lt_pb L) (lt_rb L) (cj + j))
                          (wrapCell (lt_pc L) (lt_rc L) (ck + k)))
       (basis + basisSiteFromIndex L index).

(** latticemap.h 184-195, one direction; half_cell = rep/2 compared exactly:
    c >= rep/2  iff  2 c >= rep S in units of 1/S. *)
Definition wrap1 (S rep c : Z) : Z :=
  if rep * S <=? 2 * c then c - rep * S
  else if 2 * c <? - (rep * S) then c + rep * S
  else c.
(** latticemap.h 165-180 *)
Definition wrapCoord (L : lattice) (c : coord) : coord :=
  mkC (if lt_pa L then wrap1 (lt_unit L) (lt_ra L) (cx c) else cx c)
      (if lt_pb L then wrap1 (lt_unit L) (lt_rb L) (cy c) else cy c)
      (if lt_pc L then wrap1 (lt_unit L) (lt_rc L) (cz c) else cz c).

(** KMCLattice.py 109-130: the generated sites, basis points in units of 1/S. *)
Definition generateLatticeSites (L : lattice) (basis : list coord) : list coord :=
  flat_map (fun i =>
    flat_map (fun j =>
      flat_map (fun k =>
        map (fun b => cadd b (mkC (i * lt_unit L) (j * lt_unit L) (k * lt_unit L))) basis)
        (zrange 0 (lt_rc L - 1)))
      (zrange 0 (lt_rb L - 1)))
    (zrange 0 (lt_ra L - 1)).

(** KMCLattice.py 172-196 *)
Definition globalIndex (L : lattice) (i j k b : Z) : Z :=
  i * lt_rb L * lt_rc L * lt_nb L + j * lt_rc L * lt_nb L + k * lt_nb L + b.
