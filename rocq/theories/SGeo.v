(** Specification vocabulary for the geometry: displacements, translation invariant neighbourhoods,
    the events that are possible in a configuration. *)
From Verif Require Export SModel.
Open Scope Z_scope.
Open Scope list_scope.

(** Along the axis every cell has the same surroundings: periodic and large enough for R shells, or
    a single open layer. *)
Definition uniformAxis (p : bool) (rep R : Z) : Prop := (p = true /\ 2 * R + 1 <= rep) \/ (p = false /\ rep = 1).
Definition uniform (L : lattice) (R : Z) : Prop :=
  uniformAxis (lt_pa L) (lt_ra L) R /\ uniformAxis (lt_pb L) (lt_rb L) R /\ uniformAxis (lt_pc L) (lt_rc L) R.

(** y is the site at displacement v from site x *)
Definition siteAt (L : lattice) (coords : list coord) (x : Z) (v : coord) (y : Z) : Prop :=
  exists c d, zget coords x = Some c /\ zget coords y = Some d /\ sameDisp L (csub d c) v.

(** v leads from a site on basis point b to another site, at most R cells away along every axis;
    along periodic axes v is the shortest of its images *)
Definition reach1 (p : bool) (rep R d : Z) : Prop := if p then exists n, Z.abs (d + n * rep) <= R else d = 0.
Definition window1 (p : bool) (P v : Z) : Prop := p = true -> - P <= 2 * v < P.
Definition inReach (L : lattice) (basis : list coord) (R b : Z) (v : coord) : Prop :=
  exists b' beta beta' i j k, zget basis b = Some beta /\ zget basis b' = Some beta' /\
    reach1 (lt_pa L) (lt_ra L) R i /\ reach1 (lt_pb L) (lt_rb L) R j /\ reach1 (lt_pc L) (lt_rc L) R k /\
    v = mkC (cx beta' - cx beta + i * lt_unit L) (cy beta' - cy beta + j * lt_unit L) (cz beta' - cz beta + k * lt_unit L) /\
    window1 (lt_pa L) (lt_ra L * lt_unit L) (cx v) /\ window1 (lt_pb L) (lt_rb L * lt_unit L) (cy v) /\
    window1 (lt_pc L) (lt_rc L * lt_unit L) (cz v).

(** different distances differ by more than the tolerance 1e-5 of the code *)
Definition cleanPts (S : Z) (P : coord -> Prop) : Prop :=
  forall a b, P a -> P b -> cnorm2 a <> cnorm2 b -> distFar S (cnorm2 a) (cnorm2 b) = true.

(** the event "process p at site x" is possible: x is on a basis point of p, and at every position named
    by p there is a site with the required particles (anything will do for a wildcard) *)
Definition possible (L : lattice) (coords : list coord) (types : list bucket) (p : process) (x : Z) : Prop :=
  In (basisSiteFromIndex L x) (pr_basis p) /\
  forall e, In e (pr_ml p) -> wildEntry e \/
    exists y t, siteAt L coords x (pe_c e) y /\ zget types y = Some t /\ contains t (pe_match e).

(** what the geometric theorems assume of a process as built by the constructor: one basis site, entries
    at distinct positions that are lattice displacements within R shells, stored in the order of the code;
    an event never adds or removes wildcards *)
Record regular (L : lattice) (basis : list coord) (R W : Z) (p : process) : Prop := {
  rg_basis : exists b, pr_basis p = [b] /\ 0 <= b < lt_nb L /\ forall e, In e (pr_ml p) -> inReach L basis R b (pe_c e);
  rg_d2 : forall e, In e (pr_ml p) -> pe_d2 e = cnorm2 (pe_c e);
  rg_width : forall e, In e (pr_ml p) -> zlen (pe_match e) = W /\ zlen (pe_upd e) = W;
  rg_upd0 : forall e, In e (pr_ml p) -> zget (pe_upd e) 0 = Some 0;
  rg_nodup : NoDup (map pe_c (pr_ml p));
  rg_sorted : pr_ml p = isort (peLt (lt_unit L)) (pr_ml p) }.

(** the occupation [t'] is [t] changed by [u], type by type *)
Definition changedBy (u t t' : bucket) : Prop :=
  zlen t' = zlen t /\ forall k a b, zget t k = Some a -> zget u k = Some b -> zget t' k = Some (a + b).
(** [types'] results from the event "process p at site x": the site at the position of every entry of p is
    changed as the entry says, no other site changes *)
Definition performed (L : lattice) (coords : list coord) (p : process) (x : Z) (types types' : list bucket) : Prop :=
  zlen types' = zlen types /\
  forall y t, zget types y = Some t -> exists t', zget types' y = Some t' /\
    (forall e, In e (pr_ml p) -> siteAt L coords x (pe_c e) y -> changedBy (pe_upd e) t t') /\
    ((forall e, In e (pr_ml p) -> ~ siteAt L coords x (pe_c e) y) -> t' = t).
(** [aid'] results from moving the labels of the sites as the identity moves of p say: (a, b) sends the label
    at the position of entry a to the site at the position of entry b *)
Definition relabelled (L : lattice) (coords : list coord) (p : process) (x : Z) (aid aid' : list Z) : Prop :=
  zlen aid' = zlen aid /\
  (forall a b ea eb ya yb, In (a, b) (pr_idmoves p) -> zget (pr_ml p) a = Some ea -> zget (pr_ml p) b = Some eb ->
     siteAt L coords x (pe_c ea) ya -> siteAt L coords x (pe_c eb) yb -> zget aid' yb = zget aid ya) /\
  (forall y, (forall a b eb, In (a, b) (pr_idmoves p) -> zget (pr_ml p) b = Some eb -> ~ siteAt L coords x (pe_c eb) y) ->
     zget aid' y = zget aid y).
(** identity moves form a map between entries of the process: no two labels go to the same entry *)
Definition idmovesOK (p : process) : Prop :=
  NoDup (map snd (pr_idmoves p)) /\ forall a b, In (a, b) (pr_idmoves p) -> 0 <= b < zlen (pr_ml p) /\ 0 <= a < zlen (pr_ml p).

(** Input of the geometric theorems: the sites are generated from the basis points, the lattice is uniform up
    to R cells, distances within that reach are separated by more than the tolerance, all occupations count W
    types (the wildcard included) *)
Record geoInput (L : lattice) (basis : list coord) (R W : Z) (cf : config) : Prop := {
  gi_basis : wf_basis L basis;
  gi_coords : cf_coords cf = generateLatticeSites L basis;
  gi_uniform : uniform L R;
  gi_unit : lt_unit L < 100000;
  gi_clean : forall b, 0 <= b < lt_nb L -> cleanPts (lt_unit L) (inReach L basis R b);
  gi_width : forall t, In t (cf_types cf) -> zlen t = W;
  gi_pos : 1 <= W }.
