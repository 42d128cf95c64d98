(** Specification: translations of a lattice by whole cells. *)
From Verif Require Export SChain SLaw.
From Coq Require Import Reals.
Open Scope list_scope.
Open Scope Z_scope.

(** a translation: by how many cells along the three axes; none along axes that are not periodic *)
Record translation := mkTranslation { tr_a : Z; tr_b : Z; tr_c : Z }.
Definition fitting (L : lattice) (d : translation) : Prop :=
  (lt_pa L = false -> tr_a d = 0) /\ (lt_pb L = false -> tr_b d = 0) /\ (lt_pc L = false -> tr_c d = 0).
(** the site to which x is moved: the same basis point, in the cell further on; the cells of a periodic axis are a ring *)
Definition movedTo (L : lattice) (d : translation) (x : Z) : Z :=
  let cell := x / lt_nb L in
  let i := cell / (lt_rb L * lt_rc L) in
  let j := cell / lt_rc L mod lt_rb L in
  let k := cell mod lt_rc L in
  ((((i + tr_a d) mod lt_ra L) * lt_rb L + (j + tr_b d) mod lt_rb L) * lt_rc L + (k + tr_c d) mod lt_rc L) * lt_nb L + x mod lt_nb L.
(** s' is s with everything moved: what s has at x, s' has at the site to which x is moved *)
Definition translated (L : lattice) (d : translation) (s s' : pstate) : Prop :=
  zlen s = nsites L /\ zlen s' = nsites L /\ forall x, In x (sites L) -> zget s' (movedTo L d x) = zget s x.
(** the rates do not depend on where things are *)
Definition sameEverywhere (L : lattice) (d : translation) (prs : list cproc) : Prop :=
  forall pr x s s', In pr prs -> In x (sites L) -> translated L d s s' -> cp_rate pr (movedTo L d x) s' = cp_rate pr x s.
(** events with everything moved *)
Definition movedEvents (L : lattice) (d : translation) (es : list (Z * Z * R)) : list (Z * Z * R) := map (fun e => ((fst (fst e), movedTo L d (snd (fst e))), snd e)) es.
