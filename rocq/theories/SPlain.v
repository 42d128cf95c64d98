(** Specification: one event of a plain process, in the terms of the rows the user wrote. *)
From Verif Require Export SBuild.
Open Scope string_scope.
Open Scope list_scope.
Open Scope Z_scope.

(** site y holds exactly one particle, of type s *)
Definition holds (cf : config) (y : Z) (s : string) : Prop :=
  zget (cf_elements cf) y = Some [s] /\
  exists k t, tfind (cf_ptypes cf) s = Some k /\ zget (cf_types cf) y = Some t /\ unitAt (zlen (cf_ptypes cf)) k t.
(** every site holds exactly one particle *)
Definition singly (cf : config) : Prop := forall y, 0 <= y < zlen (cf_types cf) -> exists s, holds cf y s.

(** y lies at displacement c from x, up to periodic images and the tolerance of the code *)
Definition liesAt (L : lattice) (coords : list coord) (x : Z) (c : coord) (y : Z) : Prop :=
  exists a b d, zget coords x = Some a /\ zget coords y = Some b /\ sameDisp L (csub b a) d /\ closeTo (lt_unit L) c d.

(** the move vector of a row, zero when there is none *)
Definition shift (r : row) : coord := match rw_move r with Some v => v | None => czero end.

(** "the process with these rows happens at x": row i acts at the site ys[i] *)
Record rowEvent (L : lattice) (cf cf' : config) (rows : list row) (x : Z) (ys : list Z) : Prop := {
  re_len : zlen ys = zlen rows;
  re_nodup : NoDup ys;
  re_range : forall y, In y ys -> 0 <= y < nsites L;
  re_site : forall i r y, zget rows i = Some r -> zget ys i = Some y -> rw_before r <> "*" ->
     liesAt L (cf_coords cf) x (rw_c r) y;
  re_before : forall i r y, zget rows i = Some r -> zget ys i = Some y -> rw_before r <> "*" -> holds cf y (rw_before r);
  re_after : forall i r y, zget rows i = Some r -> zget ys i = Some y -> rw_after r <> "*" -> holds cf' y (rw_after r);
  re_same : forall i r y, zget rows i = Some r -> zget ys i = Some y -> rw_after r = rw_before r ->
     zget (cf_types cf') y = zget (cf_types cf) y /\ zget (cf_elements cf') y = zget (cf_elements cf) y;
  re_other : forall y, ~ In y ys -> zget (cf_types cf') y = zget (cf_types cf) y /\ zget (cf_elements cf') y = zget (cf_elements cf) y;
  re_aid : movesPermute rows -> forall i r v y i' r' y', zget rows i = Some r -> zget ys i = Some y -> rw_move r = Some v ->
     zget rows i' = Some r' -> zget ys i' = Some y' -> rw_move r' <> None -> rw_c r' = cadd (rw_c r) v ->
     zget (cf_aid cf') y' = zget (cf_aid cf) y;
  re_aid_other : movesPermute rows -> forall y, (forall i r, zget rows i = Some r -> zget ys i = Some y -> rw_move r = None) ->
     zget (cf_aid cf') y = zget (cf_aid cf) y;
  re_coords : NoDup (cf_aid cf) -> forall i r y id c, zget rows i = Some r -> zget ys i = Some y -> rw_before r <> rw_after r ->
     zget (cf_aid cf) y = Some id -> zget (cf_aidcoords cf) id = Some c -> zget (cf_aidcoords cf') id = Some (cadd c (shift r));
  re_coords_other : forall id, (forall i r y, zget rows i = Some r -> zget ys i = Some y -> rw_before r <> rw_after r -> zget (cf_aid cf) y <> Some id) ->
     zget (cf_aidcoords cf') id = zget (cf_aidcoords cf) id;
  re_aidel_moved : NoDup (cf_aid cf) -> forall i r v y i' r' y' id, zget rows i = Some r -> zget ys i = Some y -> rw_move r = Some v ->
     zget rows i' = Some r' -> zget ys i' = Some y' -> rw_move r' <> None -> rw_c r' = cadd (rw_c r) v -> i <> i' ->
     zget (cf_aid cf) y = Some id -> exists s, zget (cf_elements cf') y' = Some [s] /\ zget (cf_aidelements cf') id = Some s;
  re_aidel_here : NoDup (cf_aid cf) -> forall i r y id, zget rows i = Some r -> zget ys i = Some y -> rw_before r <> rw_after r -> rw_move r = None ->
     zget (cf_aid cf) y = Some id -> zget (cf_aidelements cf') id = Some (rw_after r);
  re_aidel_other : forall id,
     (forall i r y, zget rows i = Some r -> zget ys i = Some y -> zget (cf_aid cf) y = Some id ->
        (rw_move r = None -> rw_before r = rw_after r) /\
        (forall v i' r', rw_move r = Some v -> zget rows i' = Some r' -> rw_move r' <> None -> rw_c r' = cadd (rw_c r) v -> i = i')) ->
     zget (cf_aidelements cf') id = zget (cf_aidelements cf) id;
  re_fixed : cf_coords cf' = cf_coords cf /\ cf_names cf' = cf_names cf /\ zlen (cf_elements cf') = zlen (cf_elements cf) /\
     zlen (cf_aid cf') = zlen (cf_aid cf) /\ zlen (cf_aidcoords cf') = zlen (cf_aidcoords cf) /\ zlen (cf_aidelements cf') = zlen (cf_aidelements cf) }.

(** A simulation with plain processes: the starting configuration holds one particle per site, process i is given by the rows [rowsOf i] *)
Record plainInput (L : lattice) (cf : config) (it : interactions) (rowsOf : Z -> list row) : Prop := {
  pn_pt : wfPT (cf_ptypes cf);
  pn_cf : exists coords ts, mkConfiguration coords (map (fun s => [s]) ts) (cf_ptypes cf) = Some cf;
  pn_unit : lt_unit L < 1000000;
  pn_procs : forall i p, zget (in_procs it) i = Some p ->
     wfRows (rowsOf i) /\ exists basis, builtPlain (lt_unit L) (cf_ptypes cf) (rowsOf i) basis p }.
