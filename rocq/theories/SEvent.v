(** Specification: the effect of one event, in terms of the process given by the user. *)
From Verif Require Export SGeo.
Open Scope Z_scope.
Open Scope list_scope.

(** no site occurs twice among the surroundings of a site *)
Definition fits (L : lattice) (R : Z) : Prop :=
  (lt_pa L = true -> 2 * R + 1 <= lt_ra L) /\ (lt_pb L = true -> 2 * R + 1 <= lt_rb L) /\ (lt_pc L = true -> 2 * R + 1 <= lt_rc L).

(** entry e changes the occupation of its site *)
Definition changes (e : pentry) : Prop := exists t n, zget (pe_upd e) t = Some n /\ n <> 0.

(** The event "process p at site x" leads from configuration cf to cf'; entry j of the process acts at the site ys[j].
    - every entry acts at a site of its own, which (wildcards apart) lies at the position of the entry relative to x and
      holds the required particles;
    - occupations and element names change at those sites only, as the entries say;
    - labels move from site to site as the identity moves say; an entry that changes its site also displaces the label found there before
      the event by its move vector. *)
Record eventFx (L : lattice) (cf cf' : config) (p : process) (x : Z) (ys : list Z) : Prop := {
  ef_len : zlen ys = zlen (pr_ml p);
  ef_nodup : NoDup ys;
  ef_range : forall y, In y ys -> 0 <= y < nsites L;
  ef_site : forall j e y, zget (pr_ml p) j = Some e -> zget ys j = Some y -> wildEntry e \/ suits L cf x e y;
  ef_ltypes : zlen (cf_types cf') = zlen (cf_types cf);
  ef_types : forall j e y, zget (pr_ml p) j = Some e -> zget ys j = Some y ->
     exists t t', zget (cf_types cf) y = Some t /\ zget (cf_types cf') y = Some t' /\ changedBy (pe_upd e) t t' /\ (~ changes e -> t' = t);
  ef_types_other : forall y, ~ In y ys -> zget (cf_types cf') y = zget (cf_types cf) y;
  ef_elements : forall j e y, zget (pr_ml p) j = Some e -> zget ys j = Some y -> changes e ->
     exists t' els, zget (cf_types cf') y = Some t' /\ elementsOf (cf_names cf) t' = Some els /\ zget (cf_elements cf') y = Some els;
  ef_elements_other : forall y, (forall j e, zget (pr_ml p) j = Some e -> zget ys j = Some y -> ~ changes e) ->
     zget (cf_elements cf') y = zget (cf_elements cf) y;
  ef_aid : NoDup (map snd (pr_idmoves p)) -> forall a b ya yb, In (a, b) (pr_idmoves p) -> zget ys a = Some ya -> zget ys b = Some yb ->
     zget (cf_aid cf') yb = zget (cf_aid cf) ya;
  ef_aid_other : forall y, (forall a b, In (a, b) (pr_idmoves p) -> zget ys b <> Some y) -> zget (cf_aid cf') y = zget (cf_aid cf) y;
  ef_coords : NoDup (cf_aid cf) -> forall j e y id c, zget (pr_ml p) j = Some e -> zget ys j = Some y -> changes e ->
     zget (cf_aid cf) y = Some id -> zget (cf_aidcoords cf) id = Some c -> zget (cf_aidcoords cf') id = Some (cadd c (pe_move e));
  ef_coords_other : forall id, (forall j e y, zget (pr_ml p) j = Some e -> zget ys j = Some y -> changes e -> zget (cf_aid cf) y <> Some id) ->
     zget (cf_aidcoords cf') id = zget (cf_aidcoords cf) id;
  ef_aidel_moved : NoDup (cf_aid cf) -> forall a b ya yb id, In (a, b) (pr_idmoves p) -> zget ys a = Some ya -> zget ys b = Some yb ->
     zget (cf_aid cf) ya = Some id ->
     exists els e, zget (cf_elements cf') yb = Some els /\ zget els 0 = Some e /\ zget (cf_aidelements cf') id = Some e;
  ef_aidel_here : NoDup (cf_aid cf) -> forall j e y id, zget (pr_ml p) j = Some e -> zget ys j = Some y -> changes e -> pe_hasmove e = false ->
     zget (cf_aid cf) y = Some id -> (forall a b, In (a, b) (pr_idmoves p) -> a <> j) ->
     exists els s, zget (cf_elements cf') y = Some els /\ zget els 0 = Some s /\ zget (cf_aidelements cf') id = Some s;
  ef_aidel_other : forall id,
     (forall j e y, zget (pr_ml p) j = Some e -> zget ys j = Some y -> changes e -> pe_hasmove e = false -> zget (cf_aid cf) y <> Some id) ->
     (forall a b ya, In (a, b) (pr_idmoves p) -> zget ys a = Some ya -> zget (cf_aid cf) ya <> Some id) ->
     zget (cf_aidelements cf') id = zget (cf_aidelements cf) id;
  ef_moved : forall id v, (exists k, 0 <= k < cf_nmoved cf' /\ zget (cf_moved cf') k = Some id /\ zget (cf_recent cf') k = Some v) <->
     (exists j e y, zget (pr_ml p) j = Some e /\ zget ys j = Some y /\ changes e /\ zget (cf_aid cf) y = Some id /\ pe_move e = v);
  ef_nmoved : cf_nmoved cf' = zlen (filter (fun e => existsb (fun n => negb (n =? 0)) (pe_upd e)) (pr_ml p));
  ef_same : cf_coords cf' = cf_coords cf /\ cf_names cf' = cf_names cf /\ zlen (cf_elements cf') = zlen (cf_elements cf) /\ zlen (cf_aid cf') = zlen (cf_aid cf) /\
     zlen (cf_aidcoords cf') = zlen (cf_aidcoords cf) /\ zlen (cf_aidelements cf') = zlen (cf_aidelements cf) }.

(** what is assumed of a process: entries never change the number of wildcards; identity moves are a partial map between entries *)
Record sane (p : process) : Prop := {
  sn_upd0 : forall e, In e (pr_ml p) -> zget (pe_upd e) 0 = Some 0;
  sn_idfrom : NoDup (map fst (pr_idmoves p));
  sn_idrange : forall a b, In (a, b) (pr_idmoves p) -> 0 <= a < zlen (pr_ml p) /\ 0 <= b < zlen (pr_ml p) }.
