(** Model of c++/src/configuration.cpp 271-403: Configuration::performBucketProcess. *)
From Verif Require Export MInteractions.
Open Scope Z_scope.
Open Scope list_scope.

Definition set_event (cf : config) (proc site : Z) : config :=
  mkCF 0 (cf_coords cf) (cf_aidcoords cf) (cf_elements cf) (cf_aidelements cf)
       (cf_types cf) (cf_aid cf) (cf_moved cf) (cf_recent cf) (cf_names cf) (cf_mlists cf)
       (cf_update cf) (cf_ptypes cf) proc site.

(** 305-313: sum |update| > 0 and not update[0] > 0 *)
Definition activeEntry (u : bucket) : option bool :=
  if 0 <? zsum (map Z.abs u) then
    w <- bget u 0 ;; Some (negb (0 <? w))
  else Some false.

(** 322-325: types_[index][i] += update_types[i] for i < types_[index].size() *)
Definition applyUpdate (t u : bucket) : option bucket :=
  omap (fun i => a <- bget t i ;; b <- bget u i ;; Some (a + b)) (zrange 0 (zlen t - 1)).

(** 333-340: the names at a site regenerated from the counts (negative counts give none) *)
Definition elementsOf (names : list string) (t : bucket) : option (list string) :=
  ns <- omap (fun i => n <- bget t i ;;
                       if 0 <? n then (s <- zget names i ;; Some (repeat s (Z.to_nat n))) else Some [])
             (zrange 0 (zlen t - 1)) ;;
  Some (concat ns).

(** 296-366: the loop state is the configuration and process.affectedIndices() with the write
    position it3; it4 and it5 write at position n_moved_. *)
Definition performEntry (pe : pentry) (ce : centry) (st : config * list Z * Z)
  : option (config * list Z * Z) :=
  let '(cf, aff, pos) := st in
  active <- activeEntry (pe_upd pe) ;;
  if active then
    let index := ce_index ce in
    atom_id <- zget (cf_aid cf) index ;;
    c <- zget (cf_aidcoords cf) atom_id ;;
    aidcoords <- zset (cf_aidcoords cf) atom_id (cadd c (pe_move pe)) ;;
    t <- zget (cf_types cf) index ;;
    t' <- applyUpdate t (pe_upd pe) ;;
    types <- zset (cf_types cf) index t' ;;
    els <- elementsOf (cf_names cf) t' ;;
    elements <- zset (cf_elements cf) index els ;;
    aidelements <- (if pe_hasmove pe then Some (cf_aidelements cf)
                    else e <- zget els 0 ;; zset (cf_aidelements cf) atom_id e) ;;
    aff' <- zset aff pos index ;;
    moved <- zset (cf_moved cf) (cf_nmoved cf) atom_id ;;
    recent <- zset (cf_recent cf) (cf_nmoved cf) (pe_move pe) ;;
    Some (mkCF (cf_nmoved cf + 1) (cf_coords cf) aidcoords elements aidelements types
               (cf_aid cf) moved recent (cf_names cf) (cf_mlists cf) (cf_update cf)
               (cf_ptypes cf) (cf_lastproc cf) (cf_lastsite cf), aff', pos + 1)
  else Some st.

Fixpoint performLoop (pl : list pentry) (sl : list centry) (st : config * list Z * Z)
  : option (config * list Z * Z) :=
  match pl with
  | [] => Some st
  | pe :: pl' =>
      match sl with
      | [] => None      (* it2 past the end of the site match list *)
      | ce :: sl' => st' <- performEntry pe ce st ;; performLoop pl' sl' st'
      end
  end.

(** 369-385 *)
Definition idUpdates (cf : config) (sl : list centry) (idm : list (Z * Z)) : option (list (Z * Z)) :=
  omap (fun m : Z * Z =>
          f <- zget sl (fst m) ;; t <- zget sl (snd m) ;;
          id <- zget (cf_aid cf) (ce_index f) ;;
          Some (id, ce_index t)) idm.

(** 388-402 *)
Definition set_ids (cf : config) (aid : list Z) (aidel : list string) : config :=
  mkCF (cf_nmoved cf) (cf_coords cf) (cf_aidcoords cf) (cf_elements cf) aidel
       (cf_types cf) aid (cf_moved cf) (cf_recent cf) (cf_names cf) (cf_mlists cf)
       (cf_update cf) (cf_ptypes cf) (cf_lastproc cf) (cf_lastsite cf).
Definition applyIdUpdate (cf : config) (u : Z * Z) : option config :=
  let (id, index) := u in
  aid <- zset (cf_aid cf) index id ;;
  els <- zget (cf_elements cf) index ;;
  e <- zget els 0 ;;
  aidel <- zset (cf_aidelements cf) id e ;;
  Some (set_ids cf aid aidel).

(** 271-403: returns the configuration and the process with its affected indices *)
Definition performBucketProcess (cf : config) (p : process) (site : Z) : option (config * process) :=
  let cf0 := set_event cf (pr_number p) site in
  sl <- zget (cf_mlists cf0) site ;;
  r <- performLoop (pr_ml p) sl (cf0, pr_aff p, 0) ;;
  let '(cf1, aff, _) := r in
  ups <- idUpdates cf1 sl (pr_idmoves p) ;;
  cf2 <- ofold applyIdUpdate ups cf1 ;;
  Some (cf2, set_aff p aff).
