(** Specification: what a user must respect so that no step leaves the bounds of an array. *)
From Verif Require Export SCache SGeo SPossible SStep.
Open Scope string_scope.
Open Scope list_scope.
Open Scope Z_scope.

(** A process never empties a site: a row of a bucket process that changes the numbers of particles asks for no wildcard and leaves, of what it
    asks for, at least one particle of some type.  (Plain processes replace one particle by another.) *)
Definition neverEmpties (pt : tmap) (sp : pspec) : Prop :=
  match sp with
  | Plain _ => True
  | Bucket rows => forall r, In r rows -> (exists s, change (br_upd r) s <> 0) ->
      ~ In "*" (br_before r) /\ exists s k, tfind pt s = Some k /\ 0 < SBucket.howMany s (br_before r) + change (br_upd r) s
  end.

(** The surroundings of the sites reach beyond the cutoff of custom processes: wherever process number i may act, the list of the surroundings,
    ordered by distance, starts with at least as many sites within the cutoff as the process has entries, and goes on with a site
    outside it. *)
Definition roomy (L : lattice) (cf : config) (it : interactions) : Prop :=
  forall x i p, 0 <= x < nsites L -> pairIn L it x i -> zget (in_procs it) i = Some p ->
    exists near far rest, scratchML L (maxRange it) cf x = Some (near ++ far :: rest) /\ near <> [] /\ zlen (pr_ml p) <= zlen near /\
      (forall e, In e near -> ce_d2 e <= pr_cut2 p) /\ pr_cut2 p < ce_d2 far.

(** With implicit wildcards: the coordinates are those of the lattice, and processes with one basis point are given at lattice positions around it. *)
Definition fitsGrid (L : lattice) (cf : config) (it : interactions) (spec : Z -> pspec) : Prop :=
  in_wild it = true -> exists basis, geoInput L basis (maxRange it) (zlen (cf_ptypes cf)) cf /\
    forall i p b, zget (in_procs it) i = Some p -> pr_basis p = [b] -> placed L basis (pr_custom p) b (positions (spec i)).
(** Custom rates: the numbers of the processes are those of the list, and the surroundings are roomy for the processes as the model uses
    them, that is, after the wildcards were added. *)
Definition roomyStart (L : lattice) (cf : config) (it : interactions) : Prop :=
  in_custom it = true -> numbered it /\
    forall cf1 it2, initMatchLists L (maxRange it) cf = Some cf1 -> updateProcessMatchLists L cf1 (clearMatching it) = Some it2 -> roomy L cf1 it2.
(** deviates as a generator on (0, 1] returns them *)
Definition unitDeviate (u : deviate) : Prop := 0 < dv_num u <= dv_den u.
(** rates are not negative and something can happen, now and in all later states but the last *)
Definition alive (md0 : model) (us : list (deviate * deviate)) : Prop :=
  forall vs w md, us = vs ++ w -> w <> [] -> runSteps md0 vs = Some md ->
    (forall i x r, evt (md_in md) i x r -> 0 <= r) /\ exists i x r, evt (md_in md) i x r /\ 0 < r.
