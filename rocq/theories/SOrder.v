(** Specification: the order in which positions are listed. *)
From Verif Require Export SBucket SGeo.
Open Scope string_scope.
Open Scope list_scope.
Open Scope Z_scope.

(** The process the constructors make of given rows, with a rate constant, basis points, a number, and (custom rates) cutoff and caching. *)
Definition madePlain (S : Z) (pt : tmap) (rows : list row) (rate : Z) (basis : list Z) (number : Z) (custom : option (Z * bool)) (p : process) : Prop :=
  exists first second origins vectors,
    mkConfiguration (map rw_c rows) (map (fun r => [rw_before r]) rows) pt = Some first /\
    mkConfiguration (map rw_c rows) (map (fun r => [rw_after r]) rows) pt = Some second /\
    movesGiven rows origins vectors /\
    match custom with
    | None => mkProcess S first second rate basis origins vectors number = Some p
    | Some (cutoff, cache) => mkCustomProcess S first second rate basis cutoff origins vectors number cache = Some p
    end.
Definition madeBucket (S : Z) (pt : tmap) (rows : list brow) (rate : Z) (basis : list Z) (number : Z) (custom : option (Z * bool)) (p : process) : Prop :=
  exists first,
    mkConfiguration (map br_c rows) (map br_before rows) pt = Some first /\
    match custom with
    | None => mkProcess S first (setUpdateInfo first (map br_upd rows)) rate basis [] [] number = Some p
    | Some (cutoff, cache) => mkCustomProcess S first (setUpdateInfo first (map br_upd rows)) rate basis cutoff [] [] number cache = Some p
    end.

(** distances from c0 which differ do so by more than the tolerance *)
Definition clearlyApart (S : Z) (c0 : coord) (cs : list coord) : Prop := cleanPts S (fun v => exists c, In c cs /\ v = csub c c0).
