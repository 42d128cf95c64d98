(** Specification: bucket processes as the user gives them. *)
From Verif Require Export SStep.
Open Scope string_scope.
Open Scope list_scope.
Open Scope Z_scope.

(** one row of a bucket process: a position, the particles that must be present there (a name may occur several times), and the
    changes of the numbers of particles *)
Record brow := mkBRow { br_c : coord; br_before : list string; br_upd : tmap }.
Definition howMany (s : string) (l : list string) : Z := zlen (filter (String.eqb s) l).
Definition change (u : tmap) (s : string) : Z := match tfind u s with Some n => n | None => 0 end.

Record entryForB (pt : tmap) (r : brow) (e : pentry) : Prop := {
  eb_c : pe_c e = br_c r;
  eb_lmatch : zlen (pe_match e) = zlen pt;
  eb_match : forall s k, tfind pt s = Some k -> zget (pe_match e) k = Some (howMany s (br_before r));
  eb_lupd : zlen (pe_upd e) = zlen pt;
  eb_upd : forall s k, tfind pt s = Some k -> zget (pe_upd e) k = Some (change (br_upd r) s);
  eb_move : pe_hasmove e = false /\ pe_move e = czero }.

(** p was built by the constructor of processes from the rows *)
Definition builtBucket (S : Z) (pt : tmap) (rows : list brow) (basis : list Z) (p : process) : Prop :=
  exists first rate number,
    mkConfiguration (map br_c rows) (map br_before rows) pt = Some first /\
    (mkProcess S first (setUpdateInfo first (map br_upd rows)) rate basis [] [] number = Some p \/
     exists cutoff cache, mkCustomProcess S first (setUpdateInfo first (map br_upd rows)) rate basis cutoff [] [] number cache = Some p).

(** what a user must respect: each update is a dictionary, nothing adds or removes wildcards *)
Definition wfBRows (rows : list brow) : Prop :=
  rows <> [] /\ forall r, In r rows -> NoDup (map fst (br_upd r)) /\ tfind (br_upd r) "*" = None.
(** no row takes more particles than it asks for; a wildcard row changes nothing *)
Definition thrifty (rows : list brow) : Prop :=
  forall r, In r rows -> (forall s, 0 <= howMany s (br_before r) + change (br_upd r) s) /\ (In "*" (br_before r) -> forall s, change (br_upd r) s = 0).

(** ** A simulation as the user sets it up *)
(** a process is given by the rows of a plain process or of a bucket process *)
Inductive pspec := Plain (rows : list row) | Bucket (rows : list brow).
Definition builtFrom (S : Z) (pt : tmap) (sp : pspec) (p : process) : Prop :=
  match sp with
  | Plain rows => wfRows rows /\ exists basis, builtPlain S pt rows basis p
  | Bucket rows => wfBRows rows /\ exists basis, builtBucket S pt rows basis p
  end.
Record userInput (ranks : Z) (L : lattice) (cf : config) (it : interactions) (spec : Z -> pspec) : Prop := {
  ui_wf : wfInput ranks L cf it;
  ui_pt : wfPT (cf_ptypes cf);
  ui_cf : exists coords els, mkConfiguration coords els (cf_ptypes cf) = Some cf;
  ui_fits : fits L (maxRange it);
  ui_unit : lt_unit L < 100000;
  ui_procs : forall i p, zget (in_procs it) i = Some p -> builtFrom (lt_unit L) (cf_ptypes cf) (spec i) p }.

(** only plain processes, one particle per site at the start *)
Record plainUser (ranks : Z) (L : lattice) (cf : config) (it : interactions) (rowsOf : Z -> list row) : Prop := {
  pu_user : userInput ranks L cf it (fun i => Plain (rowsOf i));
  pu_single : exists coords ts, mkConfiguration coords (map (fun s => [s]) ts) (cf_ptypes cf) = Some cf }.
