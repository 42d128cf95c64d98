(** Specification vocabulary for what a sequence of events does to a configuration. *)
From Verif Require Export SPlain.
Open Scope string_scope.
Open Scope list_scope.
Open Scope Z_scope.

(** A simulation as the user sets it up: a table of types, a starting configuration made by the constructor of configurations,
    a lattice in which no site meets itself among its surroundings, processes that respect [sane]. *)
Record stdInput (ranks : Z) (L : lattice) (cf : config) (it : interactions) : Prop := {
  st_wf : wfInput ranks L cf it;
  st_pt : wfPT (cf_ptypes cf);
  st_cf : exists coords els, mkConfiguration coords els (cf_ptypes cf) = Some cf;
  st_fits : fits L (maxRange it);
  st_sane : forall p, In p (in_procs it) -> sane p }.

(** number k of an occupation *)
Definition amount (t : bucket) (k : Z) : Z := match zget t k with Some n => n | None => 0 end.
(** the particles of type number k over all sites *)
Definition countOf (types : list bucket) (k : Z) : Z := zsum (map (fun t => amount t k) types).
(** how often the name s occurs among the names listed at the sites *)
Definition nameCount (s : string) (els : list (list string)) : Z := zsum (map (fun l => zlen (filter (String.eqb s) l)) els).
(** the total change of type k that process p causes *)
Definition netChange (p : process) (k : Z) : Z := zsum (map (fun e => amount (pe_upd e) k) (pr_ml p)).

(** no event takes more than it asked for; wildcards take nothing *)
Definition noOverdraw (p : process) : Prop :=
  forall e, In e (pr_ml p) -> (wildEntry e -> ~ changes e) /\ forall k n u, zget (pe_match e) k = Some n -> zget (pe_upd e) k = Some u -> 0 <= n + u.
Definition nonNegative (cf : config) : Prop := forall y t k n, zget (cf_types cf) y = Some t -> zget t k = Some n -> 0 <= n.

(** the labels the process moves go round among the places they come from *)
Definition idmovesCycle (p : process) : Prop :=
  NoDup (map snd (pr_idmoves p)) /\ forall a, (exists b, In (a, b) (pr_idmoves p)) <-> (exists b, In (b, a) (pr_idmoves p)).

(** the moves reported for atom id by the last event *)
Definition reported (cf : config) (id : Z) : list coord :=
  map snd (filter (fun m => fst m =? id) (firstn (Z.to_nat (cf_nmoved cf)) (combine (cf_moved cf) (cf_recent cf)))).
Definition csum (l : list coord) : coord := fold_right cadd czero l.
(** the states a run passes through *)
Fixpoint runStates (md : model) (us : list (deviate * deviate)) : option (list model) :=
  match us with
  | [] => Some []
  | (u1, u2) :: us' => md1 <- singleStep md u1 u2 ;; l <- runStates md1 us' ;; Some (md1 :: l)
  end.

(** a process that carries particles: a row without move does not change, the atom of a row with a move comes to a row where its type
    is found after the event *)
Definition carries (rows : list row) : Prop :=
  movesPermute rows /\
  (forall r, In r rows -> rw_move r = None -> rw_before r = rw_after r) /\
  (forall r, In r rows -> rw_move r <> None -> rw_before r <> "*") /\
  (forall r r' v, In r rows -> In r' rows -> rw_move r = Some v -> rw_move r' <> None -> rw_c r' = cadd (rw_c r) v -> rw_after r' = rw_before r).
(** the moves of a process are visible as changes of types, or there are none *)
Definition movesShow (rows : list row) : Prop :=
  movesPermute rows /\ forall r, In r rows -> rw_move r <> None -> rw_move r <> Some czero -> rw_before r <> rw_after r.
