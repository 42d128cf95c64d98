(** Specification: models that can be saved as a script and read again. *)
From Verif Require Export SScript MScript.
Open Scope string_scope.
Open Scope list_scope.
Open Scope Z_scope.

Section Saved.
Context (U : Z).
(** vectors with at most seven significant digits in each component *)
Definition shortVector (c : coord) : Prop := shortDecimal 7 U (cx c) /\ shortDecimal 7 U (cy c) /\ shortDecimal 7 U (cz c).
(** the lattice comes from the constructors *)
Definition latticeMade (kl : klattice) : Prop := exists cell_vectors basis_points u repetitions periodic, KMCUnitCell U cell_vectors basis_points = Ok u /\ KMCLattice U (Some u) repetitions periodic = Ok kl.
Definition shortLattice (kl : klattice) : Prop :=
  (let '(a, b, c) := uc_vectors (kl_cell kl) in shortVector a /\ shortVector b /\ shortVector c) /\ forall r, In r (uc_basis (kl_cell kl)) -> shortVector r.
(** the argument possible_types: not given, or a list of names without repetitions *)
Definition distinctTypes (possible : pyval) : Prop := possible = VNone \/ exists names, possible = VList (map VStr names) /\ NoDup names.
(** the configuration comes from the constructor, and has the types [ts], one for each site *)
Definition configMade (kl : klattice) (kc : kconf) (ts : list string) : Prop :=
  kc_types kc = KPlain ts /\ exists types default possible, KMCConfiguration U (kl_lat kl) types default possible = Ok kc /\ distinctTypes possible.
Definition quotableConfig (kc : kconf) (ts : list string) : Prop := forall t, In t ts \/ In t (map fst (kc_possible kc)) -> quotable "'" t.
Definition shortProcess (p : kproc) : Prop :=
  (forall c, In c (kp_coords p) -> shortVector c) /\ (forall iv, In iv (kp_moves p) -> shortVector (snd iv)) /\ shortDecimal 7 U (kp_rate p).
Definition quotableProcess (p : kproc) : Prop := forall t, In t (kp_before p) \/ In t (kp_after p) -> quotable "'" t.
(** a process from the constructor, no two positions of which coincide, with short numbers and names that can be quoted *)
Definition savable (p : kproc) : Prop :=
  (exists coordinates before after moves basis rate, KMCProcess U coordinates before after moves basis rate = Ok p) /\ NoDup (kp_coords p) /\ shortProcess p /\ quotableProcess p.
(** interactions of such processes *)
Definition savableInteractions (ki : kinter) : Prop := exists l, ki_processes ki = map KPlainP l /\ l <> [] /\ forall p, In p l -> savable p.
Definition savableConfig (kl : klattice) (kc : kconf) : Prop := latticeMade kl /\ shortLattice kl /\ exists ts, configMade kl kc ts /\ quotableConfig kc ts.
(** the interactions without the rate calculator *)
Definition withoutCalculator (ki : kinter) : kinter := mkKI (ki_processes ki) (ki_wild ki) None.
End Saved.
