(** Model of the Python classes that describe the lattice and put a simulation together:
    python/src/KMCLib/CoreComponents/KMCUnitCell.py, KMCLattice.py, KMCInteractions.py (constructor, setRateCalculator), KMCLatticeModel.py (constructor, _backend).
    The float 1.0 is the integer S, for the components of cell vectors as well as for basis points. *)
From Verif Require Export MPyProcess MModel.
Open Scope string_scope.
Open Scope list_scope.
Open Scope Z_scope.

Section Lattice.
Context (S : Z).

(** the determinant of the matrix with these rows, in units of 1/S^3 (CheckUtilities.py 71-72: of its transpose) *)
Definition det3 (a b c : coord) : Z :=
  cx a * (cy b * cz c - cz b * cy c) - cy a * (cx b * cz c - cz b * cx c) + cz a * (cx b * cy c - cy b * cx c).
(** checkCellVectors, CheckUtilities.py 41-77: lists, tuples and strings (not numpy arrays).  Simplification: the determinant is exact; non-finite
    components are [Unmodelled] (coordOf in MPyProcess.v).  The checks of the dtype (63-66) cannot fail for a list of floats. *)
Definition checkCellVectors (v : pyval) : outcome (coord * coord * coord) :=
  try l <- checkCoordinateList v ;;
  match l with
  | [a; b; c] => if 100000 * det3 a b c <? S * S * S then Raise KmcError else Ok (a, b, c)
  | _ => Raise KmcError
  end.

Record ucell := mkUC { uc_vectors : coord * coord * coord; uc_basis : list coord }.
(** b < 1.0 and b >= 0.0, KMCUnitCell.py 42 *)
Definition fractional (x : Z) : bool := (x <? S) && (0 <=? x).
(** KMCUnitCell.__init__, KMCUnitCell.py 20-45 *)
Definition KMCUnitCell (cell_vectors basis_points : pyval) : outcome ucell :=
  try vs <- checkCellVectors cell_vectors ;;
  try bs <- checkCoordinateList basis_points ;;
  if forallb (fun b => fractional (cx b) && fractional (cy b) && fractional (cz b)) bs then Ok (mkUC vs bs) else Raise KmcError.
(** transformToCartesian, KMCUnitCell.py 63-69: the row r times the matrix of the cell vectors; in units of 1/S^2 *)
Definition transformToCartesian (u : ucell) (r : coord) : coord :=
  let '(a, b, c) := uc_vectors u in
  mkC (cx r * cx a + cy r * cx b + cz r * cx c) (cx r * cy a + cy r * cy b + cz r * cy c) (cx r * cz a + cy r * cz b + cz r * cz c).

(** KMCLattice.__checkRepetitions, KMCLattice.py 56-83 *)
Definition checkRepetitions (v : pyval) : outcome (Z * Z * Z) :=
  try l <- (match v with VNone => Ok [VInt 1; VInt 1; VInt 1] | _ => seqOf v end) ;;
  if negb (zlen l =? 3) then Raise KmcError else
  try ns <- oall (fun x => match asInt x with Some n => Ok n | None => Raise KmcError end) l ;;
  if existsb (fun n => n <? 1) ns then Raise KmcError else
  match ns with [a; b; c] => Ok (a, b, c) | _ => Raise KmcError end.
(** KMCLattice.__checkPeriodic, KMCLattice.py 85-107 *)
Definition checkPeriodic (v : pyval) : outcome (bool * bool * bool) :=
  try l <- (match v with VNone => Ok [VBool true; VBool true; VBool true] | _ => seqOf v end) ;;
  if negb (zlen l =? 3) then Raise KmcError else
  try bs <- oall (fun x => match x with VBool b => Ok b | _ => Raise KmcError end) l ;;
  match bs with [a; b; c] => Ok (a, b, c) | _ => Raise KmcError end.

(** KMCLattice.__init__, KMCLattice.py 22-54, and _map, 198-208.  [None]: an object that is not a KMCUnitCell. *)
Record klattice := mkKL { kl_cell : ucell; kl_lat : lattice; kl_sites : list coord }.
Definition KMCLattice (unit_cell : option ucell) (repetitions periodic : pyval) : outcome klattice :=
  match unit_cell with
  | None => Raise KmcError
  | Some u =>
      try r <- checkRepetitions repetitions ;;
      try p <- checkPeriodic periodic ;;
      let '(ra, rb, rc) := r in
      let '(pa, pb, pc) := p in
      let L := mkLat (zlen (uc_basis u)) ra rb rc pa pb pc S in
      Ok (mkKL u L (generateLatticeSites L (uc_basis u)))
  end.

(** ** KMCInteractions *)
(** what a rate calculator answers: cutoff() in units of 1/S, cacheRates(), excludeFromCaching() (KMCRateCalculatorPlugin.py 134-169) *)
Record plugin := mkPlug { pg_cutoff : option Z; pg_cache : bool; pg_exclude : list Z; pg_rates : ratecalc }.
(** KMCInteractions.__init__, KMCInteractions.py 32-64.  [None] for processes: not a sequence; [None] in it: something that is not a process.
    The rate calculator is stored by setRateCalculator (74-134); here it is the last argument.  Simplification: the checks of its class (84-128, 178-191) are not modelled. *)
Record kinter := mkKI { ki_processes : list kprocess; ki_wild : bool; ki_plugin : option plugin }.
Definition KMCInteractions (processes : option (list (option kprocess))) (implicit_wildcards : pyval) (calculator : option plugin) : outcome kinter :=
  match processes with
  | None => Raise KmcError
  | Some l =>
      if zlen l =? 0 then Raise KmcError else
      try ps <- oall (fun p => match p with Some q => Ok q | None => Raise KmcError end) l ;;
      match implicit_wildcards with
      | VNone => Ok (mkKI ps true calculator)
      | VBool b => Ok (mkKI ps b calculator)
      | _ => Raise KmcError
      end
  end.
(** KMCInteractions.py 236-243: the cutoff (1.0 if the calculator gives none) and the caching flag of process number n *)
Definition customOf (ki : kinter) (n : Z) : option (Z * bool) :=
  match ki_plugin ki with
  | None => None
  | Some g => Some (match pg_cutoff g with Some c => c | None => S end, pg_cache g && negb (zmem n (pg_exclude g)))
  end.
(** the functions that the backend never calls when there is no calculator *)
Definition noCalculator : ratecalc := mkRC (fun _ _ _ r _ _ => r) (fun _ _ _ _ r _ _ => r).
(** KMCInteractions._backend, 144-273; [None]: undefined behaviour in a C++ constructor *)
Definition backendInteractions (ki : kinter) (possible : tmap) (nbasis : Z) : outcome (option interactions) :=
  try ps <- backendProcesses S possible nbasis (customOf ki) (ki_processes ki) ;;
  Ok (ps <- omap (fun p => p) ps ;;
      Some (match ki_plugin ki with
            | None => mkInteractions ps (ki_wild ki) false noCalculator
            | Some g => mkInteractions ps (ki_wild ki) true (pg_rates g)
            end)).

(** KMCLatticeModel._backend, KMCLatticeModel.py 66-88, for a configuration on the lattice [kl].  The result: configuration and interactions of the
    backend, from which the constructor of the LatticeModel (MLatticeModel.v) makes the model. *)
Definition modelInput (kl : klattice) (kc : kconf) (ki : kinter) : outcome (option (config * interactions)) :=
  try cf <- backendConfiguration kc (kl_sites kl) ;;
  try it <- backendInteractions ki (kc_possible kc) (lt_nb (kl_lat kl)) ;;
  Ok (cf <- cf ;; it <- it ;; Some (cf, it)).
Definition KMCLatticeModel (ranks : Z) (hash : list Z -> Z) (kl : klattice) (kc : kconf) (ki : kinter) : outcome (option model) :=
  try i <- modelInput kl kc ki ;;
  Ok (i <- i ;; mkLatticeModel ranks hash (kl_lat kl) (fst i) (snd i)).
End Lattice.
