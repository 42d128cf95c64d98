(** Model of the scripts that represent objects: the methods _script of python/src/KMCLib/CoreComponents/KMCUnitCell.py, KMCLattice.py, KMCConfiguration.py, KMCProcess.py,
    KMCInteractions.py, KMCLatticeModel.py, and of python/src/KMCLib/Utilities/SaveAndReadUtilities.py.  The float 1.0 is the integer U. *)
From Verif Require Export MTrajectory MPyLattice SPython.
Open Scope string_scope.
Open Scope list_scope.
Open Scope Z_scope.

(** ** Formats of numbers *)
(** the last k decimal digits of n *)
Fixpoint digs (k : nat) (n : Z) : string :=
  match k with O => "" | S k' => snoc (digs k' (n / 10)) (ascii_of_nat (48 + Z.to_nat (n mod 10))) end.
(** n/d to the nearest integer, ties to even: Python and C round the exact value in this way *)
Definition roundEven (n d : Z) : Z :=
  let q := n / d in let r := n mod d in
  if 2 * r <? d then q else if d <? 2 * r then q + 1 else if Z.even q then q else q + 1.
(** blanks on the left up to the given width *)
Definition padLeft (width : nat) (s : string) : string := (blanks (width - String.length s) ++ s)%string.
(** the number of times n can be multiplied by ten, at most fuel times, before it reaches d *)
Fixpoint timesTen (fuel : nat) (n d : Z) : Z := match fuel with O => 0 | S f => if d <=? n then 0 else 1 + timesTen f (10 * n) d end.
(** the exponent e of n/d for n, d > 0: 10^e <= n/d < 10^(e+1) *)
Definition exponent (n d : Z) : Z :=
  if d <=? n then timesTen (Z.to_nat (Z.log2 n + 2)) d (n + 1) - 1 else - timesTen (Z.to_nat (Z.log2 d + 2)) n d.
(** mantissa with p digits after the point and exponent as they are printed by %.pe *)
Definition mantissa (p : nat) (n d : Z) : Z * Z :=
  let e := exponent n d in
  let k := Z.of_nat p - e in
  let m := if 0 <=? k then roundEven (n * 10 ^ k) d else roundEven n (d * 10 ^ (- k)) in
  if m =? 10 ^ (Z.of_nat p + 1) then (10 ^ Z.of_nat p, e + 1) else (m, e).
Definition expText (e : Z) : string := ((if Z.ltb e 0 then "-" else "+") ++ (if Z.ltb (Z.abs e) 100 then digs 2 (Z.abs e) else showZ (Z.abs e)))%string.
(** the format %w.pe of x/U, p > 0 *)
Definition fmtE (w p : nat) (U x : Z) : string :=
  padLeft w (if x =? 0 then ("0." ++ digs p 0 ++ "e+00")%string
             else let (m, e) := mantissa p (Z.abs x) U in
                  ((if Z.ltb x 0 then "-" else "") ++ digs 1 (m / 10 ^ Z.of_nat p)%Z ++ "." ++ digs p (m mod 10 ^ Z.of_nat p)%Z ++ "e" ++ expText e)%string).
(** the format %w.pf of x/U, p > 0; a negative number that rounds to zero keeps its sign *)
Definition fmtF (w p : nat) (U x : Z) : string :=
  let m := roundEven (Z.abs x * 10 ^ Z.of_nat p) U in
  padLeft w ((if Z.ltb x 0 then "-" else "") ++ showZ (m / 10 ^ Z.of_nat p)%Z ++ "." ++ digs p (m mod 10 ^ Z.of_nat p)%Z)%string.

Definition AttributeError : exn := OtherExn 4.
Section Script.
Context (U : Z).
(** ff = "%15.6e" *)
Definition ff (x : Z) : string := fmtE 15 6 U x.
(** "[" + ff + "," + ff + "," + ff + "]" *)
Definition vectorText (c : coord) : string := ("[" ++ ff (cx c) ++ "," ++ ff (cy c) ++ "," ++ ff (cz c) ++ "]")%string.
Definition rule : string := "# -----------------------------------------------------------------------------".
Definition heading (t : string) : string := (NL ++ rule ++ NL ++ "# " ++ t ++ NL ++ NL)%string.

(** KMCUnitCell.py 95-109: the basis points from number i on *)
Fixpoint basisText (first : bool) (l : list coord) : string :=
  match l with
  | [] => ""
  | [c] => ((if first then "" else blanks 16) ++ vectorText c ++ "]" ++ NL)%string
  | c :: l' => ((if first then "" else blanks 16) ++ vectorText c ++ "," ++ NL ++ basisText false l')%string
  end.
(** KMCUnitCell._script, KMCUnitCell.py 71-123 *)
Definition unitCellScript (name : string) (u : ucell) : string :=
  let '(a, b, c) := uc_vectors u in
  let cell_string := ("cell_vectors = [" ++ vectorText a ++ "," ++ NL ++ blanks 16 ++ vectorText b ++ "," ++ NL ++ blanks 16 ++ vectorText c ++ "]" ++ NL)%string in
  let basis_string := ("basis_points = [" ++ basisText true (uc_basis u))%string in
  (heading "Unit cell" ++ cell_string ++ NL ++ basis_string ++ NL ++
   name ++ " = KMCUnitCell(" ++ NL ++ "    cell_vectors=cell_vectors," ++ NL ++ "    basis_points=basis_points)" ++ NL)%string.
(** str() of the flags.  Simplification: they are kept as a tuple, though checkSequence keeps a list if one is given, which is then written with square brackets. *)
Definition boolText (b : bool) : string := if b then "True" else "False".
Definition flagsText (a b c : bool) : string := ("(" ++ boolText a ++ ", " ++ boolText b ++ ", " ++ boolText c ++ ")")%string.
(** KMCLattice._script, KMCLattice.py 210-241 *)
Definition latticeScript (name : string) (kl : klattice) : string :=
  let L := kl_lat kl in
  (unitCellScript "unit_cell" (kl_cell kl) ++ heading "Lattice" ++
   name ++ " = KMCLattice(" ++ NL ++ "    unit_cell=unit_cell," ++ NL ++
   "    repetitions=(" ++ showZ (lt_ra L) ++ "," ++ showZ (lt_rb L) ++ "," ++ showZ (lt_rc L) ++ ")," ++ NL ++
   "    periodic=" ++ flagsText (lt_pa L) (lt_pb L) (lt_pc L) ++ ")" ++ NL)%string.
(** the loops of KMCConfiguration.py 353-370, 375-394 and KMCProcess.py 402-441: names in lines; [line] is the line so far *)
Fixpoint namesText (indent : nat) (line : string) (l : list string) : string :=
  match l with
  | [] => ""
  | [t] => (line ++ "'" ++ t ++ "'" ++ "]" ++ NL)%string
  | t :: l' =>
      let line1 := (line ++ "'" ++ t ++ "'" ++ ",")%string in
      if 50 <? slen line1 then (line1 ++ NL ++ blanks indent ++ namesText indent "" l')%string else namesText indent line1 l'
  end.
(** KMCConfiguration._script, KMCConfiguration.py 336-411.  "'" + t raises a TypeError for a bucket. *)
Definition configurationScript (name : string) (kl : klattice) (kc : kconf) : outcome string :=
  try types <- (match kc_types kc with KPlain l => Ok l | KBuckets [] => Ok [] | KBuckets (_ :: _) => Raise TypeError end) ;;
  let possible := filter (fun t => negb (String.eqb t "*")) (map fst (kc_possible kc)) in
  Ok (latticeScript "lattice" kl ++ heading "Configuration" ++
      "types = " ++ namesText 9 "[" types ++ NL ++
      "possible_types = " ++ namesText 18 "[" possible ++ NL ++
      name ++ " = KMCConfiguration(" ++ NL ++ "    lattice=lattice," ++ NL ++ "    types=types," ++ NL ++ "    possible_types=possible_types)" ++ NL)%string.
(** KMCProcess.py 377-397 *)
Fixpoint coordsText (first : bool) (l : list coord) : string :=
  match l with
  | [] => ""
  | [c] => ((if first then "" else blanks 15) ++ vectorText c ++ "]" ++ NL)%string
  | c :: l' => ((if first then "" else blanks 15) ++ vectorText c ++ "," ++ NL ++ coordsText false l')%string
  end.
(** %2i *)
Definition fmt2i (z : Z) : string := padLeft 2 (showZ z).
(** KMCProcess.py 447-459 *)
Fixpoint movesText (l : list (Z * coord)) : string :=
  match l with
  | [] => ""
  | [(i, v)] => ("( " ++ fmt2i i ++ "," ++ vectorText v ++ ")]" ++ NL)%string
  | (i, v) :: l' => ("( " ++ fmt2i i ++ "," ++ vectorText v ++ ")," ++ NL ++ blanks 19 ++ movesText l')%string
  end.
(** KMCProcess.py 462-467 *)
Fixpoint basisSitesText (l : list Z) : string :=
  match l with [] => "" | [b] => (showZ b ++ "]")%string | b :: l' => (showZ b ++ "," ++ basisSitesText l')%string end.
(** KMCProcess._script, KMCProcess.py 360-487 *)
Definition processScript (name : string) (p : kproc) : string :=
  ("coordinates = [" ++ coordsText true (kp_coords p) ++ NL ++
   "elements_before = " ++ namesText 19 "[" (kp_before p) ++
   "elements_after  = " ++ namesText 19 "[" (kp_after p) ++
   "move_vectors    = " ++ (match kp_moves p with [] => "None" ++ NL | mvs => "[" ++ movesText mvs end) ++
   "basis_sites     = [" ++ basisSitesText (kp_basis p) ++ NL ++
   "rate_constant   = " ++ ff (kp_rate p) ++ NL ++ NL ++
   name ++ " = KMCProcess(" ++ NL ++ "    coordinates=coordinates," ++ NL ++ "    elements_before=elements_before," ++ NL ++ "    elements_after=elements_after," ++ NL ++
   "    move_vectors=move_vectors," ++ NL ++ "    basis_sites=basis_sites," ++ NL ++ "    rate_constant=rate_constant)" ++ NL ++ NL)%string.
(** "process_%i" *)
Definition processName (i : Z) : string := ("process_" ++ showZ i)%string.
(** KMCInteractions.py 291-294: the scripts of the processes from number i on.  A KMCBucketProcess has no method _script. *)
Fixpoint processScripts (i : Z) (l : list kprocess) : outcome string :=
  match l with
  | [] => Ok ""
  | KPlainP p :: l' => try r <- processScripts (i + 1) l' ;; Ok (processScript (processName i) p ++ r)%string
  | KBucketP _ :: _ => Raise AttributeError
  end.
(** KMCInteractions.py 296-307: the names of the n processes from number i on *)
Fixpoint processNames (n : nat) (i : Z) : string :=
  match n with
  | O => ""
  | S O => ((if Z.eqb i 0 then "" else blanks 13) ++ processName i ++ "]" ++ NL)%string
  | S n' => ((if Z.eqb i 0 then "" else blanks 13) ++ processName i ++ "," ++ NL ++ processNames n' (i + 1)%Z)%string
  end.
(** KMCInteractions._script, KMCInteractions.py 275-326: the rate calculator is not part of it *)
Definition interactionsScript (name : string) (ki : kinter) : outcome string :=
  try ps <- processScripts 0 (ki_processes ki) ;;
  Ok (heading "Interactions" ++ ps ++ "processes = [" ++ processNames (length (ki_processes ki)) 0 ++ NL ++
      name ++ " = KMCInteractions(" ++ NL ++ "    processes=processes," ++ NL ++ "    implicit_wildcards=" ++ boolText (ki_wild ki) ++ ")" ++ NL)%string.
(** KMCLatticeModel._script, KMCLatticeModel.py 288-316 *)
Definition modelScript (name : string) (kl : klattice) (kc : kconf) (ki : kinter) : outcome string :=
  try c <- configurationScript "configuration" kl kc ;;
  try i <- interactionsScript "interactions" ki ;;
  Ok (c ++ i ++ heading "Lattice model" ++ name ++ " = KMCLatticeModel(" ++ NL ++ "    configuration=configuration," ++ NL ++ "    interactions=interactions)" ++ NL)%string.

(** ** Reading *)
Inductive object := OCell (u : ucell) | OLattice (kl : klattice) | OConfig (kl : klattice) (kc : kconf) | OProcess (p : kproc) | OInter (ki : kinter)
  | OModel (kl : klattice) (kc : kconf) (ki : kinter).
(** the argument with the given name; all arguments of the constructors have the default None *)
Definition arg (args : list (string * pyval)) (x : string) : pyval := match getVar args x with Some v => v | None => VNone end.
Definition onlyArgs (args : list (string * pyval)) (names : list string) : bool := forallb (fun a => existsb (String.eqb (fst a)) names) args.
Definition objectAt (objs : list object) (v : pyval) : option object := match v with VOther n => zget objs n | _ => None end.
(** the constructors of the classes, called with keyword arguments; an unknown keyword is a TypeError.
    Simplification: the package has more names than these. *)
Definition construct (objs : list object) (cls : string) (args : list (string * pyval)) : outcome object :=
  let obj x := objectAt objs (arg args x) in
  let only names (k : outcome object) := if onlyArgs args names then k else Raise TypeError in
  if String.eqb cls "KMCUnitCell" then
    only ["cell_vectors"; "basis_points"] (try u <- KMCUnitCell U (arg args "cell_vectors") (arg args "basis_points") ;; Ok (OCell u))
  else if String.eqb cls "KMCLattice" then
    only ["unit_cell"; "repetitions"; "periodic"]
      (try kl <- KMCLattice U (match obj "unit_cell" with Some (OCell u) => Some u | _ => None end) (arg args "repetitions") (arg args "periodic") ;; Ok (OLattice kl))
  else if String.eqb cls "KMCConfiguration" then
    only ["lattice"; "types"; "possible_types"; "default_type"]
      match obj "lattice" with
      | Some (OLattice kl) => try kc <- KMCConfiguration U (kl_lat kl) (arg args "types") (arg args "default_type") (arg args "possible_types") ;; Ok (OConfig kl kc)
      | _ => Raise KmcError
      end
  else if String.eqb cls "KMCProcess" then
    only ["coordinates"; "elements_before"; "elements_after"; "move_vectors"; "basis_sites"; "rate_constant"]
      (try p <- KMCProcess U (arg args "coordinates") (arg args "elements_before") (arg args "elements_after") (arg args "move_vectors") (arg args "basis_sites") (arg args "rate_constant") ;; Ok (OProcess p))
  else if String.eqb cls "KMCInteractions" then
    only ["processes"; "implicit_wildcards"]
      (try ki <- KMCInteractions (option_map (map (fun v => match objectAt objs v with Some (OProcess p) => Some (KPlainP p) | _ => None end)) (asSeq (arg args "processes"))) (arg args "implicit_wildcards") None ;;
       Ok (OInter ki))
  else if String.eqb cls "KMCLatticeModel" then
    only ["configuration"; "interactions"]
      match obj "configuration", obj "interactions" with
      | Some (OConfig kl kc), Some (OInter ki) => Ok (OModel kl kc ki)
      | _, _ => Raise KmcError
      end
  else Raise NotModelled.
(** getScriptComponent, SaveAndReadUtilities.py 54-85, for the contents of the file: the first variable that holds an object of the class *)
Definition scriptComponent {B} (pick : object -> option B) (file : string) : outcome (option B) :=
  try st <- execFile (floatOf U) construct file ;;
  Ok (hd None (filter (fun o => match o with Some _ => true | None => false end) (map (fun xv => o <- objectAt (st_objs st) (snd xv) ;; pick o) (st_vars st)))).
(** KMCConfigurationFromScript 15-25, KMCInteractionsFromScript 28-38, KMCLatticeModelFromScript 41-51 *)
Definition configurationFromScript := scriptComponent (fun o => match o with OConfig kl kc => Some (kl, kc) | _ => None end).
Definition interactionsFromScript := scriptComponent (fun o => match o with OInter ki => Some ki | _ => None end).
Definition latticeModelFromScript := scriptComponent (fun o => match o with OModel kl kc ki => Some (kl, kc, ki) | _ => None end).
(** the line a user puts before a script *)
Definition importLine : string := ("from KMCLib import *" ++ NL)%string.
End Script.
