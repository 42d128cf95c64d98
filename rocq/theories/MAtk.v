(** Model of KMCConfiguration._atkScript, python/src/KMCLib/CoreComponents/KMCConfiguration.py 413-486: the script for the program ATK that represents the atoms of a configuration. *)
From Verif Require Export MConfig MScript.
Open Scope string_scope.
Open Scope list_scope.
Open Scope Z_scope.

(** the argument types_map, a dict of strings *)
Definition dictGet (m : list (string * string)) (t : string) : option string := option_map snd (find (fun kv => String.eqb (fst kv) t) m).
(** 427-432 *)
Definition atkHeader : string :=
  ("# ----------------------------------------------------------" ++ NL ++ "# ATK 12.8.2 BulkConfiguration script generated from KMCLib" ++ NL ++ "# configuration version 1.0." ++ NL ++
   "# ----------------------------------------------------------" ++ NL ++ NL)%string.
(** 475-483 *)
Definition atkConfiguration : string :=
  ("# Setup the configuration." ++ NL ++ "bulk_configuration = BulkConfiguration(" ++ NL ++ "    bravais_lattice=lattice," ++ NL ++ "    elements=elements," ++ NL ++
   "    fractional_coordinates=coordinates )" ++ NL ++ NL ++ "# ----------------------------------------------------------" ++ NL)%string.

Section Atk.
(** The float 1.0 is U.  Simplification: products and quotients are exact until they are formatted. *)
Context (U : Z).
(** 443-445: one vector, already multiplied by the number of repetitions (438-440) *)
Definition atkVector (name : string) (rep : Z) (v : coord) : string :=
  (name ++ " = [ " ++ fmtF 12 8 U (cx v * rep) ++ ", " ++ fmtF 12 8 U (cy v * rep) ++ ", " ++ fmtF 12 8 U (cz v * rep) ++ "]*Angstrom" ++ NL)%string.
(** 434-446 *)
Definition atkCell (kl : klattice) : string :=
  let '(a, b, c) := uc_vectors (kl_cell kl) in
  ("# Specify the lattice parameters." ++ NL ++ atkVector "vector_a" (lt_ra (kl_lat kl)) a ++ atkVector "vector_b" (lt_rb (kl_lat kl)) b ++ atkVector "vector_c" (lt_rc (kl_lat kl)) c ++
   "lattice = UnitCell(vector_a, vector_b, vector_c)" ++ NL ++ NL)%string.
(** 452 *)
Definition atkAtoms (m : list (string * string)) (types : list string) (coords : list coord) : list (string * coord) :=
  flat_map (fun tc => match dictGet m (fst tc) with Some e => [(e, snd tc)] | None => [] end) (combine types coords).
(** 464, 466: the coordinates times one_over_rep (449-451) *)
Definition atkPoint (L : lattice) (c : coord) : string :=
  ("[ " ++ fmtE 15 8 (U * lt_ra L) (cx c) ++ ", " ++ fmtE 15 8 (U * lt_rb L) (cy c) ++ ", " ++ fmtE 15 8 (U * lt_rc L) (cz c) ++ "]")%string.
(** 460-472: the loop; [row] is this_row; what is added to elements_script and to coordinates_script *)
Fixpoint atkLoop (L : lattice) (row : Z) (atoms : list (string * coord)) : string * string :=
  match atoms with
  | [] => ("", "")
  | (t, c) :: rest =>
      let row1 := row + 1 in
      match rest with
      | [] => ((t ++ "]" ++ NL ++ NL)%string, (atkPoint L c ++ "]" ++ NL ++ NL)%string)
      | _ => let (e, x) := atkLoop L (if Z.eqb row1 6 then 0 else row1) rest in
             ((t ++ (if Z.eqb row1 6 then "," ++ NL ++ blanks 12 else ", ") ++ e)%string, (atkPoint L c ++ "," ++ NL ++ blanks 15 ++ x)%string)
      end
  end.
(** 413-486; types and coords: atomIDTypes() and atomIDCoordinates() *)
Definition atkText (kl : klattice) (m : list (string * string)) (types : list string) (coords : list coord) : string :=
  let (e, x) := atkLoop (kl_lat kl) 0 (atkAtoms m types coords) in
  (atkHeader ++ atkCell kl ++ ("# Define the elements." ++ NL ++ "elements = [" ++ e) ++ ("# Define the coordinates." ++ NL ++ "coordinates = [" ++ x) ++ atkConfiguration)%string.
Definition atkScript (kl : klattice) (cf : config) (m : list (string * string)) : string := atkText kl m (cf_aidelements cf) (cf_aidcoords cf).
End Atk.
