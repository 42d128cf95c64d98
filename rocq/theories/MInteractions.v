(** Model of c++/src/interactions.{h,cpp} and of the rate calculator interface. *)
From Verif Require Export MProcess.
Open Scope Z_scope.
Open Scope list_scope.

(** The custom rate calculator (ratecalculator.h; python PluginInterfaces/KMCRateCalculatorPlugin.py).
    An arbitrary function of what the backend passes: geometry, types before and after (or occupations
    and updates for bucket processes), rate constant, process number, global coordinate.
    Simplification: a rate calculator that raises is not modelled here. *)
Record ratecalc := mkRC {
  rc_plain : list coord -> list string -> list string -> Z -> Z -> coord -> Z;
  rc_bucket : list coord -> list bucket -> list bucket -> list string -> Z -> Z -> coord -> Z }.

(** interactions.h: members.  [in_procs] are the processes behind process_pointers_. *)
Record interactions := mkIN {
  in_procs : list process;
  in_table : list (Z * Z);
  in_wild : bool;
  in_custom : bool;
  in_rc : ratecalc }.

Definition set_procs (it : interactions) (ps : list process) : interactions :=
  mkIN ps (in_table it) (in_wild it) (in_custom it) (in_rc it).
Definition set_table (it : interactions) (t : list (Z * Z)) : interactions :=
  mkIN (in_procs it) t (in_wild it) (in_custom it) (in_rc it).

(** interactions.cpp 42-83: constructors *)
Definition mkInteractions (ps : list process) (wild custom : bool) (rc : ratecalc) : interactions :=
  mkIN ps (repeat (0, 0) (length ps)) wild custom rc.

(** interactions.cpp 88-101 *)
Definition maxRange (it : interactions) : Z :=
  fold_left (fun m p => Z.max m (pr_range p)) (in_procs it) 1.

(** interactions.cpp 142-172: walk along both lists and insert wildcards.
    Returns the new match list and the index mapping (in order of old_index).
    [new_index] counts the position in the new list. *)
Fixpoint insertWildcards (S : Z) (pl : list pentry) (cl : list centry) (new_index : Z)
  : list pentry * list Z :=
  match cl with
  | [] => (pl, [])
  | c :: cl' =>
      match pl with
      | [] => ([], [])
      | p :: pl' =>
          if samePoint S (pe_d2 p) (pe_c p) (ce_d2 c) (ce_c c) then
            let (l, m) := insertWildcards S pl' cl' (new_index + 1) in
            (p :: l, new_index :: m)
          else
            let (l, m) := insertWildcards S pl cl' (new_index + 1) in
            (initWildcard c :: l, m)
      end
  end.

(** interactions.cpp 116-185, one process *)
Definition expandProcess (L : lattice) (cf : config) (p : process) : option process :=
  match pr_basis p with
  | [basis_position] =>
      let ii := Z.quot (lt_ra L) 2 in
      let jj := Z.quot (lt_rb L) 2 in
      let kk := Z.quot (lt_rc L) 2 in
      index <- zget (indicesFromCell L ii jj kk) basis_position ;;
      cl <- zget (cf_mlists cf) index ;;
      let '(l, mapping) := insertWildcards (lt_unit L) (pr_ml p) cl 0 in
      idm <- omap (fun m : Z * Z => a <- zget mapping (fst m) ;; b <- zget mapping (snd m) ;; Some (a, b))
                  (pr_idmoves p) ;;
      Some (set_ml p l idm)
  | _ => Some p
  end.
(** interactions.cpp 106-186 *)
Definition updateProcessMatchLists (L : lattice) (cf : config) (it : interactions) : option interactions :=
  if in_wild it then
    ps <- omap (expandProcess L cf) (in_procs it) ;; Some (set_procs it ps)
  else Some it.

(** interactions.cpp 191-200 *)
Definition totalAvailableSites (it : interactions) : Z :=
  zsum (map (fun p => zlen (pr_sites p)) (in_procs it)).

(** interactions.cpp 205-224 *)
Fixpoint probTable (previous : Z) (ps : list process) : list (Z * Z) :=
  match ps with
  | [] => []
  | p :: ps' => (pr_total p + previous, zlen (pr_sites p)) :: probTable (previous + pr_total p) ps'
  end.
Definition updateProbabilityTable (it : interactions) : interactions :=
  set_table it (probTable 0 (in_procs it)).

(** interactions.h 102: probability_table_.back().first *)
Definition totalRate (it : interactions) : option Z :=
  e <- zget (in_table it) (zlen (in_table it) - 1) ;; Some (fst e).

(** interactions.cpp 25-37: pairComp(element, (rnd,1)); the value is always the second argument
    of the comparison in std::lower_bound, so the test on p2.second looks at the constant 1. *)
Definition pairComp (p1 : Z * Z) (u : deviate) (total : Z) (second : Z) : bool :=
  if second =? 0 then false else belowDev u total (fst p1).
(** interactions.cpp 229-254 *)
Definition pickProcessIndex (it : interactions) (u : deviate) : option Z :=
  total <- totalRate it ;;
  lower_bound (fun e => pairComp e u total 1) (in_table it).

(** interactions.cpp 259-267: returns the index and the interactions with the updated rate table *)
Definition pickProcess (it : interactions) (u : deviate) : option (Z * interactions) :=
  index <- pickProcessIndex it u ;;
  p <- zget (in_procs it) index ;;
  p' <- updateRateTable p ;;
  ps <- zset (in_procs it) index p' ;;
  Some (index, set_procs it ps).

(** interactions.cpp 272-278 *)
Definition clearMatching (it : interactions) : interactions :=
  set_procs it (map clearSites (in_procs it)).
