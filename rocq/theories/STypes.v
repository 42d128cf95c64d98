(** Specification: what the types input means, in the terms of the user. *)
From Verif Require Export MTypes SBuild.
Open Scope string_scope.
Open Scope list_scope.
Open Scope Z_scope.

(** "A" is one particle of type A, (n,"A") is n particles of type A *)
Definition itemOf (v : pyval) : option (Z * string) :=
  match v with
  | VStr s => Some (1, s)
  | VTuple [n; VStr s] => option_map (fun k => (k, s)) (asInt n)
  | _ => None
  end.
(** the particles at one site: one of these, or a list of these *)
Definition entryOf (v : pyval) : option (list (Z * string)) :=
  match v with VList l => omap itemOf l | _ => option_map (fun x => [x]) (itemOf v) end.
(** how many particles of type s *)
Definition countOf (s : string) (l : list (Z * string)) : Z := zsum (map fst (filter (fun ks => String.eqb (snd ks) s) l)).
(** the names in order of first appearance, once each *)
Fixpoint firsts (l : list string) : list string :=
  match l with [] => [] | a :: l' => a :: filter (fun b => negb (String.eqb a b)) (firsts l') end.
(** one entry per type, in order of first appearance, with the total number of particles of that type *)
Definition totals (l : list (Z * string)) : list (Z * string) := map (fun s => (countOf s l, s)) (firsts (map snd l)).

(** an entry of the long format: cell, basis point, type *)
Definition longOf (v : pyval) : option (Z * Z * Z * Z * string) :=
  match v with
  | VTuple [a; b; c; d; VStr s] => i <- asInt a ;; j <- asInt b ;; k <- asInt c ;; m <- asInt d ;; Some (i, j, k, m, s)
  | _ => None
  end.
(** the type which a list of such entries gives to the basis point m of cell (i,j,k): that of the last entry naming it, or the default type *)
Fixpoint lastNamed (es : list (Z * Z * Z * Z * string)) (i j k m : Z) (default : string) : string :=
  match es with
  | [] => default
  | (i', j', k', m', s) :: es' => lastNamed es' i j k m (if (i =? i') && (j =? j') && (k =? k') && (m =? m') then s else default)
  end.
(** the number of occurrences of a name in a list of names *)
Definition occurs (s : string) (l : list string) : Z := zlen (filter (String.eqb s) l).
(** the argument possible_types is usable when these types are present: not given and no type is called "*", or a list of names without "*" that contains all of them *)
Definition possibleFits (possible : pyval) (present : list string) : Prop :=
  (possible = VNone /\ ~ In "*" present) \/ exists names, possible = VList (map VStr names) /\ ~ In "*" names /\ incl present names.
(** the possible types: the names given, or the names present in alphabetical order *)
Definition possibleNames (possible : pyval) (present : list string) : list string :=
  match possible with VList l => flat_map (fun v => match v with VStr s => [s] | _ => [] end) l | _ => sortedSet present end.
(** s occurs among the types of the configuration *)
Definition presentIn (c : kconf) (s : string) : Prop :=
  match kc_types c with
  | KPlain ts => In s ts
  | KBuckets bs => exists b t, In b bs /\ In t b /\ zget t 1 = Some (VStr s)
  end.
