(** Specification: the arguments of the process constructors in the terms of the user. *)
From Verif Require Export MPyProcess SBuild.
Open Scope string_scope.
Open Scope list_scope.
Open Scope Z_scope.

(** the Python value is a sequence of triples of floats *)
Definition readsVector (v : pyval) (c : coord) : Prop := asSeq v = Some [VFloat (FNum (cx c)); VFloat (FNum (cy c)); VFloat (FNum (cz c))].
Definition readsCoords (v : pyval) (cs : list coord) : Prop := exists l, asSeq v = Some l /\ Forall2 readsVector l cs.
(** a sequence of tuples: an index and a vector *)
Definition readsMove (v : pyval) (iv : Z * coord) : Prop := exists w rest, v = VTuple (VInt (fst iv) :: w :: rest) /\ readsVector w (snd iv).
Definition readsMoves (v : pyval) (mvs : list (Z * coord)) : Prop := exists l, asSeq v = Some l /\ Forall2 readsMove l mvs.
Definition readsNames (v : pyval) (ts : list string) : Prop := v = VList (map VStr ts).

(** the position that an index denotes: negative ones count from the end *)
Definition startOf (n i : Z) : Z := if i <? 0 then n + i else i.
(** the vector (i,v) leads from the position number k to the position number j, the first of the positions that lie where the vector ends *)
Definition leads (cs : list coord) (iv : Z * coord) (k j : Z) : Prop :=
  k = startOf (zlen cs) (fst iv) /\ exists a, zget cs k = Some a /\ zget cs j = Some (cadd a (snd iv)) /\ forall j', 0 <= j' < j -> zget cs j' <> Some (cadd a (snd iv)).

(** the two positions i and j hold each other's type afterwards, and nothing else changes *)
Definition swaps (before after : list string) (i j : Z) : Prop :=
  i < j /\ zget before i <> zget before j /\ zget before i = zget after j /\ zget before j = zget after i /\
  0 <= i /\ j < zlen before /\ forall k, k <> i -> k <> j -> zget before k = zget after k.

(** the process as rows: position (relative to the first one), types, and the first of the vectors that start there *)
Definition vectorFrom (n : Z) (mvs : list (Z * coord)) (k : Z) : option coord :=
  option_map snd (find (fun iv => startOf n (fst iv) =? k) mvs).
Definition rowsOf (cs : list coord) (before after : list string) (mvs : list (Z * coord)) : list row :=
  map (fun x => let '(c, b, a, k) := x in mkRow (csub c (hd czero cs)) b a (vectorFrom (zlen cs) mvs k))
      (combine (combine (combine cs before) after) (zrange 0 (zlen cs - 1))).
(** the rows a process object holds *)
Definition kpRows (p : kproc) : list row := rowsOf (kp_coords p) (kp_before p) (kp_after p) (kp_moves p).

(** a non-empty sequence of integers, none negative *)
Definition readsBasis (v : pyval) (bs : list Z) : Prop := exists l, asSeq v = Some l /\ l <> [] /\ Forall2 (fun x b => asInt x = Some b) l bs /\ forall b, In b bs -> 0 <= b.
(** a finite float that is not negative *)
Definition readsRate (v : pyval) (r : Z) : Prop := v = VFloat (FNum r) /\ 0 <= r.
(** the update of a bucket process: for every position the changes, each a number and a name *)
Definition readsChange (v : pyval) (kz : Z * string) : Prop := exists n rest, asSeq v = Some (n :: VStr (snd kz) :: rest) /\ asInt n = Some (fst kz).
Definition readsChanges (v : pyval) (l : list (Z * string)) : Prop := exists items, asSeq v = Some items /\ Forall2 readsChange items l.
Definition readsUpdate (v : pyval) (ls : list (list (Z * string))) : Prop := exists items, asSeq v = Some items /\ Forall2 readsChanges items ls.
(** the change given for a name: the last one if there are several *)
Definition lastChange (l : list (Z * string)) (s : string) : Z := match find (fun kz => String.eqb (snd kz) s) (rev l) with Some kz => fst kz | None => 0 end.
