(** Model of the Python process classes: python/src/KMCLib/CoreComponents/KMCBaseProcess.py, KMCProcess.py, KMCBucketProcess.py,
    KMCLocalConfiguration.py and KMCInteractions._backend.  Coordinates and vectors are integers in units of 1/S, as in the other files.
    Simplification: [Unmodelled] stands for what happens with non-finite numbers in coordinates, vectors and rate constants (all are accepted by the checks)
    and with bool in place of an index. *)
From Verif Require Export MTypes MProcess.
Open Scope string_scope.
Open Scope list_scope.
Open Scope Z_scope.

Definition Unmodelled : exn := OtherExn 3.
Section Process.
Context (S : Z).

Definition asNum (v : pyval) : outcome Z := match v with VFloat (FNum x) => Ok x | VFloat _ => Raise Unmodelled | _ => Raise KmcError end.
Definition coordOf (l : list pyval) : outcome coord :=
  match l with
  | [x; y; z] => try a <- asNum x ;; try b <- asNum y ;; try c <- asNum z ;; Ok (mkC a b c)
  | _ => Raise KmcError
  end.
Definition seqOf (v : pyval) : outcome (list pyval) := match asSeq v with Some l => Ok l | None => Raise KmcError end.
(** checkCoordinateList, CheckUtilities.py 80-112 *)
Definition checkCoordinateList (v : pyval) : outcome (list coord) :=
  try l <- seqOf v ;; if zlen l <? 1 then Raise KmcError else oall (fun c => try s <- seqOf c ;; coordOf s) l.
(** centerCoordinates(coordinates, 0), CoordinateUtilities.py 14-31 *)
Definition centred (cs : list coord) : list coord := match cs with [] => [] | c0 :: _ => map (fun c => csub c c0) cs end.
(** checkSequenceOfPositiveIntegers, CheckUtilities.py 134-197 *)
Definition checkBasis (v : pyval) : outcome (list Z) :=
  try l <- seqOf v ;; if zlen l =? 0 then Raise KmcError else
  oall (fun b => match asInt b with Some z => if z <? 0 then Raise KmcError else Ok z | None => Raise KmcError end) l.
(** checkPositiveFloat with default None, CheckUtilities.py 260-288 *)
Definition checkRate (v : pyval) : outcome Z :=
  match v with VFloat (FNum x) => if x <? 0 then Raise KmcError else Ok x | VFloat FNegInf => Raise KmcError | VFloat _ => Raise Unmodelled | _ => Raise KmcError end.

Record kproc := mkKP { kp_coords : list coord; kp_before : list string; kp_after : list string; kp_moves : list (Z * coord); kp_basis : list Z; kp_rate : Z }.

(** __checkValidMoveElements, KMCProcess.py 109-125 *)
Definition listEq {A} (eqb : A -> A -> bool) : list A -> list A -> bool :=
  fix go (a b : list A) : bool := match a, b with [], [] => true | x :: a', y :: b' => eqb x y && go a' b' | _, _ => false end.
Definition checkMoveElements (before after : list string) : outcome unit :=
  if negb (listEq Bool.eqb (map (String.eqb "*") before) (map (String.eqb "*") after)) then Raise KmcError
  else if listEq String.eqb before after then Raise KmcError else Ok tt.

(** an index into a Python sequence of n elements: negative ones count from the end *)
Definition pyIndex (n i : Z) : outcome Z :=
  if (0 <=? i) && (i <? n) then Ok i else if (- n <=? i) && (i <? 0) then Ok (n + i) else Raise IndexError.
Definition pyGet {A} (l : list A) (i : Z) : outcome A :=
  try k <- pyIndex (zlen l) i ;; match zget l k with Some a => Ok a | None => Raise IndexError end.

(** sum(abs(coordinate - new_coord)) < 1.0e-8, KMCProcess.py 154-156 *)
Definition l1 (c : coord) : Z := Z.abs (cx c) + Z.abs (cy c) + Z.abs (cz c).
Definition hits (new c : coord) : bool := 100000000 * l1 (csub c new) <? S.
Fixpoint findFrom (f : coord -> bool) (cs : list coord) (k : Z) : option Z :=
  match cs with [] => None | c :: cs' => if f c then Some k else findFrom f cs' (k + 1) end.
(** lines 148-168: the loop over the move vectors *)
Fixpoint applyMoves (cs : list coord) (before after moved : list string) (mvs : list (Z * coord)) : outcome (list string) :=
  match mvs with
  | [] => Ok moved
  | (i, v) :: mvs' =>
      try old <- pyGet cs i ;;
      match findFrom (hits (cadd old v)) cs 0 with
      | None => Raise KmcError
      | Some j =>
          try b <- pyGet before i ;; try a <- pyGet after j ;;
          if String.eqb b a then
            match zset moved j b with Some moved' => applyMoves cs before after moved' mvs' | None => Raise IndexError end
          else Raise KmcError
      end
  end.
(** __reconstructMoveVectors, 217-250 *)
Definition differing (before after : list string) : list (string * string * Z) :=
  filter (fun x => let '(a, b, _) := x in negb (String.eqb a b)) (combine (combine before after) (zrange 0 (zlen before - 1))).
Definition reconstruct (cs : list coord) (before after : list string) : outcome (option (list (Z * coord))) :=
  match differing before after with
  | [(a0, b0, i0); (a1, b1, i1)] =>
      if String.eqb a0 b1 && String.eqb b0 a1 then
        try s <- pyGet cs i0 ;; try e <- pyGet cs i1 ;; Ok (Some [(i0, csub e s); (i1, csub s e)])
      else Ok None
  | _ => Ok None
  end.
(** __checkMoveVectorsFormat, 199-215, one vector; elements of the tuple after the second are ignored *)
Definition moveOf (v : pyval) : outcome (Z * coord) :=
  match v with
  | VTuple t =>
      try a <- fst_ t ;;
      match a with
      | VInt i => try b <- snd_ t ;; try s <- seqOf b ;; try c <- coordOf s ;; Ok (i, c)
      | VBool _ => Raise Unmodelled
      | _ => Raise KmcError
      end
  | _ => Raise KmcError
  end.
(** __checkMoveVectorsFormat and __checkValidMoveVectors, 129-215 *)
Definition checkMoveVectors (cs : list coord) (before after : list string) (v : pyval) : outcome (list (Z * coord)) :=
  try given <- (match v with
                | VNone => reconstruct cs before after
                | _ => try l <- seqOf v ;; try mvs <- oall moveOf l ;; Ok (Some mvs)
                end) ;;
  match given with
  | None => Ok []
  | Some mvs =>
      try moved <- applyMoves cs before after before mvs ;;
      if listEq String.eqb after moved then Ok mvs else Raise KmcError
  end.
(** sortCoordinatesDistance, CoordinateUtilities.py 34-93, with co_sort the original indices.  numpy.sort orders by distance, type1, x, y, z.
    Simplification: the distances are compared exactly, and elements equal in all keys (same place, same type) keep their order. *)
Record srow := mkSR { sr_c : coord; sr_d2 : Z; sr_before : string; sr_after : string; sr_old : Z }.
Definition srLt (a b : srow) : bool :=
  if sr_d2 a <? sr_d2 b then true else if sr_d2 b <? sr_d2 a then false else
  if String.ltb (sr_before a) (sr_before b) then true else if String.ltb (sr_before b) (sr_before a) then false else
  if cx (sr_c a) <? cx (sr_c b) then true else if cx (sr_c b) <? cx (sr_c a) then false else
  if cy (sr_c a) <? cy (sr_c b) then true else if cy (sr_c b) <? cy (sr_c a) then false else cz (sr_c a) <? cz (sr_c b).
Definition sortRows (cs : list coord) (before after : list string) : list srow :=
  isort srLt (map (fun x => let '(c, b, a, i) := x in mkSR c (cnorm2 (csub c (hd czero cs))) b a i) (combine (combine (combine cs before) after) (zrange 0 (zlen cs - 1)))).
(** __sortCoordinatesElementsAndMoveVectors, KMCProcess.py 252-294.  numpy.argsort is modelled by a stable sort. *)
Definition resortMoves (rows : list srow) (mvs : list (Z * coord)) : outcome (list (Z * coord)) :=
  try l <- oall (fun iv => try k <- pyIndex (zlen rows) (fst iv) ;; Ok (zfind (map sr_old rows) k, snd iv)) mvs ;;
  Ok (isort (fun a b => fst a <? fst b) l).
(** KMCProcess.__init__, 27-107.  KMCLocalConfiguration (30-78) centers the sorted coordinates once more. *)
Definition KMCProcess (coordinates before after moves basis rate : pyval) : outcome kproc :=
  try cs0 <- checkCoordinateList coordinates ;;
  let cs := centred cs0 in
  try bs <- checkBasis basis ;;
  try r <- checkRate rate ;;
  try b <- (match before with VList l => checkTypes l (zlen cs) | _ => Raise KmcError end) ;;
  try a <- (match after with VList l => checkTypes l (zlen cs) | _ => Raise KmcError end) ;;
  try u <- checkMoveElements b a ;;
  try mvs <- checkMoveVectors cs b a moves ;;
  let rows := sortRows cs b a in
  try mvs' <- resortMoves rows mvs ;;
  Ok (mkKP (centred (map sr_c rows)) (map sr_before rows) (map sr_after rows) mvs' bs r).

(** KMCProcess.__eq__, 296-342; numpy.linalg.norm of a matrix is the Frobenius norm *)
Definition close2 (bound : Z) (a b : list coord) : bool := bound * zsum (map (fun x => cnorm2 (csub (fst x) (snd x))) (combine a b)) <=? S * S.
Definition eqProcess (p q : kproc) : bool :=
  if negb (zlen (kp_basis q) =? zlen (kp_basis p)) then false
  else if negb (forallb (fun x => fst x =? snd x) (combine (kp_basis q) (kp_basis p))) then false
  else if negb (zlen (kp_coords q) =? zlen (kp_coords p)) then false
  else if negb (close2 10000000000 (kp_coords p) (kp_coords q)) then false
  else if negb (forallb (fun x => String.eqb (fst x) (snd x)) (combine (kp_before p) (kp_before q))) then false
  else if negb (forallb (fun x => String.eqb (fst x) (snd x)) (combine (kp_after p) (kp_after q))) then false
  else if negb (zlen (kp_moves p) =? zlen (kp_moves q)) then false
  else forallb (fun x => (fst (fst x) =? fst (snd x)) && close2 10000000000000000 [snd (fst x)] [snd (snd x)]) (combine (kp_moves p) (kp_moves q)).

(** KMCBucketProcess.__init__, KMCBucketProcess.py 24-89.  The update is stored unchecked. *)
Record kbucket := mkKB { kb_coords : list coord; kb_match : list (list (list pyval)); kb_update : pyval; kb_basis : list Z; kb_rate : Z }.
Definition KMCBucketProcess (coordinates minimum_match update basis rate : pyval) : outcome kbucket :=
  try cs0 <- checkCoordinateList coordinates ;;
  let cs := centred cs0 in
  try bs <- checkBasis basis ;;
  try r <- checkRate rate ;;
  try ms <- (match asSeq minimum_match with Some l => oall (normaliseEntry S) l | None => Raise TypeError end) ;;
  if negb (zlen ms =? zlen cs) then Raise KmcError else
  try names <- oall (fun t => snd_ t) (concat ms) ;;
  (* KMCLocalConfiguration normalises the entries again, line 75 *)
  try ms' <- oall (fun m => normaliseEntry S (VList (map VTuple m))) ms ;;
  Ok (mkKB (centred cs) ms' update bs r).
(** _all_present_types: KMCProcess.py 107, KMCBucketProcess.py 66-78 (without removing doublets) *)
Inductive kprocess := KPlainP (p : kproc) | KBucketP (b : kbucket).
Definition presentTypes (p : kprocess) : list pyval :=
  match p with
  | KPlainP p => map VStr (kp_before p ++ kp_after p)
  | KBucketP b => flat_map (fun t => match t with _ :: n :: _ => [n] | _ => [] end) (concat (kb_match b))
  end.
(** KMCBucketProcess._update, 102-124: a map from names to changes per position, later entries win; the Swig map takes strings and ints only *)
Definition updateEntry (v : pyval) : outcome (string * Z) :=
  try t <- (match v with VList l => Ok l | VTuple l => Ok l | VStr s => Ok (chars s) | _ => Raise TypeError end) ;;
  try a <- snd_ t ;; try b <- fst_ t ;;
  match a, asInt b with VStr s, Some z => Ok (s, z) | _, _ => Raise TypeError end.
Definition updateMap (v : pyval) : outcome tmap :=
  match asSeq v with Some l => try es <- oall updateEntry l ;; Ok (fold_left (fun m sz => dset m (fst sz) (snd sz)) es []) | None => Raise TypeError end.
Definition updateMaps (v : pyval) : outcome (list tmap) := match asSeq v with Some l => oall updateMap l | None => Raise TypeError end.

(** KMCInteractions._backend, KMCInteractions.py 159-270, for process number [number]; [None]: undefined behaviour in a C++ constructor.
    [custom]: cutoff and caching flag when there is a rate calculator. *)
Definition known (pt : tmap) (v : pyval) : bool := match v with VStr s => match tfind pt s with Some _ => true | None => false end | _ => false end.
Definition backendProcess (pt : tmap) (nbasis : Z) (custom : option (Z * bool)) (number : Z) (p : kprocess) : outcome (option process) :=
  let make first second rate basis origins vectors :=
    match custom with
    | None => mkProcess S first second rate basis origins vectors number
    | Some (cut, cache) => mkCustomProcess S first second rate basis cut origins vectors number cache
    end in
  match p with
  | KPlainP p =>
      Ok (first <- mkConfiguration (kp_coords p) (map (fun s => [s]) (kp_before p)) pt ;;
          second <- mkConfiguration (kp_coords p) (map (fun s => [s]) (kp_after p)) pt ;;
          make first second (kp_rate p) (filter (fun b => b <? nbasis) (kp_basis p)) (map fst (kp_moves p)) (map snd (kp_moves p)))
  | KBucketP b =>
      try els <- backendElements (mkKC (KBuckets (kb_match b)) pt) ;;
      try upd <- updateMaps (kb_update b) ;;
      Ok (first <- mkConfiguration (kb_coords b) els pt ;;
          make first (setUpdateInfo first upd) (kb_rate b) (filter (fun b => b <? nbasis) (kb_basis b)) [] [])
  end.
Definition backendProcesses (pt : tmap) (nbasis : Z) (custom : Z -> option (Z * bool)) (ps : list kprocess) : outcome (list (option process)) :=
  if forallb (fun p => forallb (known pt) (presentTypes p)) ps then
    oall (fun ip => backendProcess pt nbasis (custom (fst ip)) (fst ip) (snd ip)) (combine (zrange 0 (zlen ps - 1)) ps)
  else Raise KmcError.
End Process.
