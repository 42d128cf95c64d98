(** Model of the types input: python/src/KMCLib/Utilities/CheckUtilities.py (checkTypes, checkAndNormaliseBucketEntry),
    python/src/KMCLib/Utilities/ConversionUtilities.py, python/src/KMCLib/CoreComponents/KMCConfiguration.py (constructor and _backend). *)
From Verif Require Export MPy MConfig.
Open Scope string_scope.
Open Scope list_scope.
Open Scope Z_scope.

Definition TypeError : exn := OtherExn 1.
Definition IndexError : exn := OtherExn 2.
(** for a in l: f(a), collecting the results; the first exception ends it *)
Fixpoint oall {A B} (f : A -> outcome B) (l : list A) : outcome (list B) :=
  match l with [] => Ok [] | a :: l' => try b <- f a ;; try bs <- oall f l' ;; Ok (b :: bs) end.
Fixpoint ofoldl {A S} (f : S -> A -> outcome S) (l : list A) (s : S) : outcome S :=
  match l with [] => Ok s | a :: l' => try s' <- f s a ;; ofoldl f l' s' end.

Section Values.
(** the integer that stands for the float 1.0 (MPy.v) *)
Context (funit : Z).
(** numbers as floats *)
Definition pyNum (v : pyval) : option pyfloat :=
  match v with VInt z => Some (FNum (z * funit)) | VBool b => Some (FNum ((if b then 1 else 0) * funit)) | VFloat f => Some f | _ => None end.
Definition pyfloatEq (f g : pyfloat) : bool :=
  match f, g with FNum x, FNum y => x =? y | FInf, FInf => true | FNegInf, FNegInf => true | _, _ => false end.
Definition pyfloatAdd (f g : pyfloat) : pyfloat :=
  match f, g with
  | FNum x, FNum y => FNum (x + y)
  | FNan, _ => FNan | _, FNan => FNan
  | FInf, FNegInf => FNan | FNegInf, FInf => FNan
  | FInf, _ => FInf | _, FInf => FInf
  | FNegInf, _ => FNegInf | _, FNegInf => FNegInf
  end.
(** the operator ==; objects of other classes are equal to themselves only *)
Fixpoint pyEq (v w : pyval) {struct v} : bool :=
  let go := fix go (l m : list pyval) : bool := match l, m with [], [] => true | a :: l', b :: m' => pyEq a b && go l' m' | _, _ => false end in
  match pyNum v, pyNum w with
  | Some f, Some g => pyfloatEq f g
  | _, _ =>
      match v, w with
      | VNone, VNone => true
      | VStr s, VStr t => String.eqb s t
      | VList l, VList m => go l m
      | VTuple l, VTuple m => go l m
      | VOther n, VOther m => n =? m
      | _, _ => false
      end
  end.
(** the operator +.  Simplification: objects of other classes cannot be added. *)
Definition pyAdd (v w : pyval) : outcome pyval :=
  match asInt v, asInt w with
  | Some a, Some b => Ok (VInt (a + b))
  | _, _ =>
      match pyNum v, pyNum w with
      | Some f, Some g => Ok (VFloat (pyfloatAdd f g))
      | _, _ =>
          match v, w with
          | VStr s, VStr t => Ok (VStr (s ++ t))
          | VList l, VList m => Ok (VList (l ++ m))
          | VTuple l, VTuple m => Ok (VTuple (l ++ m))
          | _, _ => Raise TypeError
          end
      end
  end.
(** the elements t[0] and t[1] of a tuple *)
Definition fst_ (t : list pyval) : outcome pyval := match t with a :: _ => Ok a | [] => Raise IndexError end.
Definition snd_ (t : list pyval) : outcome pyval := match t with _ :: b :: _ => Ok b | _ => Raise IndexError end.
Definition instInt (v : pyval) : bool := match asInt v with Some _ => true | None => false end.
Definition instStr (v : pyval) : bool := match v with VStr _ => true | _ => false end.
Definition instTuple (v : pyval) : bool := match v with VTuple _ => true | _ => false end.

(** CheckUtilities.py 304-312: one element of a bucket given as a list.  Line 308 reads "not len(tt) == 2 and isinstance(tt[0], int) and isinstance(tt[1], str)". *)
Definition listElement (v : pyval) : outcome (list pyval) :=
  match v with
  | VStr s => Ok [VInt 1; VStr s]
  | VTuple u =>
      if negb (zlen u =? 2) then
        try a <- fst_ u ;;
        if instInt a then try b <- snd_ u ;; if instStr b then Raise KmcError else Ok u else Ok u
      else Ok u
  | _ => Raise KmcError
  end.
(** 324-332: add the later entries with the name of [first] to it, putting their indices on the skip list; [k] is the index of the head of [later] *)
Fixpoint addSame (first : list pyval) (later : list (list pyval)) (k : Z) (skip : list Z) : outcome (list pyval * list Z) :=
  match later with
  | [] => Ok (first, skip)
  | second :: later' =>
      try n1 <- snd_ first ;;
      try n2 <- snd_ second ;;
      if pyEq n1 n2 then
        try c1 <- fst_ first ;; try c2 <- fst_ second ;; try c <- pyAdd c1 c2 ;;
        addSame [c; n1] later' (k + 1) (skip ++ [k])
      else addSame first later' (k + 1) skip
  end.
(** 320-335 *)
Fixpoint mergeEntries (l : list (list pyval)) (i : Z) (skip : list Z) : outcome (list (list pyval)) :=
  match l with
  | [] => Ok []
  | first :: later =>
      if zmem i skip then mergeEntries later (i + 1) skip
      else try r <- addSame first later (i + 1) skip ;; try rest <- mergeEntries later (i + 1) (snd r) ;; Ok (fst r :: rest)
  end.
(** checkAndNormaliseBucketEntry, CheckUtilities.py 290-348.  The result is a list of tuples. *)
Definition normaliseEntry (t : pyval) : outcome (list (list pyval)) :=
  match t with
  | VList l => try n <- oall listElement l ;; mergeEntries n 0 []
  | VTuple u => match u with [a; b] => if instInt a && instStr b then Ok [u] else Raise KmcError | _ => Raise KmcError end
  | VStr s => Ok [[VInt 1; VStr s]]
  | _ => Raise KmcError
  end.

(** ConversionUtilities.toShortBucketsFormat 196-218, one site *)
Definition shortSite (t : pyval) : list (list pyval) :=
  match t with
  | VStr s => [[VInt 1; VStr s]]
  | VList l => flat_map (fun v => match v with VStr s => [[VInt 1; VStr s]] | VTuple u => [u] | _ => [] end) l
  | VTuple u => [u]
  | _ => []
  end.
(** 228-238: [later] are the entries after the present one *)
Fixpoint collectSame (t : list (list pyval)) (taken : list pyval) : outcome (list (list pyval)) :=
  match t with
  | [] => Ok []
  | t0 :: later =>
      try occ <- fst_ t0 ;; try name <- snd_ t0 ;;
      if existsb (pyEq name) taken then collectSame later taken
      else
        try occ' <- ofoldl (fun o t1 => try n1 <- snd_ t1 ;; if pyEq n1 name then try c1 <- fst_ t1 ;; pyAdd o c1 else Ok o) later occ ;;
        try rest <- collectSame later (taken ++ [name]) ;;
        Ok ([occ'; name] :: rest)
  end.
(** toShortBucketsFormat, ConversionUtilities.py 186-242 *)
Definition toShortBucketsFormat (types : list pyval) : outcome (list (list (list pyval))) :=
  oall (fun t => collectSame (shortSite t) []) types.

(** ** KMCConfiguration *)
(** the stored types: KMCConfiguration.py 121; a bucket is a list of tuples *)
Inductive ktypes := KPlain (l : list string) | KBuckets (l : list (list (list pyval))).
Record kconf := mkKC { kc_types : ktypes; kc_possible : tmap }.

(** isinstance(tt, (int, int, int, int, str)[i]) for all i, tt in enumerate(t), all of them evaluated: lines 139 and 178 *)
Definition longShape (t : list pyval) : outcome bool :=
  if 5 <? zlen t then Raise IndexError
  else Ok (forallb (fun iv => if fst iv <? 4 then instInt (snd iv) else instStr (snd iv)) (combine (zrange 0 4) t)).
(** __detectTypesFormat, lines 124-145 *)
Inductive tformat := Short | Long | Buckets.
Definition detectTypesFormat (types : list pyval) : outcome tformat :=
  if forallb instStr types then Ok Short
  else if forallb instTuple types then
    match types with
    | VTuple t0 :: _ => try b <- longShape t0 ;; Ok (if b then Long else Buckets)
    | _ => Ok Buckets
    end
  else Ok Buckets.
(** checkTypes, CheckUtilities.py 200-226, for a list *)
Definition checkTypes (types : list pyval) (n : Z) : outcome (list string) :=
  try l <- oall (fun t => match t with VStr s => Ok s | _ => Raise KmcError end) types ;;
  if zlen types =? n then Ok l else Raise KmcError.
(** lines 173-197, one element of the long format *)
Definition setLong (L : lattice) (acc : list string) (t : pyval) : outcome (list string) :=
  match t with
  | VTuple [a; b; c; d; e] =>
      match asInt a, asInt b, asInt c, asInt d, e with
      | Some i, Some j, Some k, Some m, VStr s =>
          if (i <? 0) || (lt_ra L <=? i) then Raise KmcError
          else if (j <? 0) || (lt_rb L <=? j) then Raise KmcError
          else if (k <? 0) || (lt_rc L <=? k) then Raise KmcError
          else if (m <? 0) || (lt_nb L <=? m) then Raise KmcError
          else match zset acc (globalIndex L i j k m) s with
               | Some acc' => Ok acc' | None => Raise IndexError end
      | _, _, _, _, _ => Raise KmcError
      end
  | _ => Raise KmcError
  end.
(** __checkAndSetLongTypes, lines 159-201 *)
Definition longTypes (L : lattice) (types : list pyval) (default : pyval) : outcome (list string) :=
  match default with
  | VStr s => ofoldl (setLong L) types (repeat s (Z.to_nat (nsites L)))
  | _ => Raise KmcError
  end.
(** sorted(set(l)) *)
Definition sortedSet (l : list string) : list string := isort String.ltb (nodup string_dec l).
(** the dict as a list of keys and values in order of insertion *)
Fixpoint dset (m : tmap) (s : string) (v : Z) : tmap :=
  match m with [] => [(s, v)] | (k, w) :: m' => if String.eqb k s then (k, v) :: m' else (k, w) :: dset m' s v end.
(** dict(zip(names, range(len(names)))) *)
Definition dictZip (names : list string) : tmap :=
  fold_left (fun m kv => dset m (fst kv) (snd kv)) (combine names (zrange 0 (zlen names - 1))) [].
(** lines 98-118 *)
Definition possibleTypes (possible : pyval) (present : list string) : outcome tmap :=
  try names <- (match possible with
                | VNone => Ok present
                | VList l =>
                    match oall (fun t => match t with VStr s => Ok s | _ => Raise KmcError end) l with
                    | Ok names => if forallb (fun s => existsb (String.eqb s) names) present then Ok names else Raise KmcError
                    | Raise e => Raise e
                    end
                | _ => Raise KmcError
                end) ;;
  if existsb (String.eqb "*") names then Raise KmcError else Ok (dictZip ("*" :: names)).
(** lines 91-95: the names in all buckets.  Simplification: a name that is not a string, which the checks let through in a malformed tuple, ends with a TypeError here; in
    the code the set, the sort or the construction of the backend raises it. *)
Definition bucketNames (ts : list (list (list pyval))) : outcome (list string) :=
  oall (fun t => try n <- snd_ t ;; match n with VStr s => Ok s | _ => Raise TypeError end) (concat ts).
(** The constructor, lines 30-122 *)
Definition KMCConfiguration (L : lattice) (types default possible : pyval) : outcome kconf :=
  match types with
  | VList l =>
      try f <- detectTypesFormat l ;;
      match f with
      | Short =>
          match default with
          | VNone => try ts <- checkTypes l (nsites L) ;; try pt <- possibleTypes possible (sortedSet ts) ;; Ok (mkKC (KPlain ts) pt)
          | _ => Raise KmcError
          end
      | Long => try ts <- longTypes L l default ;; try pt <- possibleTypes possible (sortedSet ts) ;; Ok (mkKC (KPlain ts) pt)
      | Buckets =>
          match default with
          | VNone =>
              try ts <- oall normaliseEntry l ;;
              try names <- bucketNames ts ;;
              try pt <- possibleTypes possible (sortedSet names) ;;
              Ok (mkKC (KBuckets ts) pt)
          | _ => Raise KmcError
          end
      end
  | _ => Raise KmcError
  end.
(** ConversionUtilities.stringListToStdVectorStdVectorString 56-74, bucketListToStdVectorStdVectorString 76-98; range() of something that is not an integer and
    push_back of something that is not a string raise TypeError *)
Definition repeatName (t : list pyval) : outcome (list string) :=
  try n <- fst_ t ;;
  match asInt n with
  | Some k => if k <=? 0 then Ok [] else try s <- snd_ t ;; match s with VStr x => Ok (repeat x (Z.to_nat k)) | _ => Raise TypeError end
  | None => Raise TypeError
  end.
Definition backendElements (c : kconf) : outcome (list (list string)) :=
  match kc_types c with
  | KPlain l => Ok (map (fun s => [s]) l)
  | KBuckets l => oall (fun b => try r <- oall repeatName b ;; Ok (concat r)) l
  end.
(** _backend, KMCConfiguration.py 300-320: the configuration of the C++ code for sites at the given coordinates *)
Definition backendConfiguration (c : kconf) (sites : list coord) : outcome (option config) :=
  try els <- backendElements c ;; Ok (mkConfiguration sites els (kc_possible c)).
(** types(), KMCConfiguration.py 218-232: e[0] of an empty vector raises IndexError *)
Definition typesQuery (c : kconf) (cf : config) : outcome (list pyval) :=
  match kc_types c with
  | KBuckets _ => Ok (map (fun e => VList (map VStr e)) (cf_elements cf))
  | KPlain _ => oall (fun e => match e with s :: _ => Ok (VStr s) | [] => Raise IndexError end) (cf_elements cf)
  end.
End Values.
(** stdVectorTypeBucketToPython, ConversionUtilities.py 244-277, one site; [names] is the type map.  [None]: no name for a number, an IndexError. *)
Definition bucketToPython (names : list string) (b : list Z) : option (list (Z * string)) :=
  r <- omap (fun j => t <- zget names j ;; n <- zget b j ;; Some (n, t)) (zrange 1 (zlen b - 1)) ;;
  Some (filter (fun nt => 0 <? fst nt) r).
