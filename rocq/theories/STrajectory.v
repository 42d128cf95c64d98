(** Specification: how a reader understands a trajectory file.  A lattice trajectory is a Python program; this is the part of Python's grammar its frames need.
    A string literal has no escapes here: theorems are about names without double quotes, backslashes and line breaks. *)
From Verif Require Export MTrajectory STypes.
Open Scope string_scope.
Open Scope list_scope.
Open Scope Z_scope.

(** remove the prefix p *)
Fixpoint eat (p s : string) : option string :=
  match p, s with
  | EmptyString, _ => Some s
  | String c p', String d s' => if Ascii.eqb c d then eat p' s' else None
  | _, _ => None
  end.
(** split at the first c *)
Fixpoint upto (c : ascii) (s : string) : option (string * string) :=
  match s with
  | EmptyString => None
  | String d s' => if Ascii.eqb c d then Some ("", s') else r <- upto c s' ;; Some (String d (fst r), snd r)
  end.
(** line breaks and blanks inside brackets mean nothing *)
Fixpoint skipWhite (s : string) : string :=
  match s with String c s' => if Ascii.eqb c " " || Ascii.eqb c "010" then skipWhite s' else s | _ => s end.
Definition readZ (s : string) : option Z := option_map Z.of_int (NilZero.int_of_string s).
(** "A" *)
Definition readName (s : string) : option (string * string) := s1 <- eat DQ s ;; upto """" s1.
(** (2,"A") *)
Definition readPair (s : string) : option (Z * string * string) :=
  s1 <- eat "(" s ;; r <- upto "," s1 ;; n <- readZ (fst r) ;; q <- readName (snd r) ;; s2 <- eat ")" (snd q) ;; Some (n, fst q, s2).
Section Items.
Context {A : Type} (item : string -> option (A * string)).
(** items separated by commas, up to the closing bracket *)
Fixpoint readItems (fuel : nat) (s : string) : option (list A * string) :=
  match fuel with
  | O => None
  | S n =>
      r <- item s ;;
      match eat "," (snd r) with
      | Some s1 => q <- readItems n (skipWhite s1) ;; Some (fst r :: fst q, snd q)
      | None => s1 <- eat "]" (snd r) ;; Some ([fst r], s1)
      end
  end.
(** [item, ..., item], possibly empty *)
Definition readList (fuel : nat) (s : string) : option (list A * string) :=
  s1 <- eat "[" s ;; match eat "]" s1 with Some s2 => Some ([], s2) | None => readItems fuel s1 end.
End Items.
(** the types of a frame: a name for each site, or a list of (number, name) for each site *)
Inductive rtypes := RNames (l : list string) | RBuckets (l : list (list (Z * string))).
Definition readTypes (fuel : nat) (s : string) : option (rtypes * string) :=
  match readList readName fuel s with
  | Some (l, s1) => Some (RNames l, s1)
  | None => r <- readList (readList readPair fuel) fuel s ;; Some (RBuckets (fst r), snd r)
  end.
(** one frame of a lattice trajectory: the text of the time, the step, the types *)
Definition readFrame (s : string) : option (string * Z * rtypes * string) :=
  s1 <- eat "times.append(" s ;; t <- upto ")" s1 ;; s2 <- eat (NL ++ "steps.append(") (snd t) ;; n <- upto ")" s2 ;; z <- readZ (fst n) ;;
  s3 <- eat (NL ++ "types.append(") (snd n) ;; y <- readTypes (String.length s3) s3 ;; s4 <- eat (")" ++ NL) (snd y) ;; Some (fst t, z, fst y, s4).
Fixpoint readFrames (fuel : nat) (s : string) : option (list (string * Z * rtypes)) :=
  match s with
  | EmptyString => Some []
  | _ => match fuel with O => None | S n => r <- readFrame s ;; l <- readFrames n (snd r) ;; Some (fst r :: l) end
  end.
(** the frames in a lattice trajectory file with the given header *)
Definition framesIn (header file : string) : option (list (string * Z * rtypes)) := s <- eat header file ;; readFrames (String.length s) s.

(** One atom line of an xyz file: type, the three coordinates as text, atom number *)
Definition readRow (s : string) : option (string * (string * string * string) * Z * string) :=
  t <- upto " " (skipWhite s) ;; x <- upto " " (skipWhite (snd t)) ;; y <- upto " " (snd x) ;; z <- upto " " (snd y) ;; j <- upto "010" (skipWhite (snd z)) ;; k <- readZ (fst j) ;;
  Some (fst t, (fst x, fst y, fst z), k, snd j).
Fixpoint readRows (n : nat) (j : Z) (s : string) : option (list (string * (string * string * string)) * string) :=
  match n with
  | O => Some ([], s)
  | S n' => r <- readRow s ;; let '(t, c, k, s1) := r in if k =? j then q <- readRows n' (j + 1) s1 ;; Some ((t, c) :: fst q, snd q) else None
  end.
(** one frame: STEP, number of atoms, TIME, the rows *)
Definition readXyz (s : string) : option (string * Z * list (string * (string * string * string)) * string) :=
  s1 <- eat "STEP " s ;; a <- upto "010" s1 ;; z <- readZ (fst a) ;; b <- upto "010" (skipWhite (snd a)) ;; n <- readZ (fst b) ;; s2 <- eat "    TIME " (snd b) ;; t <- upto "010" s2 ;;
  r <- readRows (Z.to_nat n) 0 (snd t) ;; Some (fst t, z, fst r, snd r).
Fixpoint readXyzs (fuel : nat) (s : string) : option (list (string * Z * list (string * (string * string * string)))) :=
  match s with
  | EmptyString => Some []
  | _ => match fuel with O => None | S n => r <- readXyz s ;; l <- readXyzs n (snd r) ;; Some (fst r :: l) end
  end.
Definition xyzIn (header file : string) : option (list (string * Z * list (string * (string * string * string)))) := s <- eat header file ;; readXyzs (String.length s) s.

(** a character that does not occur *)
Fixpoint without (c : ascii) (s : string) : Prop := match s with EmptyString => True | String d s' => c <> d /\ without c s' end.
(** what KMCConfiguration.types() gives: one name per site, or all names per site *)
Inductive shown := SNames (l : list string) | SBuckets (l : list (list string)).
Definition asPython (y : shown) : list pyval := match y with SNames l => map VStr l | SBuckets l => map (fun e => VList (map VStr e)) l end.
(** what a reader should find: the same names, or for each site the numbers of particles per type *)
Definition asRead (y : shown) : rtypes := match y with SNames l => RNames l | SBuckets l => RBuckets (map (fun e => totals (map (fun s => (1, s)) e)) l) end.
Definition sitesShown (y : shown) : Z := match y with SNames l => zlen l | SBuckets l => zlen l end.
Definition namesShown (y : shown) : list string := match y with SNames l => l | SBuckets l => concat l end.
(** the data of the append calls in order *)
Definition appended {D} (cs : list (@tcall D)) : list D := flat_map (fun c => match c with TAppend d _ _ => [d] | TFlush => [] end) cs.
(** the same calls with other data *)
Definition mapCall {D E} (f : D -> E) (c : @tcall D) : @tcall E := match c with TAppend d a b => TAppend (f d) a b | TFlush => TFlush end.
(** a non-empty word: no blanks or line breaks *)
Definition okWord (s : string) : Prop := s <> ""%string /\ without " " s /\ without "010" s.
(** coordinates as they are formatted; [fmtCoord] is the format of one number *)
Definition coordText {K} (fmtCoord : K -> string) (c : K * K * K) : string * string * string := let '(x, y, z) := c in (fmtCoord x, fmtCoord y, fmtCoord z).
Definition okCoord {K} (fmtCoord : K -> string) (c : K * K * K) : Prop := let '(x, y, z) := c in okWord (fmtCoord x) /\ okWord (fmtCoord y) /\ okWord (fmtCoord z).
