(** Specification: the part of the Python language that trajectory files and saved scripts are written in: how a text is split into words, read as statements, and
    executed.  Everything outside this part gives [None] here (string literals with escapes, indented statements, operators, trailing commas, ...), so that
    what is executed here is executed by Python in the same way. *)
From Verif Require Export MTrajectory MPyLattice.
Open Scope string_scope.
Open Scope list_scope.
Open Scope Z_scope.

(** ** Words *)
Inductive tok := TName (s : string) | TNum (s : string) | TText (s : string) | TSym (c : ascii) | TEnd.
(** what is being read: the beginning of a line, nothing in particular, a comment, a name, a number, a string literal (with its quotation mark) *)
Inductive mode := Start | Idle | Comment | InName (w : string) | InNum (w : string) | InText (q : ascii) (w : string).
Definition between (a b c : ascii) : bool := (nat_of_ascii a <=? nat_of_ascii c)%nat && (nat_of_ascii c <=? nat_of_ascii b)%nat.
Definition isDigit (c : ascii) : bool := between "0" "9" c.
Definition isLetter (c : ascii) : bool := between "a" "z" c || between "A" "Z" c || Ascii.eqb c "_".
Definition snoc (w : string) (c : ascii) : string := (w ++ String c "")%string.
Fixpoint lastIs (c : ascii) (w : string) : bool := match w with EmptyString => false | String d EmptyString => Ascii.eqb c d | String _ w' => lastIs c w' end.
Definition isNumChar (w : string) (c : ascii) : bool := isDigit c || Ascii.eqb c "." || Ascii.eqb c "e" || ((Ascii.eqb c "+" || Ascii.eqb c "-") && lastIs "e" w).
(** a character outside names, numbers, literals and comments; [d] is the number of open brackets: inside brackets a line break means nothing *)
Definition stepIdle (d : nat) (c : ascii) : option (list tok * mode * nat) :=
  if Ascii.eqb c " " then Some ([], Idle, d)
  else if Ascii.eqb c "010" then match d with O => Some ([TEnd], Start, d) | _ => Some ([], Idle, d) end
  else if Ascii.eqb c "#" then Some ([], Comment, d)
  else if Ascii.eqb c "'" || Ascii.eqb c """" then Some ([], InText c "", d)
  else if isDigit c || Ascii.eqb c "-" then Some ([], InNum (String c ""), d)
  else if isLetter c then Some ([], InName (String c ""), d)
  else if Ascii.eqb c "[" || Ascii.eqb c "(" then Some ([TSym c], Idle, Datatypes.S d)
  else if Ascii.eqb c "]" || Ascii.eqb c ")" then match d with O => None | Datatypes.S d' => Some ([TSym c], Idle, d') end
  else if Ascii.eqb c "," || Ascii.eqb c "=" || Ascii.eqb c "." || Ascii.eqb c "*" then Some ([TSym c], Idle, d)
  else None.
Definition after (t : tok) (r : option (list tok * mode * nat)) : option (list tok * mode * nat) := r <- r ;; let '(ts, m, d) := r in Some (t :: ts, m, d).
Definition scanChar (m : mode) (d : nat) (c : ascii) : option (list tok * mode * nat) :=
  match m with
  | Start => if Ascii.eqb c " " then None else if Ascii.eqb c "010" then Some ([], Start, d) else stepIdle d c
  | Idle => stepIdle d c
  | Comment => if Ascii.eqb c "010" then stepIdle d c else Some ([], Comment, d)
  | InName w => if isLetter c || isDigit c then Some ([], InName (snoc w c), d) else after (TName w) (stepIdle d c)
  | InNum w => if isNumChar w c then Some ([], InNum (snoc w c), d) else if isLetter c then None else after (TNum w) (stepIdle d c)
  | InText q w => if Ascii.eqb c q then Some ([TText w], Idle, d) else if Ascii.eqb c "\" || Ascii.eqb c "010" || Ascii.eqb c "013" then None else Some ([], InText q (snoc w c), d)
  end.
Fixpoint scan (m : mode) (d : nat) (s : string) : option (list tok * mode * nat) :=
  match s with
  | EmptyString => Some ([], m, d)
  | String c s' => r <- scanChar m d c ;; let '(ts, m1, d1) := r in q <- scan m1 d1 s' ;; let '(us, m2, d2) := q in Some (ts ++ us, m2, d2)
  end.
(** the words of a whole file *)
Definition words (s : string) : option (list tok) :=
  r <- scan Start 0 s ;;
  match r with
  | (ts, Start, O) => Some ts
  | (ts, Idle, O) => Some (ts ++ [TEnd])
  | (ts, Comment, O) => Some (ts ++ [TEnd])
  | (ts, InName w, O) => Some (ts ++ [TName w; TEnd])
  | (ts, InNum w, O) => Some (ts ++ [TNum w; TEnd])
  | _ => None
  end.

(** ** Numbers *)
(** a word of digits *)
Fixpoint digitsFrom (acc : Z) (s : string) : option Z :=
  match s with EmptyString => Some acc | String c s' => if isDigit c then digitsFrom (10 * acc + (Z.of_nat (nat_of_ascii c) - 48)) s' else None end.
Definition digits (s : string) : option Z := match s with EmptyString => None | _ => digitsFrom 0 s end.
Fixpoint splitAt (c : ascii) (s : string) : option (string * string) :=
  match s with
  | EmptyString => None
  | String d s' => if Ascii.eqb c d then Some ("", s') else r <- splitAt c s' ;; Some (String d (fst r), snd r)
  end.
Definition signed (s : string) : Z * string := match s with String c s' => if Ascii.eqb c "-" then (-1, s') else (1, s) | _ => (1, s) end.
(** what follows the letter e: a sign and digits *)
Definition expo (s : string) : option Z := match s with String c s' => if Ascii.eqb c "-" then option_map Z.opp (digits s') else if Ascii.eqb c "+" then digits s' else None | _ => None end.
(** the word denotes m * 10^k *)
Definition decimal (s : string) : option (Z * Z) :=
  let (sg, s1) := signed s in
  p <- splitAt "." s1 ;; a <- digits (fst p) ;;
  match splitAt "e" (snd p) with
  | None => b <- digits (fst p ++ snd p)%string ;; Some (sg * b, - Z.of_nat (String.length (snd p)))
  | Some q => b <- digits (fst p ++ fst q)%string ;; k <- expo (snd q) ;; Some (sg * b, k - Z.of_nat (String.length (fst q)))
  end.

(** m * 10^k as a float, where the integer U stands for 1.0: [None] if it is not a multiple of 1/U *)
Definition floatOf (U m k : Z) : option pyval :=
  if 0 <=? k then Some (VFloat (FNum (m * 10 ^ k * U))) else if (m * U) mod 10 ^ (- k) =? 0 then Some (VFloat (FNum (m * U / 10 ^ (- k)))) else None.

Section Values.
(** the float that is made of m * 10^k *)
Context (float : Z -> Z -> option pyval).
Definition number (s : string) : option pyval :=
  match decimal s with
  | Some (m, k) => float m k
  | None => let (sg, s1) := signed s in n <- digits s1 ;; if String.eqb s (showZ (sg * n)) then Some (VInt (sg * n)) else None
  end.

(** ** Statements *)
Inductive expr := ENum (s : string) | EText (s : string) | EName (s : string) | EList (l : list expr) | ETuple (l : list expr).
Definition isSym (c : ascii) (t : tok) : bool := match t with TSym d => Ascii.eqb c d | _ => false end.
(** items separated by commas up to the closing bracket [close] *)
Fixpoint parseItems (item : list tok -> option (expr * list tok)) (fuel : nat) (close : ascii) (ts : list tok) : option (list expr * list tok) :=
  match fuel with
  | O => None
  | Datatypes.S m =>
      r <- item ts ;;
      match snd r with
      | t :: ts' => if isSym "," t then q <- parseItems item m close ts' ;; Some (fst r :: fst q, snd q) else if isSym close t then Some ([fst r], ts') else None
      | [] => None
      end
  end.
Fixpoint parseExpr (fuel : nat) (ts : list tok) : option (expr * list tok) :=
  match fuel with
  | O => None
  | Datatypes.S n =>
      match ts with
      | TNum s :: ts' => Some (ENum s, ts')
      | TText s :: ts' => Some (EText s, ts')
      | TName s :: ts' => Some (EName s, ts')
      | TSym c :: ts' =>
          if Ascii.eqb c "[" then
            match ts' with
            | t :: ts'' => if isSym "]" t then Some (EList [], ts'') else q <- parseItems (parseExpr n) (length ts') "]" ts' ;; Some (EList (fst q), snd q)
            | [] => None
            end
          else if Ascii.eqb c "(" then
            q <- parseItems (parseExpr n) (length ts') ")" ts' ;; Some (match fst q with [e] => e | l => ETuple l end, snd q)
          else None
      | _ => None
      end
  end.
(** name = value, name = Class(name=value, ...), name.append(value), from KMCLib import * *)
Inductive stmt := SSet (x : string) (e : expr) | SCall (x cls : string) (args : list (string * expr)) | SAppend (x : string) (e : expr) | SImport.
Fixpoint parseArgs (fuel : nat) (ts : list tok) : option (list (string * expr) * list tok) :=
  match fuel with
  | O => None
  | Datatypes.S n =>
      match ts with
      | TName k :: TSym "=" :: ts1 =>
          r <- parseExpr (length ts1) ts1 ;;
          match snd r with
          | TSym c :: ts2 => if Ascii.eqb c "," then q <- parseArgs n ts2 ;; Some ((k, fst r) :: fst q, snd q) else if Ascii.eqb c ")" then Some ([(k, fst r)], ts2) else None
          | _ => None
          end
      | _ => None
      end
  end.
Definition parseStmt (ts : list tok) : option (stmt * list tok) :=
  match ts with
  | TName a :: TName b :: TName c :: TSym "*" :: TEnd :: ts' =>
      if String.eqb a "from" && String.eqb b "KMCLib" && String.eqb c "import" then Some (SImport, ts') else None
  | TName x :: TSym "." :: TName f :: TSym "(" :: ts1 =>
      if String.eqb f "append" then r <- parseExpr (length ts1) ts1 ;; match snd r with TSym ")" :: TEnd :: ts2 => Some (SAppend x (fst r), ts2) | _ => None end else None
  | TName x :: TSym "=" :: TName cls :: TSym "(" :: ts1 => r <- parseArgs (length ts1) ts1 ;; match snd r with TEnd :: ts2 => Some (SCall x cls (fst r), ts2) | _ => None end
  | TName x :: TSym "=" :: ts1 => r <- parseExpr (length ts1) ts1 ;; match snd r with TEnd :: ts2 => Some (SSet x (fst r), ts2) | _ => None end
  | _ => None
  end.
Fixpoint parseStmts (fuel : nat) (ts : list tok) : option (list stmt) :=
  match ts with
  | [] => Some []
  | TEnd :: ts' => match fuel with O => None | Datatypes.S n => parseStmts n ts' end
  | _ => match fuel with O => None | Datatypes.S n => r <- parseStmt ts ;; l <- parseStmts n (snd r) ;; Some (fst r :: l) end
  end.
Definition program (s : string) : option (list stmt) := ts <- words s ;; parseStmts (length ts) ts.

(** ** Execution *)
(** the names defined so far and their values, in order of first definition *)
Fixpoint setVar (l : list (string * pyval)) (x : string) (v : pyval) : list (string * pyval) :=
  match l with [] => [(x, v)] | (y, w) :: l' => if String.eqb y x then (y, v) :: l' else (y, w) :: setVar l' x v end.
Definition getVar (l : list (string * pyval)) (x : string) : option pyval := option_map snd (find (fun yv => String.eqb (fst yv) x) l).
Definition keyword (x : string) : option pyval := if String.eqb x "True" then Some (VBool true) else if String.eqb x "False" then Some (VBool false) else if String.eqb x "None" then Some VNone else None.
(** The value of an expression.  A list with two names would be changed under both: [lists] tells whether names of lists may occur. *)
Fixpoint evalExpr (lists : bool) (vars : list (string * pyval)) (e : expr) {struct e} : option pyval :=
  let all := fix all (l : list expr) : option (list pyval) := match l with [] => Some [] | a :: l' => v <- evalExpr lists vars a ;; vs <- all l' ;; Some (v :: vs) end in
  match e with
  | ENum s => number s
  | EText s => Some (VStr s)
  | EName x => match keyword x with Some v => Some v | None => v <- getVar vars x ;; match v with VList _ => if lists then Some v else None | _ => Some v end end
  | EList l => option_map VList (all l)
  | ETuple l => option_map VTuple (all l)
  end.
(** An object that a program has made is the value [VOther n], where n is its number in order of creation; [A]: the objects *)
Section Objects.
Context {A : Type} (construct : list A -> string -> list (string * pyval) -> outcome A).
Record state := mkState { st_vars : list (string * pyval); st_objs : list A; st_imported : bool }.
(** exceptions that the interpreter itself raises *)
Definition NotModelled : exn := OtherExn 9.
Definition tryEval {B} (o : option B) : outcome B := match o with Some b => Ok b | None => Raise NotModelled end.
Definition exec (st : state) (c : stmt) : outcome state :=
  match c with
  | SImport => Ok (mkState (st_vars st) (st_objs st) true)
  | SSet x e => try v <- tryEval (evalExpr false (st_vars st) e) ;; Ok (mkState (setVar (st_vars st) x v) (st_objs st) (st_imported st))
  | SAppend x e =>
      try v <- tryEval (evalExpr false (st_vars st) e) ;;
      match getVar (st_vars st) x with Some (VList l) => Ok (mkState (setVar (st_vars st) x (VList (l ++ [v]))) (st_objs st) (st_imported st)) | _ => Raise NotModelled end
  | SCall x cls args =>
      if st_imported st then
        try vs <- tryEval (omap (fun a => v <- evalExpr true (st_vars st) (snd a) ;; Some (fst a, v)) args) ;;
        try o <- construct (st_objs st) cls vs ;;
        Ok (mkState (setVar (st_vars st) x (VOther (zlen (st_objs st)))) (st_objs st ++ [o]) (st_imported st))
      else Raise NotModelled
  end.
(** executing a file from the beginning *)
Definition execFile (s : string) : outcome state := try p <- tryEval (program s) ;; ofoldl exec p (mkState [] [] false).
End Objects.
End Values.
