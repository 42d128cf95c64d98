(** Python values as they can be passed to the constructors, and the checking functions of
    python/src/KMCLib/Utilities/CheckUtilities.py. *)
From Coq Require Export String.
From Verif Require Export MRun.
Open Scope string_scope.
Open Scope list_scope.
Open Scope Z_scope.

(** Python floats.  Simplification: finite floats are integers in some fixed unit (the value 1.0 is some positive integer), so there is no rounding and no -0.0. *)
Inductive pyfloat := FNum (x : Z) | FInf | FNegInf | FNan.
(** f < 0.0 and f <= 0 *)
Definition fneg (f : pyfloat) : bool := match f with FNum x => x <? 0 | FInf => false | FNegInf => true | FNan => false end.
Definition fnonpos (f : pyfloat) : bool := match f with FNum x => x <=? 0 | FInf => false | FNegInf => true | FNan => false end.

(** [VOther n]: an object of any other class, without a length, hashable.  Simplification: subclasses of int, float, str, list and tuple other than bool are not
    distinguished from these; numpy arrays are not values of this type. *)
Inductive pyval := VNone | VBool (b : bool) | VInt (z : Z) | VFloat (f : pyfloat) | VStr (s : string) | VList (l : list pyval) | VTuple (l : list pyval) | VOther (n : Z).

(** isinstance(v, int): True and False are instances of int and behave as 1 and 0 *)
Definition asInt (v : pyval) : option Z := match v with VInt z => Some z | VBool b => Some (if b then 1 else 0) | _ => None end.
Definition asFloat (v : pyval) : option pyfloat := match v with VFloat f => Some f | _ => None end.
Definition asStr (v : pyval) : option string := match v with VStr s => Some s | _ => None end.
(** '__len__' in dir(v), and iteration over v (CheckUtilities.checkSequence 115-131); a string is a sequence of one-character strings *)
Fixpoint chars (s : string) : list pyval := match s with EmptyString => [] | String c s' => VStr (String c EmptyString) :: chars s' end.
Definition asSeq (v : pyval) : option (list pyval) := match v with VList l => Some l | VTuple l => Some l | VStr s => Some (chars s) | _ => None end.
(** can be used as a key of a dict *)
Fixpoint hashable (v : pyval) : bool := match v with VList _ => false | VTuple l => forallb hashable l | _ => true end.

(** checkPositiveInteger, lines 229-257 *)
Definition checkPositiveInteger (v : pyval) (default : Z) : outcome Z :=
  match v with
  | VNone => if default <? 0 then Raise KmcError else Ok default
  | _ => match asInt v with Some z => if z <? 0 then Raise KmcError else Ok z | None => Raise KmcError end
  end.
(** checkPositiveFloat, lines 260-288 *)
Definition checkPositiveFloat (v : pyval) (default : pyfloat) : outcome pyfloat :=
  match v with
  | VNone => if fneg default then Raise KmcError else Ok default
  | _ => match asFloat v with Some f => if fneg f then Raise KmcError else Ok f | None => Raise KmcError end
  end.
Definition obind {A B} (o : outcome A) (f : A -> outcome B) : outcome B := match o with Ok a => f a | Raise e => Raise e end.
Notation "'try' x <- m ;; k" := (obind m (fun x => k)) (at level 100, x name, m at next level, right associativity).
