(** Specification: how the script for ATK is to be read. *)
From Verif Require Export SPrint SPython.
Open Scope string_scope.
Open Scope list_scope.
Open Scope Z_scope.

(** a word that Python takes for a name *)
Definition isName (s : string) : bool := match list_ascii_of_string s with c :: l => isLetter c && forallb (fun d => isLetter d || isDigit d) l | [] => false end.
(** the expression is a list of three numbers that show x, y and z *)
Definition threeNumbers (shows : Q -> string -> Prop) (x y z : Q) (e : expr) : Prop := exists a b c, e = EList [ENum a; ENum b; ENum c] /\ shows x a /\ shows y b /\ shows z c.
(** the atoms whose type has a name in ATK, with their types *)
Definition translated (m : list (string * string)) (types : list string) (coords : list coord) : list (string * coord) :=
  filter (fun tc => existsb (fun kv => String.eqb (fst kv) (fst tc)) m) (combine types coords).
(** the name: the first entry for the type (the keys of a dict are different) *)
Definition hasName (m : list (string * string)) (t e : string) : Prop := exists before after, m = before ++ (t, e) :: after /\ ~ In t (map fst before).
