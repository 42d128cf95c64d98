(** Specification: how a reader understands a printed table.  It is a list of lines, a line is a list of cells between blanks, a cell is a number. *)
From Coq Require Export Qabs.
From Verif Require Export SAnalysis SScript STrajectory.
Open Scope string_scope.
Open Scope list_scope.
Open Scope Z_scope.

(** the parts between the characters c; w is what was read of the first part *)
Fixpoint parts (c : ascii) (w s : string) : list string :=
  match s with
  | EmptyString => [w]
  | String d s' => if Ascii.eqb c d then w :: parts c "" s' else parts c (w ++ String d "") s'
  end.
(** a line ends with a line break: nothing comes after the last one *)
Definition lines (s : string) : list string := removelast (parts "010" "" s).
Definition cells (s : string) : list string := filter (fun w => negb (String.eqb w "")) (parts " " "" s).
(** the number a cell denotes: m * 10^k *)
Definition readsAs (cell : string) (q : Q) : Prop := exists m k, decimal cell = Some (m, k) /\ (q == inject_Z (m * tens k) / inject_Z (tens (- k)))%Q.
(** the cell shows x to p digits after the point *)
Definition toDecimals (p : Z) (x : Q) (cell : string) : Prop := exists q, readsAs cell q /\ (Qabs (q - x) <= 1 / inject_Z (2 * 10 ^ p))%Q.
(** the cell shows x to p + 1 significant digits *)
Definition toDigits (p : Z) (x : Q) (cell : string) : Prop := exists q, readsAs cell q /\ (Qabs (q - x) <= Qabs x / inject_Z (2 * 10 ^ p))%Q.
(** t units of time when 1.0 is U units *)
Definition inUnits (U t : Z) : Q := (inject_Z t / inject_Z U)%Q.
