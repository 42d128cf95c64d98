(** Specification: what the texts in an xyz file say. *)
From Verif Require Export SPrint.
Open Scope string_scope.
Open Scope list_scope.
Open Scope Z_scope.

(** the texts of a position say its coordinates to eleven digits *)
Definition saysPosition (U : Z) (c : Z * Z * Z) (w : string * string * string) : Prop :=
  let '(x, y, z) := c in let '(u, v, t) := w in toDigits 10 (inUnits U x) u /\ toDigits 10 (inUnits U y) v /\ toDigits 10 (inUnits U z) t.
(** a frame as it was appended (time, step, types and positions of the atoms) and as it is read *)
Definition saysFrame (U : Z) (d : Z * Z * list string * list (Z * Z * Z)) (f : string * Z * list (string * (string * string * string))) : Prop :=
  let '(t, s, y, c) := d in let '(w, s', rows) := f in
  toDigits 10 (inUnits U t) w /\ s' = s /\ map fst rows = y /\ Forall2 (saysPosition U) c (map snd rows).
(** a line with a label and a vector *)
Definition saysVector (U : Z) (label : string) (v : Z * Z * Z) (line : string) : Prop := exists x y z, cells line = [label; x; y; z] /\ saysPosition U v (x, y, z).
Definition flagText (b : bool) : string := if b then "True" else "False".
(** the header: version, cell vectors, numbers of repetitions, periodicity *)
Definition saysHeader (U : Z) (a b c : Z * Z * Z) (reps : Z * Z * Z) (periodic : bool * bool * bool) (header : string) : Prop :=
  exists version title la lb lc lr lp, lines header = [version; ""; title; la; lb; lc; ""; lr; ""; lp; ""] /\ saysVector U "a:" a la /\ saysVector U "b:" b lb /\ saysVector U "c:" c lc /\
    (let '(na, nb, nc) := reps in exists u v w, cells lr = ["REPETITIONS"; u; v; w] /\ readZ u = Some na /\ readZ v = Some nb /\ readZ w = Some nc) /\
    (let '(pa, pb, pc) := periodic in cells lp = ["PERIODICITY"; flagText pa; flagText pb; flagText pc]).
