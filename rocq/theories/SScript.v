(** Specification: which numbers and names survive being written to a script and read again. *)
From Verif Require Export SPython.
Open Scope string_scope.
Open Scope list_scope.
Open Scope Z_scope.

(** 10^k for k >= 0, else 1: the number m * 10^k is the fraction m * tens k / tens (-k) *)
Definition tens (k : Z) : Z := 10 ^ Z.max 0 k.
(** x/U is equal to m * 10^k *)
Definition equalTo (U x m k : Z) : Prop := m * tens k * U = x * tens (- k).
(** x/U differs from m * 10^k by at most 1/(2*10^p) of itself *)
Definition nearTo (p : Z) (U x m k : Z) : Prop := 2 * 10 ^ p * Z.abs (m * tens k * U - x * tens (- k)) <= Z.abs x * tens (- k).
(** x/U differs from m * 10^k by at most 1/(2*10^p) *)
Definition within (p : Z) (U x m k : Z) : Prop := 2 * 10 ^ p * Z.abs (m * tens k * U - x * tens (- k)) <= U * tens (- k).
(** x/U has at most n significant decimal digits *)
Definition shortDecimal (n : Z) (U x : Z) : Prop := exists m k, Z.abs m < 10 ^ n /\ equalTo U x m k.
(** the text is a number, possibly after blanks, that denotes m * 10^k *)
Definition denotes (s : string) (m k : Z) : Prop := exists w, (forall d, scan Idle d s = Some ([], InNum w, d)) /\ decimal w = Some (m, k).
(** a name that can be written between these quotation marks: without them, backslashes and line breaks *)
Definition quotable (q : ascii) (s : string) : Prop := forall c, In c (list_ascii_of_string s) -> c <> q /\ c <> "\"%char /\ c <> "010"%char /\ c <> "013"%char.
