(** Specification: processes that undo one another, and distributions that the Markov chain of SChain.v keeps. *)
From Verif Require Export SChain.
From Coq Require Import Reals.
Open Scope list_scope.
Open Scope Z_scope.

(** a state lists, for every site, the numbers of all names *)
Definition wellShaped (L : lattice) (names : list string) (s : pstate) : Prop := zlen s = nsites L /\ forall ns, In ns s -> zlen ns = zlen names.
(** Row r' undoes row r: it lies at the same position, asks for what is there of the particles r asks for once r has changed them, and changes the numbers back.  Wildcard rows ask for nothing and change nothing. *)
Definition undoesRow (names : list string) (r r' : brow) : Prop :=
  br_c r' = br_c r /\ anyRow r' = anyRow r /\
  (anyRow r = false -> forall t, In t names -> howMany t (br_before r') = howMany t (br_before r) + change (br_upd r) t /\ change (br_upd r') t = - change (br_upd r) t).
(** process pr' undoes process pr *)
Definition undoes (names : list string) (pr pr' : cproc) : Prop := cp_basis pr' = cp_basis pr /\ Forall2 (undoesRow names) (cp_rows pr) (cp_rows pr').
(** back gives, for the number of every process, the number of a process that undoes it, and back again *)
Definition reversible (names : list string) (prs : list cproc) (back : Z -> Z) : Prop :=
  forall i pr, zget prs i = Some pr -> back (back i) = i /\ exists pr', zget prs (back i) = Some pr' /\ undoes names pr pr'.

Section Balance.
Context (L : lattice) (basis : list coord) (names : list string) (prs : list cproc).
(** events lead from states of the list to states of the list *)
Definition closedUnder (states : list pstate) : Prop :=
  forall s i pr x, In s states -> zget prs i = Some pr -> In x (sites L) -> canHappen L basis names pr x s = true -> In (happened L basis names pr x s) states.
(** Detailed balance: with the weights w an event happens as often as the one that undoes it. *)
Definition detailedBalance (back : Z -> Z) (states : list pstate) (w : pstate -> R) : Prop :=
  forall s i pr pr' x, In s states -> zget prs i = Some pr -> zget prs (back i) = Some pr' -> In x (sites L) -> canHappen L basis names pr x s = true ->
    (w s * IZR (cp_rate pr x s) = w (happened L basis names pr x s) * IZR (cp_rate pr' x (happened L basis names pr x s)))%R.
Definition realSum (l : list R) : R := fold_right Rplus 0%R l.
(** The chain keeps the distribution with the weights w: what flows into a state from all states is what flows out of it. *)
Definition stationary (states : list pstate) (w : pstate -> R) : Prop :=
  forall s, In s states -> realSum (map (fun s' => w s' * IZR (rateBetween L basis names prs s' s))%R states) = (w s * IZR (allRates L basis names prs s))%R.
End Balance.
