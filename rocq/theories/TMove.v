(** C01: moving from site to site by whole cells and basis points. *)
From Verif Require Import Base MLattice SLattice PBase PLattice TLattice.
From Coq Require Import ZifyBool.
Open Scope Z_scope.

(** Along one axis a move by d cells leads from cell c to cell c': around the lattice, at most once, if the axis is periodic. *)
Definition leadsToCell (periodic : bool) (rep c d c' : Z) : Prop :=
  if periodic then - rep <= c + d < 2 * rep /\ exists n, c' = c + d + n * rep else c' = c + d.
(** The number found by a move from the site (i, j, k, b) by (di, dj, dk) cells to basis point b' is that of the site in the cell the move leads to. *)
Theorem C01_move L i j k b di dj dk i' j' k' b' : wf_lattice L -> isSite L i j k b -> isSite L i' j' k' b' ->
  leadsToCell (lt_pa L) (lt_ra L) i di i' -> leadsToCell (lt_pb L) (lt_rb L) j dj j' -> leadsToCell (lt_pc L) (lt_rc L) k dk k' ->
  indexFromMoveInfo L (i * lt_rb L * lt_rc L * lt_nb L + j * lt_rc L * lt_nb L + k * lt_nb L + b) di dj dk (b' - b) =
  Some (i' * lt_rb L * lt_rc L * lt_nb L + j' * lt_rc L * lt_nb L + k' * lt_nb L + b').
Proof.
  intros WF H H' A B C. change (i * lt_rb L * lt_rc L * lt_nb L + j * lt_rc L * lt_nb L + k * lt_nb L + b) with (globalIndex L i j k b).
  unfold indexFromMoveInfo. rewrite indexToCell_global, basis_global by auto. replace (b' - b + b) with b' by lia.
  assert (G : forall p rep c d c', 0 < rep -> 0 <= c < rep -> 0 <= c' < rep -> leadsToCell p rep c d c' -> wrapCell p rep (c + d) = c').
  { intros p rep c d c' Hr Hc Hc' HL. unfold leadsToCell, wrapCell in *. destruct p; [|congruence]. destruct HL as [HL [n ->]]. destruct (Z.ltb_spec (c + d) 0); [assert (n = 1) by nia; nia|]. destruct (Z.leb_spec rep (c + d)); [assert (n = -1) by nia; nia|assert (n = 0) by nia; nia]. }
  pose proof WF as [W1 W2 W3 W4 W5]. pose proof H as (Hi & Hj & Hk & Hb). pose proof H' as (Hi' & Hj' & Hk' & Hb').
  rewrite (G _ _ _ _ _ W2 Hi Hi' A), (G _ _ _ _ _ W3 Hj Hj' B), (G _ _ _ _ _ W4 Hk Hk' C). apply indicesFromCell_get. exact Hb'.
Qed.
(** from (3, 4, 5, 1) one cell on along a, around the lattice, three cells back along b, two back along c, to basis point 0; and back *)
Example C01_move_example : isSite exL 3 4 5 1 /\ isSite exL 0 1 3 0 /\ leadsToCell (lt_pa exL) (lt_ra exL) 3 1 0 /\ leadsToCell (lt_pb exL) (lt_rb exL) 4 (-3) 1 /\ leadsToCell (lt_pc exL) (lt_rc exL) 5 (-2) 3 /\
  indexFromMoveInfo exL 239 1 (-3) (-2) (-1) = Some 18 /\ indexFromMoveInfo exL 18 (-1) 3 2 1 = Some 239.
Proof. unfold isSite, leadsToCell. cbn. repeat split; try lia; try reflexivity; [exists (-1); reflexivity|exists 0; reflexivity]. Qed.
Print Assumptions C01_move.
