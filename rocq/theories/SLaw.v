(** Specification: the law of the continuous time Markov chain of SChain.v, and boxes of random numbers. *)
From Verif Require Export SChain SRandom MTimer.
From Coq Require Import Reals.
Open Scope list_scope.
Open Scope Z_scope.

(** ** The law of the chain *)
(** The probability that the chain, from state s, makes first the event e1 = (process number, site) after a waiting time of more than w1, then the event e2 after a further waiting time of
    more than w2, and so on.  The waiting time in a state is exponentially distributed with the total rate R of the state, and the event is the one with rate r with probability r / R. *)
Fixpoint pathLaw (L : lattice) (basis : list coord) (names : list string) (prs : list cproc) (s : pstate) (es : list (Z * Z * R)) : R :=
  match es with
  | [] => 1
  | ((i, x), w) :: es' =>
      match zget prs i with
      | Some pr => IZR (eventRate L basis names pr x s) / IZR (allRates L basis names prs s) * exp (- (IZR (allRates L basis names prs s) * w)) * pathLaw L basis names prs (happened L basis names pr x s) es'
      | None => 0
      end
  end.
(** events at sites of the lattice, and waiting times that are not negative *)
Definition properEvents (L : lattice) (es : list (Z * Z * R)) : Prop := Forall (fun e => In (snd (fst e)) (sites L) /\ (0 <= snd e)%R) es.

(** ** Boxes *)
(** For one step: an interval (lo1, hi1] for the number that chooses the process, (lo2, hi2] for the one that chooses the site, (0, top) for the one of the clock, all within the unit interval.
    The numbers of a run of n steps are a point of the unit cube with 3 n dimensions; the sides of all steps make a box in it.  If the numbers are independent and
    uniformly distributed, the volume of a box is the probability that they lie in it. *)
Record box := mkBox { bx_lo1 : R; bx_hi1 : R; bx_lo2 : R; bx_hi2 : R; bx_top : R }.
Definition properBox (b : box) : Prop := (0 <= bx_lo1 b <= bx_hi1 b /\ bx_hi1 b <= 1 /\ 0 <= bx_lo2 b <= bx_hi2 b /\ bx_hi2 b <= 1 /\ 0 <= bx_top b <= 1)%R.
Definition inBox (b : box) (u : deviate * deviate) (v : R) : Prop :=
  (bx_lo1 b < realOf (fst u) <= bx_hi1 b /\ bx_lo2 b < realOf (snd u) <= bx_hi2 b /\ 0 < v < bx_top b)%R.
Definition boxVolume (b : box) : R := ((bx_hi1 b - bx_lo1 b) * (bx_hi2 b - bx_lo2 b) * bx_top b)%R.
Fixpoint boxesVolume (bs : list box) : R := match bs with [] => 1 | b :: bs' => boxVolume b * boxesVolume bs' end%R.
Inductive inBoxes : list box -> list (deviate * deviate) -> list R -> Prop :=
| inNone : inBoxes [] [] []
| inMore b bs u us v vs : inBox b u v -> inBoxes bs us vs -> inBoxes (b :: bs) (u :: us) (v :: vs).

(** ** What a run does *)
(** With the numbers us for the choices and vs for the clock the run from md at time t makes the events es, one after the other, each after a waiting time of more than the one given with it. *)
Inductive makes : model -> R -> list (deviate * deviate) -> list R -> list (Z * Z * R) -> Prop :=
| makesNone md t : makes md t [] [] []
| makesMore md t u us v vs e w es md1 t1 : timedRun md (DFin t) [u] [v] = Some (md1, DFin t1, []) -> (cf_lastproc (md_cf md1), cf_lastsite (md_cf md1)) = e -> (w < t1 - t)%R ->
    makes md1 t1 us vs es -> makes md t (u :: us) (v :: vs) ((e, w) :: es).
(** numbers for the choices in (0, 1], for the clock in (0, 1) *)
Definition properNumbers (us : list (deviate * deviate)) (vs : list R) : Prop :=
  Forall (fun u => (0 < dv_num (fst u) <= dv_den (fst u)) /\ (0 < dv_num (snd u) <= dv_den (snd u))) us /\ Forall (fun v => (0 < v < 1)%R) vs.
