(** Specification vocabulary for several models in one program. *)
From Verif Require Export MShared.
Open Scope Z_scope.
Open Scope list_scope.

(** new KMCInteractions objects: makes i tells how object i constructs its processes *)
Definition newObjects (makes : list (tmap -> Z -> option interactions)) : world := mkW (map (fun f => mkIO f None) makes) [].
(** the models a program builds, in order: object and setup *)
Definition builds (ops : list wop) : list (Z * setup) := flat_map (fun op => match op with Build o s => [(o, s)] | _ => [] end) ops.
(** the deviates of the steps of model m *)
Definition stepsOf (m : Z) (ops : list wop) : list (deviate * deviate) := flat_map (fun op => match op with Step k u1 u2 => if k =? m then [(u1, u2)] else [] | _ => [] end) ops.
(** Model m as if it had its own copy of the interactions: they are constructed for it, and only its own steps are taken. *)
Definition onItsOwn (makes : list (tmap -> Z -> option interactions)) (ops : list wop) (m : Z) : option model :=
  os <- zget (builds ops) m ;;
  make <- zget makes (fst os) ;;
  it <- make (cf_ptypes (su_cf (snd os))) (lt_nb (su_lat (snd os))) ;;
  md0 <- mkLatticeModel (su_ranks (snd os)) (su_hash (snd os)) (su_lat (snd os)) (su_cf (snd os)) it ;;
  runSteps md0 (stepsOf m ops).
(** the configuration of model m *)
Definition configOf (w : world) (m : Z) : option config := option_map (fun om : Z * model => md_cf (snd om)) (zget (wd_models w) m).
(** model m as it is: its own data with the processes of its object *)
Definition present (w : world) (m : Z) : option model :=
  om <- zget (wd_models w) m ;;
  ob <- zget (wd_objs w) (fst om) ;;
  it <- io_backend ob ;;
  Some (withProcs (snd om) (in_procs it)).
(** model m is the last one built with its object *)
Definition latest (ops : list wop) (m : Z) : Prop := forall k o s s', m < k -> zget (builds ops) m = Some (o, s) -> zget (builds ops) k = Some (o, s') -> False.
(** no model takes a step after another one was built with its object *)
Definition oneAtATime (ops : list wop) : Prop :=
  forall pre m u1 u2 post, ops = pre ++ Step m u1 u2 :: post -> latest pre m.
(** same lattice, same positions, same possible types in the same order *)
Definition sameSystem (s s' : setup) : Prop :=
  su_lat s = su_lat s' /\ exists coords els els' pt, mkConfiguration coords els pt = Some (su_cf s) /\ mkConfiguration coords els' pt = Some (su_cf s') /\ zlen els = zlen els'.
Definition sameSystems (ops : list wop) : Prop := forall i j o s s', zget (builds ops) i = Some (o, s) -> zget (builds ops) j = Some (o, s') -> sameSystem s s'.
(** two models that cannot be told apart from outside: same configuration, matching and rates; the buffers a process fills before it reads
    them (the table of its site rates and the list of the sites it changed) are left out *)
Definition shownProc (p : process) : process := set_inc (set_aff p []) [].
Definition shownModel (md : model) : model := withProcs md (map shownProc (in_procs (md_in md))).
