(** Specification: interactions, their rate calculator and how far a process looks. *)
From Verif Require Export MPyInter.
Open Scope string_scope.
Open Scope list_scope.
Open Scope Z_scope.

(** m is the square of the largest distance of a position from the first one *)
Definition largestReach (cs : list coord) (m : Z) : Prop :=
  exists c0, zget cs 0 = Some c0 /\ (forall c, In c cs -> cnorm2 (csub c c0) <= m) /\ exists c, In c cs /\ cnorm2 (csub c c0) = m.
(** positions, rate and basis points of a process *)
Definition positionsOf (p : kprocess) : list coord := match p with KPlainP q => kp_coords q | KBucketP b => kb_coords b end.
Definition rateOf (p : kprocess) : Z := match p with KPlainP q => kp_rate q | KBucketP b => kb_rate b end.
Definition basisOf (p : kprocess) : list Z := match p with KPlainP q => kp_basis q | KBucketP b => kb_basis b end.
(** the square of the cutoff within which a calculator sees the surroundings of process p: what it asks for (1.0 if it says nothing), but no less than the process itself *)
Definition seenWithin (S : Z) (g : plugin) (m m' : Z) : Prop :=
  let cut := match pg_cutoff g with Some c => c | None => S end in m' = if cut <? 0 then m else Z.max m (cut * cut).
(** setRateCalculator called with these arguments, one after the other *)
Fixpoint setAll (customs : list (string * calcClass)) (o : kiobj) (l : list calcArg) : outcome kiobj :=
  match l with [] => Ok o | a :: l => try o' <- setRateCalculator customs o a ;; setAll customs o' l end.
(** the calculator that the last call asks for *)
Definition askedFor (customs : list (string * calcClass)) (a : calcArg) : outcome (option plugin) :=
  match a with
  | CalcNone | CalcOther => Ok None
  | CalcName n => match find (fun nc => String.eqb (fst nc) n) customs with Some (_, c) => Ok (Some (cc_instance c BackendConfiguration)) | None => Raise KmcError end
  | CalcClass c => match cc_kind c with Derived => Ok (Some (cc_instance c UserConfiguration)) | _ => Raise KmcError end
  end.
(** no class is given after a name *)
Fixpoint noClassAfterName (l : list calcArg) : bool :=
  match l with
  | [] => true
  | CalcName _ :: l => forallb (fun a => match a with CalcClass _ => false | _ => true end) l && noClassAfterName l
  | _ :: l => noClassAfterName l
  end.
