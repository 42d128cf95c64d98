(** Model of KMCInteractions as an object: python/src/KMCLib/CoreComponents/KMCInteractions.py (constructor, setRateCalculator, _backend with its stored backend). *)
From Verif Require Export MPyLattice.
Open Scope string_scope.
Open Scope list_scope.
Open Scope Z_scope.

(** the object an instance of a calculator class is made with: the user's KMCConfiguration or its C++ counterpart *)
Inductive given := UserConfiguration | BackendConfiguration.
(** A Python class used as rate calculator: whether it inherits from KMCRateCalculatorPlugin, is that class itself, or neither; and what its instances answer.
    An instance of a class that does not inherit from it is refused by the C++ constructor of the Interactions (a TypeError of the bindings). *)
Inductive ancestry := Derived | PluginItself | Foreign.
Record calcClass := mkClass { cc_kind : ancestry; cc_instance : given -> plugin }.
(** the argument of setRateCalculator: None, a name, a class, anything else *)
Inductive calcArg := CalcNone | CalcName (name : string) | CalcClass (c : calcClass) | CalcOther.

(** the members of the object; [io_class] is the class stored for later instantiation *)
Record kiobj := mkIO { io_processes : list kprocess; io_wild : bool; io_class : option calcClass; io_builtin : bool; io_backend : option interactions }.
Section Interactions.
(** the classes found in the module Custom, without the forbidden names (89-106) *)
Context (S : Z) (customs : list (string * calcClass)).
Definition findCustom (name : string) : option calcClass := option_map snd (find (fun nc => String.eqb (fst nc) name) customs).

(** __init__, 32-64.  [None] for processes: not a sequence; [None] in it: something that is not a process. *)
Definition newInteractions (processes : option (list (option kprocess))) (implicit_wildcards : pyval) : outcome kiobj :=
  try ki <- KMCInteractions processes implicit_wildcards None ;;
  Ok (mkIO (ki_processes ki) (ki_wild ki) None false None).
(** setRateCalculator, 74-134: the flag __builtin_custom is set and never reset *)
Definition setRateCalculator (o : kiobj) (a : calcArg) : outcome kiobj :=
  match a with
  | CalcName n => match findCustom n with
                  | Some c => Ok (mkIO (io_processes o) (io_wild o) (Some c) true (io_backend o))
                  | None => Raise KmcError
                  end
  | CalcNone => Ok (mkIO (io_processes o) (io_wild o) None (io_builtin o) (io_backend o))
  | CalcClass c => Ok (mkIO (io_processes o) (io_wild o) (Some c) (io_builtin o) (io_backend o))
  | CalcOther => Raise KmcError
  end.
(** the instance of the calculator, 168-191 and 265-268 *)
Definition makeCalculator (o : kiobj) : outcome (option plugin) :=
  match io_class o with
  | None => Ok None
  | Some c =>
      if io_builtin o
      then match cc_kind c with Foreign => Raise TypeError | _ => Ok (Some (cc_instance c BackendConfiguration)) end
      else match cc_kind c with Derived => Ok (Some (cc_instance c UserConfiguration)) | _ => Raise KmcError end
  end.
(** _backend, 144-273: made at the first query, kept afterwards.  Simplifications: an exception leaves the object as it was (the code keeps the
    instance of the calculator, which is made before the processes are); exceptions raised by a user's initialize() are not modelled.
    [None]: undefined behaviour in a C++ constructor. *)
Definition interBackend (o : kiobj) (possible : tmap) (nbasis : Z) : outcome (option (interactions * kiobj)) :=
  match io_backend o with
  | Some it => Ok (Some (it, o))
  | None =>
      if forallb (fun p => forallb (known possible) (presentTypes p)) (io_processes o) then
        try g <- makeCalculator o ;;
        try it <- backendInteractions S (mkKI (io_processes o) (io_wild o) g) possible nbasis ;;
        Ok (it <- it ;; Some (it, mkIO (io_processes o) (io_wild o) (io_class o) (io_builtin o) (Some it)))
      else Raise KmcError
  end.
End Interactions.
