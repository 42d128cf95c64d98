(** Model of KMCControlParameters: python/src/KMCLib/CoreComponents/KMCControlParameters.py. *)
From Verif Require Export MPy.
Open Scope Z_scope.
Open Scope list_scope.

(** The values stored on the object, lines 74-109 (queries 133-185 return them). *)
Record params := mkParams { p_steps : Z; p_dump : option Z; p_analyse : Z; p_timeSeed : bool; p_seed : Z; p_dtime : option pyfloat; p_rng : string }.
(** __checkRngType, lines 113-132: an unhashable value raises TypeError.  Simplification: the backend constants are represented by their names. *)
Definition rngNames : list string := ["MT"; "MINSTD"; "RANLUX24"; "RANLUX48"; "DEVICE"]%string.
Definition checkRngType (v : pyval) : outcome string :=
  match v with
  | VNone => Ok "MT"%string
  | VStr s => if existsb (String.eqb s) rngNames then Ok s else Raise KmcError
  | _ => if hashable v then Raise KmcError else Raise (OtherExn 1)
  end.
(** The constructor, lines 19-111. *)
Definition KMCControlParameters (steps dump analyse seed dtime rng : pyval) : outcome params :=
  try n <- checkPositiveInteger steps 0 ;;
  try d <- (match dump with VNone => Ok None | _ => try z <- checkPositiveInteger dump 1 ;; Ok (Some z) end) ;;
  try a <- checkPositiveInteger analyse 1 ;;
  let ts := match seed with VNone => true | _ => false end in
  try sd <- checkPositiveInteger seed 1 ;;
  try t <- (match dtime with VNone => Ok None | VFloat f => if fnonpos f then Raise KmcError else Ok (Some f) | _ => Raise KmcError end) ;;
  match t, d with
  | Some _, Some _ => Raise KmcError
  | _, _ =>
      let d' := match d, t with None, None => Some 1 | _, _ => d end in
      try r <- checkRngType rng ;;
      Ok (mkParams n d' a ts sd t r)
  end.
(** What run() reads: KMCLatticeModel.py 200-204.  None: an infinite or undefined dump_time_interval, which is outside the model of run(). *)
Definition toControl (p : params) : option control :=
  match p_dtime p with
  | None => Some (mkControl (p_steps p) (p_dump p) (p_analyse p) None)
  | Some (FNum x) => Some (mkControl (p_steps p) (p_dump p) (p_analyse p) (Some x))
  | Some _ => None
  end.
