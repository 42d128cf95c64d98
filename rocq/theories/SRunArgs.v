(** What a user may pass to KMCLatticeModel.run, and what it means (C83). *)
From Verif Require Import MRunArgs.
Open Scope string_scope.
Open Scope list_scope.
Open Scope Z_scope.

Section Spec.
Context (objects : Z -> pyobject).
(** Nothing, or a list or tuple of at least one object, each of the class *)
Definition givesObjects (cls : pyobject -> bool) (v : pyval) (ns : list Z) : Prop :=
  v = VNone /\ ns = [] \/ ns <> [] /\ (v = VList (map VOther ns) \/ v = VTuple (map VOther ns)) /\ forall n, In n ns -> cls (objects n) = true.
(** The trajectory: none without a file name, else the lattice format unless 'xyz' is asked for *)
Definition givesTrajectory (file ty : pyval) (tr : option (trajKind * string)) : Prop :=
  match tr with
  | None => file = VNone /\ (ty = VNone \/ exists s, ty = VStr s)
  | Some (LatticeKind, f) => file = VStr f /\ (ty = VNone \/ ty = VStr "lattice")
  | Some (XyzKind, f) => file = VStr f /\ ty = VStr "xyz"
  end.
(** The arguments ask for a run with the settings p, the trajectory tr, and the objects an and br, in this order *)
Definition asksFor (a : runArgs) (p : params) (tr : option (trajKind * string)) (an br : list Z) : Prop :=
  (exists n, ra_control a = VOther n /\ ob_control (objects n) = Some p) /\ givesTrajectory (ra_file a) (ra_type a) tr /\
  givesObjects ob_analysis (ra_analysis a) an /\ givesObjects ob_breaker (ra_breakers a) br.
(** All but the choice between the two types of trajectory is in order *)
Definition rightTypes (a : runArgs) (p : params) : Prop :=
  (exists n, ra_control a = VOther n /\ ob_control (objects n) = Some p) /\
  (ra_file a = VNone \/ exists f, ra_file a = VStr f) /\ (ra_type a = VNone \/ exists s, ra_type a = VStr s) /\
  (exists an, givesObjects ob_analysis (ra_analysis a) an) /\ (exists br, givesObjects ob_breaker (ra_breakers a) br).
End Spec.
(** The generator the settings ask for, by its name *)
Definition rngCalled (s : string) (ty : rng) : Prop :=
  s = "MT" /\ ty = MT \/ s = "MINSTD" /\ ty = MINSTD \/ s = "RANLUX24" /\ ty = RANLUX24 \/ s = "RANLUX48" /\ ty = RANLUX48 \/ s = "DEVICE" /\ ty = DEVICE.
(** The state of the generator of a type *)
Definition engineOf {E} (ty : rng) (g : generators E) : option E :=
  match ty with MT => Some (g_mt g) | MINSTD => Some (g_minstd g) | RANLUX24 => Some (g_ranlux24 g) | RANLUX48 => Some (g_ranlux48 g) | DEVICE => None end.
