(** What the control parameters should be: a small specification, independent of the order of the checks. *)
From Verif Require Export MControl.
Open Scope Z_scope.
Open Scope list_scope.
(** v is the integer z, where bool counts as an integer as it does in Python *)
Definition isInt (v : pyval) (z : Z) : Prop := v = VInt z \/ (v = VBool true /\ z = 1) \/ (v = VBool false /\ z = 0).
(** a non-negative integer argument with a default *)
Definition countArg (v : pyval) (default z : Z) : Prop := (v = VNone /\ z = default) \/ (isInt v z /\ 0 <= z).
(** the argument dump_time_interval stands for: no value, or a float that is not smaller than or equal to zero *)
Definition timeArg (v : pyval) (t : option pyfloat) : Prop := (v = VNone /\ t = None) \/ exists f, v = VFloat f /\ t = Some f /\ f <> FNegInf /\ forall x, f = FNum x -> 0 < x.
Definition rngArg (v : pyval) (s : string) : Prop := (v = VNone /\ s = "MT"%string) \/ (v = VStr s /\ In s rngNames).
(** the parameters p are what the arguments stand for *)
Record standsFor (steps dump analyse seed dtime rng : pyval) (p : params) : Prop := {
  sf_steps : countArg steps 0 (p_steps p);
  sf_analyse : countArg analyse 1 (p_analyse p);
  sf_seed : countArg seed 1 (p_seed p);
  sf_timeSeed : p_timeSeed p = true <-> seed = VNone;
  sf_time : timeArg dtime (p_dtime p);
  sf_dump : (dump = VNone /\ dtime = VNone /\ p_dump p = Some 1) \/ (dump = VNone /\ dtime <> VNone /\ p_dump p = None) \/ (dtime = VNone /\ exists z, isInt dump z /\ 0 <= z /\ p_dump p = Some z);
  sf_rng : rngArg rng (p_rng p) }.
