(** Specification: processes with rate zero. *)
From Verif Require Export SChain SLaw.
Open Scope list_scope.
Open Scope Z_scope.

(** the rate of the process is zero at every site and in every state *)
Definition idle (pr : cproc) : Prop := forall x s, cp_rate pr x s = 0.
