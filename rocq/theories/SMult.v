(** Specification: binomial coefficients and the number of ways an event can occur. *)
From Verif Require Export SModel.
Open Scope Z_scope.
Open Scope list_scope.

(** number of ways to choose k out of n things, by Pascal's rule *)
Fixpoint choose (n k : nat) : Z :=
  match k with
  | O => 1
  | S k' => match n with O => 0 | S n' => choose n' k' + choose n' k end
  end.
Definition chooseZ (n k : Z) : Z := choose (Z.to_nat n) (Z.to_nat k).

Fixpoint zprod (l : list Z) : Z := match l with [] => 1 | a :: l' => a * zprod l' end.

(** ways to take the particles [need] out of the particles [have]; slot 0, the wildcard, is not a particle *)
Definition ways (need have : bucket) : Z :=
  zprod (map (fun t => match zget need t, zget have t with
                       | Some r, Some n => if 0 <? r then chooseZ n r else 1
                       | _, _ => 1
                       end) (zrange 1 (zlen need - 1))).
(** ways an event with entries l can occur at the sites cl: product over the entries that are no wildcards *)
Definition eventWays (l : list pentry) (cl : list centry) : Z :=
  zprod (map (fun ec : pentry * centry => match zget (pe_match (fst ec)) 0 with
                                          | Some 0 => ways (pe_match (fst ec)) (ce_types (snd ec))
                                          | _ => 1
                                          end) (combine l cl)).
(** ways one entry can take its particles from site y *)
Definition entryWays (types : list bucket) (ey : pentry * Z) : Z :=
  match zget (pe_match (fst ey)) 0, zget types (snd ey) with
  | Some 0, Some t => ways (pe_match (fst ey)) t
  | _, _ => 1
  end.
