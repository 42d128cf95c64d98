(** Model of the standard deviation of python/src/KMCLib/Analysis/OnTheFlyMSD.py (lines 152-193), on top of MMsd.v.
    Simplification: floats are real numbers. *)
From Coq Require Export Reals Qreals.
From Verif Require Export MMsd.
Open Scope Z_scope.
Open Scope list_scope.

(** 170-181: the factor; K1 is an int, n1 a float *)
Definition devFactor (n1 : R) (K1 : Z) : R :=
  (let K := IZR K1 in
   let n2 := n1 * n1 in let n3 := n2 * n1 in
   let K2 := K * K in let K3 := K2 * K in
   if Rle_dec n1 K then sqrt 2 * sqrt ((4 * n2 * K + 2 * K + n1 - n3) / (n1 * 6 * K2))
   else sqrt 2 * sqrt (1 + (K3 - 4 * n1 * K2 + 4 * n1 - K) / (6 * n2 * K)))%R.
(** int(n1 + 1.0): the float is truncated *)
Definition countIndex (n1 : Q) : Z := let q := (n1 + 1)%Q in Z.quot (Qnum q) (Zpos (Qden q)).
(** 160-181 for one bin: None where the code raises IndexError, Some None where the deviation stays 0 *)
Definition binFactor (ms : msd) (n1 : Q) : option (option R) :=
  if (countIndex n1 <? zlen (ms_hcounts ms)) && negb (Qle_bool n1 (1 # 1000000000000)) then
    K1 <- zget (ms_hcounts ms) (countIndex n1) ;;
    if 0 <? K1 then Some (Some (devFactor (Q2R n1) K1)) else Some None
  else Some None.
(** 183-193: the dimensionality factor of direction r = 0 ... 6 *)
Definition dimFactor (r : Z) (x : R) : R := if r <? 3 then x else if r <? 6 then (x * sqrt (1 / 2))%R else (x * sqrt (1 / 3))%R.
(** 152-193: entry of the array of standard deviations for direction r and bin i *)
Definition msStdDev (ms : msd) (r i : Z) : option R :=
  neff <- msNeff ms ;;
  n1 <- zget neff i ;;
  row <- zget (msResults ms) r ;;
  x <- zget row i ;;
  f <- binFactor ms n1 ;;
  match f with Some factor => Some (dimFactor r (Q2R x * factor)%R) | None => Some 0%R end.
