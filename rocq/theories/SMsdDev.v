(** Specification: the statistical error of a mean square displacement that is averaged over K displacements of n steps, cut from one random walk.
    The displacements i, j = 0 ... K-1 (displacement i goes from step i to step i+n) have n - |i-j| steps in common, if that is positive.  For independent
    Gaussian steps the squares of two displacements with m steps in common have the covariance 2 (m/n)^2 msd^2 in each direction, so the variance of the mean of
    the K squares is 2 msd^2 times the mean of (m/n)^2 over all pairs. *)
From Coq Require Export Reals.
From Verif Require Export SMsd.
Open Scope Z_scope.
Open Scope list_scope.

(** steps in common *)
Definition common (n i j : Z) : Z := Z.max 0 (n - Z.abs (i - j)).
(** the sum of their squares over all pairs of displacements *)
Definition pairSum (n K : Z) : Z := zsum (map (fun i => zsum (map (fun j => common n i j ^ 2) (zrange 0 (K - 1)))) (zrange 0 (K - 1))).
(** the mean of (m/n)^2 over all pairs *)
Definition overlap (n K : Z) : R := (IZR (pairSum n K) / (IZR n ^ 2 * IZR K ^ 2))%R.
(** the same for a number of steps n that need not be whole (it is a mean over the bin): the two formulas to which [overlap] sums up
    for n <= K and n > K (C76_formula) *)
Definition errorFactor (n K : R) : R :=
  (if Rle_dec n K then (4 * n ^ 2 * K + 2 * K + n - n ^ 3) / (6 * n * K ^ 2) else 1 + (K ^ 3 - 4 * n * K ^ 2 + 4 * n - K) / (6 * n ^ 2 * K))%R.
(** dimensions of direction r (x, y, z, xy, xz, yz, xyz): the directions are independent *)
Definition dimensions (r : Z) : R := if r <? 3 then 1%R else if r <? 6 then 2%R else 3%R.
(** s is the standard deviation of the mean msd over K displacements of n steps *)
Definition isDeviation (r : Z) (msd n K s : R) : Prop := (0 <= s /\ s ^ 2 * dimensions r = msd ^ 2 * (2 * errorFactor n K))%R.
