(** Model of c++/src/blocker.{h,cpp}: block averages per bin of a histogram.
    Simplification: registered values are integers in some fixed unit, sums are exact; the reported quantities are real numbers. *)
From Coq Require Export Reals.
From Verif Require Export Base MLattice.
Open Scope Z_scope.
Open Scope list_scope.

(** blocker.h 53-64 *)
Record blocker := mkBL { bl_size : Z; bl_since : list Z; bl_current : list coord; bl_blocks : list (list coord) }.

(** blocker.cpp 21-28; a negative number of bins is a vector of negative size: std::length_error *)
Definition mkBlocker (nbins blocksize : Z) : option blocker :=
  if nbins <? 0 then None
  else Some (mkBL blocksize (repeat 0 (Z.to_nat nbins)) (repeat czero (Z.to_nat nbins)) (repeat [] (Z.to_nat nbins))).

(** blocker.cpp 33-48 *)
Definition blRegister (bl : blocker) (bin : Z) (value : coord) : option blocker :=
  c <- zget (bl_current bl) bin ;;
  current <- zset (bl_current bl) bin (cadd c value) ;;
  n <- zget (bl_since bl) bin ;;
  since <- zset (bl_since bl) bin (n + 1) ;;
  if n + 1 =? bl_size bl then
    bs <- zget (bl_blocks bl) bin ;;
    blocks <- zset (bl_blocks bl) bin (bs ++ [cadd c value]) ;;
    since' <- zset since bin 0 ;;
    current' <- zset current bin czero ;;
    Some (mkBL (bl_size bl) since' current' blocks)
  else Some (mkBL (bl_size bl) since current (bl_blocks bl)).
(** calls of registerStep one after the other *)
Definition blRegisterAll (bl : blocker) (calls : list (Z * coord)) : option blocker :=
  ofold (fun b c => blRegister b (fst c) (snd c)) calls bl.

(** a Coordinate of doubles *)
Record rcoord := mkRC3 { rx : R; ry : R; rz : R }.
Definition rmap (f : R -> R) (c : rcoord) : rcoord := mkRC3 (f (rx c)) (f (ry c)) (f (rz c)).
Definition rzip (f : R -> R -> R) (c d : rcoord) : rcoord := mkRC3 (f (rx c) (rx d)) (f (ry c) (ry d)) (f (rz c) (rz d)).
Definition rofZ (c : coord) : rcoord := mkRC3 (IZR (cx c)) (IZR (cy c)) (IZR (cz c)).
Definition rminus1 : rcoord := mkRC3 (-1) (-1) (-1).

(** blocker.cpp 65-117: the pair stored for one bin *)
Definition blSigma (size count : Z) (buffer : coord) (blocks : list coord) : rcoord * rcoord :=
  let bincount := if negb (count =? 0) then count else 1 in
  let rho_run := rmap (fun v => v / IZR bincount)%R (rofZ buffer) in
  let nblocks := zlen blocks in
  if 1 <? nblocks then
    let bin_sum := fold_left (fun sum b =>
                     let tmp0 := rmap (fun v => v / IZR size)%R (rofZ b) in
                     let tmp1 := rzip Rminus tmp0 rho_run in
                     rzip Rplus sum (rmap (fun v => v * v)%R tmp1)) blocks (mkRC3 0 0 0) in
    let c0 := rmap (fun v => v / IZR nblocks)%R bin_sum in
    let std := rmap (fun v => sqrt (v / (IZR nblocks - 1)))%R c0 in
    let std_std := rmap (fun v => v / sqrt (IZR (2 * nblocks) - 2))%R std in
    (std, std_std)
  else (rminus1, rminus1).
(** blocker.cpp 53-123: data_per_bin has one element per bin count, the loop runs over the bins of the blocker *)
Definition blValues (bl : blocker) (counts : list Z) (buffer : list coord) : option (list (rcoord * rcoord)) :=
  ofold (fun data i =>
           count <- zget counts i ;; b <- zget buffer i ;; bs <- zget (bl_blocks bl) i ;;
           zset data i (blSigma (bl_size bl) count b bs))
        (zrange 0 (zlen (bl_blocks bl) - 1))
        (repeat (mkRC3 0 0 0, mkRC3 0 0 0) (length counts)).
