(** Model of c++/src/mpiroutines.{h,cpp}: chunking, split and join.
    The MPI ranks are run one after the other; MPI_Allreduce with MPI_SUM is the sum over the ranks. *)
From Verif Require Export Base.
Open Scope Z_scope.

(** mpiroutines.cpp 109-135: (start, size) for every rank *)
Fixpoint chunks_loop (n : nat) (i sum take rest : Z) : list (Z * Z) :=
  match n with
  | O => []
  | S n' =>
      let i_take := if i <? rest then take + 1 else take in
      (sum, i_take) :: chunks_loop n' (i + 1) (sum + i_take) take rest
  end.
Definition determineChunks (mpi_size vector_size : Z) : list (Z * Z) :=
  chunks_loop (Z.to_nat mpi_size) 0 0 (Z.quot vector_size mpi_size) (Z.rem vector_size mpi_size).

(** mpiroutines.h 90-124 on the given rank *)
Definition splitOverProcesses {A} (size rank : Z) (global : list A) : option (list A) :=
  c <- zget (determineChunks size (zlen global)) rank ;;
  omap (fun i => zget global (fst c + i)) (zrange 0 (snd c - 1)).

(** mpiroutines.h 145-166 on the given rank: the zero-initialised global vector with the local part filled in *)
Definition placeLocal (size rank global_len : Z) (local : list Z) : option (list Z) :=
  c <- zget (determineChunks size global_len) rank ;;
  ofold (fun g i => v <- zget local i ;; zset g (fst c + i) v)
        (zrange 0 (snd c - 1)) (repeat 0 (Z.to_nat global_len)).

(** MPI_Allreduce(MPI_SUM) on vectors of equal length *)
Fixpoint vadd (a b : list Z) : list Z :=
  match a, b with
  | x :: a', y :: b' => (x + y) :: vadd a' b'
  | _, _ => []
  end.

(** mpiroutines.h 130-174, all ranks at once: [locals] lists the local vector of every rank *)
Definition joinOverProcesses (size : Z) (locals : list (list Z)) : option (list Z) :=
  let global_len := zsum (map zlen locals) in
  placed <- omap (fun rl : Z * list Z => placeLocal size (fst rl) global_len (snd rl))
                 (combine (zrange 0 (size - 1)) locals) ;;
  Some (fold_right vadd (repeat 0 (Z.to_nat global_len)) placed).

(** The usage pattern in matcher.cpp: split, compute on every local element, join. *)
Definition mpiMap {A} (size : Z) (f : A -> option Z) (global : list A) : option (list Z) :=
  locals <- omap (fun rank => l <- splitOverProcesses size rank global ;; omap f l)
                 (zrange 0 (size - 1)) ;;
  joinOverProcesses size locals.
