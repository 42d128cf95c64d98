(** Model of several KMCLatticeModel objects that use the same KMCInteractions objects:
    python/src/KMCLib/CoreComponents/KMCInteractions.py 144-273 (_backend), KMCLatticeModel.py 69-92 (_backend),
    c++/src/latticemodel.cpp 23-38 and the implicit copy constructor of Interactions (interactions.h 118-146). *)
From Verif Require Export MModel.
Open Scope Z_scope.
Open Scope list_scope.

(** KMCInteractions.py 32-64: one KMCInteractions object.  [io_make] is what lines 161-270 construct from the possible types and the number
    of basis points of a configuration (None: an exception); [io_backend] is self.__backend, the C++ object once it was made.
    Simplification: a rate calculator is also given the configuration of the first model (lines 174-176); calculators that read it are not
    modelled, the rates depend on the arguments of rateFunction only. *)
Record iobject := mkIO { io_make : tmap -> Z -> option interactions; io_backend : option interactions }.

(** KMCInteractions.py 160, 272-273: the backend is made at the first call and returned unchanged afterwards, whatever the arguments *)
Definition backendOf (ob : iobject) (pt : tmap) (n_basis : Z) : option interactions :=
  match io_backend ob with Some it => Some it | None => io_make ob pt n_basis end.

(** what a KMCLatticeModel is built with besides the interactions *)
Record setup := mkSetup { su_ranks : Z; su_hash : list Z -> Z; su_lat : lattice; su_cf : config }.

(** All the objects of a program: the KMCInteractions objects, and for every KMCLatticeModel the number of its KMCInteractions object and
    its backend.  LatticeModel::interactions_ is a copy of the Interactions object (latticemodel.h 88, latticemodel.cpp 30): the copied
    process_pointers_ still point to the processes of the original (interactions.cpp 52-56, 78-82), the probability table is its own.
    So the processes in [wd_models] are not used: the model works on those of the object. *)
Record world := mkW { wd_objs : list iobject; wd_models : list (Z * model) }.

Definition withProcs (md : model) (ps : list process) : model := mkMD (md_lat md) (md_cf md) (set_procs (md_in md) ps) (md_mt md).
(** the processes behind the pointers *)
Definition setBackend (ob : iobject) (it : interactions) : iobject := mkIO (io_make ob) (Some it).

(** KMCLatticeModel.py 69-92 with latticemodel.cpp 23-38: the constructor clears and rematches the processes of the object *)
Definition wBuild (w : world) (o : Z) (s : setup) : option world :=
  ob <- zget (wd_objs w) o ;;
  it <- backendOf ob (cf_ptypes (su_cf s)) (lt_nb (su_lat s)) ;;
  md <- mkLatticeModel (su_ranks s) (su_hash s) (su_lat s) (su_cf s) it ;;
  objs <- zset (wd_objs w) o (setBackend ob (set_procs it (in_procs (md_in md)))) ;;
  Some (mkW objs (wd_models w ++ [(o, md)])).

(** latticemodel.cpp 77-99 of model m *)
Definition wStep (w : world) (m : Z) (u1 u2 : deviate) : option world :=
  om <- zget (wd_models w) m ;;
  let (o, md) := om : Z * model in
  ob <- zget (wd_objs w) o ;;
  it <- io_backend ob ;;
  md' <- singleStep (withProcs md (in_procs it)) u1 u2 ;;
  objs <- zset (wd_objs w) o (setBackend ob (set_procs it (in_procs (md_in md')))) ;;
  models <- zset (wd_models w) m (o, md') ;;
  Some (mkW objs models).

(** what a program does: it builds models and lets them take steps, in any order *)
Inductive wop := Build (o : Z) (s : setup) | Step (m : Z) (u1 u2 : deviate).
Definition wDo (w : world) (op : wop) : option world :=
  match op with Build o s => wBuild w o s | Step m u1 u2 => wStep w m u1 u2 end.
Definition runWorld (w : world) (ops : list wop) : option world := ofold wDo ops w.
