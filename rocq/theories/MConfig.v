(** Model of c++/src/configuration.{h,cpp}, except performBucketProcess (MPerform.v). *)
From Coq Require Export String.
From Verif Require Export Base MLattice MMatch.
Open Scope Z_scope.
Open Scope list_scope.

Notation length := List.length.

(** std::map<std::string,int> as an association list (first binding counts). *)
Definition tmap := list (string * Z).
Fixpoint tfind (m : tmap) (s : string) : option Z :=
  match m with
  | [] => None
  | (k, v) :: m' => if String.eqb k s then Some v else tfind m' s
  end.

(** configuration.h 180-223 *)
Record config := mkCF {
  cf_nmoved : Z;
  cf_coords : list coord;
  cf_aidcoords : list coord;
  cf_elements : list (list string);
  cf_aidelements : list string;
  cf_types : list bucket;
  cf_aid : list Z;
  cf_moved : list Z;
  cf_recent : list coord;
  cf_names : list string;
  cf_mlists : list (list centry);
  cf_update : list tmap;
  cf_ptypes : tmap;
  cf_lastproc : Z;
  cf_lastsite : Z }.

(** configuration.cpp 62-71 *)
Definition maxType (pt : tmap) : Z := fold_left (fun m kv => Z.max m (snd kv)) pt 0.
(** configuration.cpp 73-81; a type number outside the vector is undefined behaviour *)
Definition typeNamesOf (pt : tmap) : option (list string) :=
  ofold (fun names kv => zset names (snd kv) (fst kv)) pt
        (repeat EmptyString (Z.to_nat (maxType pt + 1))).
(** configuration.cpp 86-97: the bucket of one site; an unknown name dereferences map.end() *)
Definition bucketOf (pt : tmap) (size : Z) (els : list string) : option bucket :=
  ofold (fun tb e => t <- tfind pt e ;; v <- zget tb t ;; zset tb t (v + 1))
        els (repeat 0 (Z.to_nat size)).

(** configuration.cpp 29-102 *)
Definition mkConfiguration (coordinates : list coord) (elements : list (list string)) (pt : tmap)
  : option config :=
  (* 47-57: elements_[i][0] for every coordinate; atom_id_elements_ has elements.size() slots *)
  aidel <- ofold (fun ae i => els <- zget elements i ;; e <- zget els 0 ;; zset ae i e)
                 (zrange 0 (zlen coordinates - 1)) (repeat EmptyString (length elements)) ;;
  names <- typeNamesOf pt ;;
  types <- omap (bucketOf pt (zlen names)) elements ;;
  Some (mkCF 0 coordinates coordinates elements aidel types
             (zrange 0 (zlen coordinates - 1)) [] [] names
             (repeat [] (length elements)) [] pt 0 0).

(** configuration.cpp 155-266.  The three branches on the periodicity compute the same wrapped
    coordinate (latticemap.h 165-180); they are modelled by one.  std::sort is [isort] with operator<. *)
Definition configEntry (L : lattice) (coords : list coord) (types : list bucket)
                       (center : coord) (index : Z) : option centry :=
  ci <- zget coords index ;;
  t <- zget types index ;;
  let c := wrapCoord L (csub ci center) in
  Some (mkCE index (cnorm2 c) c t).
Definition configMatchList (L : lattice) (cf : config) (origin : Z) (indices : list Z)
  : option (list centry) :=
  center <- zget (cf_coords cf) origin ;;
  es <- omap (configEntry L (cf_coords cf) (cf_types cf) center) indices ;;
  Some (isort (ceLt (lt_unit L)) es).

Definition set_mlists (cf : config) (ml : list (list centry)) : config :=
  mkCF (cf_nmoved cf) (cf_coords cf) (cf_aidcoords cf) (cf_elements cf) (cf_aidelements cf)
       (cf_types cf) (cf_aid cf) (cf_moved cf) (cf_recent cf) (cf_names cf) ml (cf_update cf)
       (cf_ptypes cf) (cf_lastproc cf) (cf_lastsite cf).

Definition set_moved (cf : config) (n : Z) (moved : list Z) (recent : list coord) : config :=
  mkCF n (cf_coords cf) (cf_aidcoords cf) (cf_elements cf) (cf_aidelements cf)
       (cf_types cf) (cf_aid cf) moved recent (cf_names cf) (cf_mlists cf) (cf_update cf)
       (cf_ptypes cf) (cf_lastproc cf) (cf_lastsite cf).

(** std::vector::resize *)
Definition vresize {A} (d : A) (l : list A) (n : nat) : list A :=
  firstn n l ++ repeat d (n - length l).

(** configuration.cpp 107-136 *)
Definition initMatchLists (L : lattice) (range : Z) (cf : config) : option config :=
  mls <- omap (fun i => configMatchList L cf i (neighbourIndices L i range))
              (zrange 0 (zlen (cf_types cf) - 1)) ;;
  let max_size := fold_left (fun m l => Nat.max m (length l)) mls 0%nat in
  Some (set_moved (set_mlists cf mls) (cf_nmoved cf)
                  (vresize 0 (cf_moved cf) max_size) (vresize czero (cf_recent cf) max_size)).

(** configuration.cpp 141-150 *)
Definition refreshEntry (types : list bucket) (e : centry) : option centry :=
  t <- zget types (ce_index e) ;; Some (mkCE (ce_index e) (ce_d2 e) (ce_c e) t).
Definition updateMatchList (cf : config) (index : Z) : option config :=
  ml <- zget (cf_mlists cf) index ;;
  ml' <- omap (refreshEntry (cf_types cf)) ml ;;
  mls <- zset (cf_mlists cf) index ml' ;;
  Some (set_mlists cf mls).

(** configuration.h 154-158 *)
Definition setUpdateInfo (cf : config) (u : list tmap) : config :=
  mkCF (cf_nmoved cf) (cf_coords cf) (cf_aidcoords cf) (cf_elements cf) (cf_aidelements cf)
       (cf_types cf) (cf_aid cf) (cf_moved cf) (cf_recent cf) (cf_names cf) (cf_mlists cf) u
       (cf_ptypes cf) (cf_lastproc cf) (cf_lastsite cf).

(** configuration.cpp 408-424 *)
Definition particlesPerType (cf : config) : option (list Z) :=
  ofold (fun acc tb =>
           omap (fun j => a <- zget acc j ;; v <- bget tb j ;; Some (a + v))
                (zrange 0 (zlen acc - 1)))
        (cf_types cf) (repeat 0 (length (cf_ptypes cf))).
