(** Model of c++/src/ratetable.{h,cpp}.  A std::unordered_map is an association list with unique keys. *)
From Verif Require Export Base.
Open Scope Z_scope.

Definition kmap := list (Z * Z).
Fixpoint kfind (m : kmap) (k : Z) : option Z :=
  match m with
  | [] => None
  | (k', v) :: m' => if k' =? k then Some v else kfind m' k
  end.
(** operator[] = value *)
Fixpoint kput (m : kmap) (k v : Z) : kmap :=
  match m with
  | [] => [(k, v)]
  | (k', v') :: m' => if k' =? k then (k', v) :: m' else (k', v') :: kput m' k v
  end.

(** ratetable.h 57-69; n_tables_ and max_size_ are set by the constructor to 8 and 1024 *)
Record ratetable := mkRT { rt_n : Z; rt_max : Z; rt_cur : Z; rt_tabs : list kmap }.

(** ratetable.cpp 19-26 *)
Definition rtEmpty : ratetable := mkRT 8 1024 0 (repeat [] 8).

(** ratetable.cpp 31-42 *)
Fixpoint stored_loop (tabs : list kmap) (i k : Z) : Z :=
  match tabs with
  | [] => -1
  | t :: tabs' => match kfind t k with Some _ => i | None => stored_loop tabs' (i + 1) k end
  end.
Definition rtStored (rt : ratetable) (k : Z) : Z := stored_loop (rt_tabs rt) 0 k.

(** ratetable.cpp 47-68 *)
Definition rtStore (rt : ratetable) (k v : Z) : option ratetable :=
  t <- zget (rt_tabs rt) (rt_cur rt) ;;
  let t' := kput t k v in
  tabs <- zset (rt_tabs rt) (rt_cur rt) t' ;;
  if zlen t' =? rt_max rt then
    let cur := Z.rem (rt_cur rt + 1) (rt_n rt) in
    tabs' <- zset tabs cur [] ;;
    Some (mkRT (rt_n rt) (rt_max rt) cur tabs')
  else Some (mkRT (rt_n rt) (rt_max rt) (rt_cur rt) tabs).

(** ratetable.cpp 73-78; .at() throws when the key is not stored *)
Definition rtRetrieve (rt : ratetable) (k : Z) : option Z :=
  t <- zget (rt_tabs rt) (rtStored rt k) ;; kfind t k.
