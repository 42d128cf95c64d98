(** Model of c++/src/typebucket.h, matchlistentry.{h,cpp}, matchlist.{h,cpp}. *)
From Verif Require Import Base MLattice.

(** ** typebucket.h: a bucket holds one count per type number (slot 0 is the wildcard). *)
Definition bucket := list Z.

(** typebucket.h 60-66 operator[] (unchecked raw access: outside the data it is undefined behaviour) *)
Definition bget (b : bucket) (i : Z) : option Z := zget b i.

(** typebucket.h 143-160 *)
Fixpoint list_eqb (a b : bucket) : bool :=
  match a, b with
  | [], [] => true
  | x :: a', y :: b' => (x =? y) && list_eqb a' b'
  | _, _ => false
  end.
Definition bidentical (a b : bucket) : bool := list_eqb a b.

(** typebucket.h 165-188; throws if size <= i *)
Definition beqi (a : bucket) (i : Z) : option bool :=
  if zlen a <=? i then None
  else Some (list_eqb a (map (fun j => if j =? i then 1 else 0) (zrange 0 (zlen a - 1)))).

(** typebucket.h 193-213; throws if the sizes differ *)
Fixpoint bge_loop (a b : bucket) : bool :=
  match a, b with
  | x :: a', y :: b' => if x <? y then false else if y <? x then true else bge_loop a' b'
  | _, _ => true
  end.
Definition bge (a b : bucket) : option bool :=
  if zlen a =? zlen b then Some (bge_loop a b) else None.
(** typebucket.h 260-268 *)
Definition blt (a b : bucket) : option bool := r <- bge a b ;; Some (negb r).

(** typebucket.h 218-235; throws if the sizes differ *)
Fixpoint bmatch_loop (a b : bucket) : bool :=
  match a, b with
  | x :: a', y :: b' => if y <? x then false else bmatch_loop a' b'
  | _, _ => true
  end.
Definition bmatch (a b : bucket) : option bool :=
  if zlen a =? zlen b then Some (bmatch_loop a b) else None.

(** typebucket.h 240-255; throws if the sizes differ *)
Fixpoint badd_loop (a b : bucket) : bucket :=
  match a, b with
  | x :: a', y :: b' => (x + y) :: badd_loop a' b'
  | _, _ => []
  end.
Definition badd (a b : bucket) : option bucket :=
  if zlen a =? zlen b then Some (badd_loop a b) else None.

(** ** matchlistentry.h *)
(** 57-82 MinimalMatchListEntry / ConfigBucketMatchListEntry; the distance is kept squared. *)
Record centry := mkCE { ce_index : Z; ce_d2 : Z; ce_c : coord; ce_types : bucket }.

(** 86-121 ProcessBucketMatchListEntry; [index] and the move_cell members are never read and are left out. *)
Record pentry := mkPE {
  pe_hasmove : bool; pe_d2 : Z; pe_c : coord; pe_move : coord;
  pe_match : bucket; pe_upd : bucket }.

(** ** matchlistentry.cpp
    epsi__ = 1.0e-5 (line 18).  Distances are sqrt(d2)/S.  With lo <= hi,
    sqrt(hi)/S - sqrt(lo)/S > 1e-5  iff  sqrt(10^10 hi) > sqrt(10^10 lo) + S
                                    iff  d > 0 and d^2 > 4 S^2 10^10 lo,  d = 10^10 (hi-lo) - S^2. *)
Definition e10 : Z := 10000000000.
Definition distGap (S a b : Z) : Z := e10 * (Z.max a b - Z.min a b) - S * S.
(** std::fabs(d1 - d2) > epsi__ *)
Definition distFar (S a b : Z) : bool :=
  let d := distGap S a b in
  (0 <? d) && (4 * (S * S) * (e10 * Z.min a b) <? d * d).
(** std::fabs(d1 - d2) < epsi__ *)
Definition distNear (S a b : Z) : bool :=
  let d := distGap S a b in
  (d <? 0) || (d * d <? 4 * (S * S) * (e10 * Z.min a b)).
(** std::fabs(x1 - x2) > epsi__ *)
Definition coFar (S a b : Z) : bool := S <? 100000 * Z.abs (b - a).

(** 23-45, 50-72 *)
Definition samePoint (S d1 : Z) (c1 : coord) (d2 : Z) (c2 : coord) : bool :=
  if distFar S d1 d2 then false
  else if coFar S (cx c1) (cx c2) then false
  else if coFar S (cy c1) (cy c2) then false
  else if coFar S (cz c1) (cz c2) then false
  else true.

(** 77-114, 119-156, 160-197: the three operator< have the same body *)
Definition pointLt (S d1 : Z) (c1 : coord) (d2 : Z) (c2 : coord) : bool :=
  if distNear S d1 d2 then
    if cx c1 <? cx c2 then true
    else if cx c2 <? cx c1 then false
    else if cy c1 <? cy c2 then true
    else if cy c2 <? cy c1 then false
    else cz c1 <? cz c2
  else d1 <? d2.

Definition ceLt (S : Z) (a b : centry) : bool := pointLt S (ce_d2 a) (ce_c a) (ce_d2 b) (ce_c b).
Definition peLt (S : Z) (a b : pentry) : bool := pointLt S (pe_d2 a) (pe_c a) (pe_d2 b) (pe_c b).

(** matchlistentry.h 124-141 *)
Definition peMatch (S : Z) (p : pentry) (m : centry) : option bool :=
  w <- bget (pe_match p) 0 ;;
  if w =? 1 then Some true
  else
    t <- bmatch (pe_match p) (ce_types m) ;;
    if t then Some (samePoint S (pe_d2 p) (pe_c p) (ce_d2 m) (ce_c m)) else Some false.

(** matchlistentry.h 146-154.  has_move_coordinate and move_coordinate are not initialised by
    initWildcard (move_coordinate is default constructed to zero, has_move_coordinate is indeterminate, modelled as false;
    it is only read for entries with a non-zero update, which wildcards never have). *)
Definition initWildcard (c : centry) : pentry :=
  mkPE false (ce_d2 c) (ce_c c) czero
       (map (fun j => if j =? 0 then 1 else 0) (zrange 0 (zlen (ce_types c) - 1)))
       (map (fun _ => 0) (ce_types c)).

(** ** matchlist.h 71-91 *)
Fixpoint match_loop (S : Z) (m1 : list pentry) (m2 : list centry) : option bool :=
  match m1 with
  | [] => Some true
  | p :: m1' =>
      match m2 with
      | [] => None
      | c :: m2' => b <- peMatch S p c ;; if b then match_loop S m1' m2' else Some false
      end
  end.
Definition whateverMatch (S : Z) (m1 : list pentry) (m2 : list centry) : option bool :=
  if zlen m2 <? zlen m1 then Some false else match_loop S m1 m2.

(** ** matchlist.cpp 142-201: multiplicity *)
(** lines 178-189: the descending product  start * (start-1) * ... * (stop+1),
    as  local = start; for (j = start-1; j > stop; --j) local *= j; *)
Fixpoint descProd (fuel : nat) (acc j stop : Z) : Z :=
  match fuel with
  | O => acc
  | S fuel' => if stop <? j then descProd fuel' (acc * j) (j - 1) stop else acc
  end.
Definition binomCode (n r : Z) : Z :=
  let n_minus_r := n - r in
  let mx := Z.max r n_minus_r in
  let mn := Z.min r n_minus_r in
  if mn =? 0 then 1
  else
    let local_n := descProd (Z.to_nat n) n (n - 1) mx in
    let local_r := descProd (Z.to_nat mn) mn (mn - 1) 0 in
    Z.quot local_n local_r.

(** lines 161-195: loop over the types of one entry, starting from slot 1 *)
Fixpoint mult_types (m : Z) (t1 t2 : bucket) : option Z :=
  match t1 with
  | [] => Some m
  | r :: t1' =>
      match t2 with
      | [] => if 0 <? r then None else mult_types m t1' []
      | n :: t2' => mult_types (if 0 <? r then m * binomCode n r else m) t1' t2'
      end
  end.
Fixpoint mult_loop (m : Z) (m1 : list pentry) (m2 : list centry) : option Z :=
  match m1 with
  | [] => Some m
  | p :: m1' =>
      match m2 with
      | [] => None
      | c :: m2' =>
          w <- bget (pe_match p) 0 ;;
          m' <- (if w =? 0 then mult_types m (tl (pe_match p)) (tl (ce_types c)) else Some m) ;;
          mult_loop m' m1' m2'
      end
  end.
Definition multiplicity (m1 : list pentry) (m2 : list centry) : option Z := mult_loop 1 m1 m2.
