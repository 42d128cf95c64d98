(** Model of c++/src/matcher.{h,cpp} and of the key data of c++/src/hash.cpp. *)
From Verif Require Export MPerform MMpi MRateTable.
Open Scope Z_scope.
Open Scope list_scope.

(** matcher.h: tasks *)
Record ratetask := mkRTk { rt_index : Z; rt_process : Z; rt_rate : Z; rt_mult : Z }.

(** matcher.h members.  [mt_hash] stands for the MD5 based hash64MD5xor (hash.cpp 28-39): an arbitrary
    function from the hashed integers to a key; [mt_ranks] is the number of MPI ranks. *)
Record matcher := mkMT {
  mt_ranks : Z;
  mt_hash : list Z -> Z;
  mt_rt : ratetable;
  mt_inv : list (list bool) }.
Definition set_rt (m : matcher) (rt : ratetable) : matcher := mkMT (mt_ranks m) (mt_hash m) rt (mt_inv m).
Definition set_inv (m : matcher) (inv : list (list bool)) : matcher :=
  mkMT (mt_ranks m) (mt_hash m) (mt_rt m) inv.

(** matcher.cpp 31-36 *)
Definition mkMatcher (ranks : Z) (hash : list Z -> Z) (sites processes : nat) : matcher :=
  mkMT ranks hash rtEmpty (repeat (repeat false processes) sites).

(** matcher.cpp 51-79: pairs to match *)
Definition pairsOf (L : lattice) (ps : list process) (index : Z) : list (Z * Z) :=
  let basis_site := basisSiteFromIndex L index in
  map (fun jp : Z * process => (index, fst jp))
      (filter (fun jp : Z * process => zmem basis_site (pr_basis (snd jp)))
              (combine (zrange 0 (zlen ps - 1)) ps)).
Definition refreshUsed (L : lattice) (ps : list process) (cf : config) (index : Z) : option config :=
  match pairsOf L ps index with
  | [] => Some cf
  | _ => updateMatchList cf index
  end.

(** matcher.cpp 218-248: task type of one pair *)
Definition taskType (S : Z) (m : matcher) (it : interactions) (cf : config) (ip : Z * Z) : option Z :=
  let (index, p_idx) := ip in
  p <- zget (in_procs it) p_idx ;;
  row <- zget (mt_inv m) index ;;
  in_list <- zget row p_idx ;;
  cl <- zget (cf_mlists cf) index ;;
  is_match <- whateverMatch S (pr_ml p) cl ;;
  Some (if negb is_match && in_list then 1
        else if is_match && in_list then 2
        else if is_match && negb in_list then 3 else 0).

(** matcher.cpp 253-294 *)
Definition collectTask (it : interactions) (cf : config)
           (acc : list (Z * Z) * list ratetask * list ratetask) (x : (Z * Z) * Z)
  : option (list (Z * Z) * list ratetask * list ratetask) :=
  let '(rem, upd, add) := acc in
  let '((index, p_idx), ty) := x in
  if ty =? 1 then Some (rem ++ [(index, p_idx)], upd, add)
  else if (ty =? 2) || (ty =? 3) then
    p <- zget (in_procs it) p_idx ;;
    cl <- zget (cf_mlists cf) index ;;
    m <- multiplicity (pr_ml p) cl ;;
    let t := mkRTk index p_idx (pr_rate p) m in
    if ty =? 2 then Some (rem, upd ++ [t], add) else Some (rem, upd, add ++ [t])
  else Some acc.
(** matcher.cpp 202-297 *)
Definition matchIndicesWithProcesses (S : Z) (m : matcher) (pairs : list (Z * Z)) (it : interactions)
           (cf : config) : option (list (Z * Z) * list ratetask * list ratetask) :=
  types <- mpiMap (mt_ranks m) (taskType S m it cf) pairs ;;
  ofold (collectTask it cf) (combine pairs types) ([], [], []).

(** hash.cpp 133-141 and matcher.cpp 541-547: the leading entries within the cutoff.  The loop
    condition dereferences the iterator before comparing it with end(): if every entry is within the
    cutoff it reads past the end of the vector, which is undefined behaviour. *)
Fixpoint withinCutoff (cut2 : Z) (l : list centry) : option (list centry) :=
  match l with
  | [] => None
  | e :: l' => if ce_d2 e <=? cut2 then (r <- withinCutoff cut2 l' ;; Some (e :: r)) else Some []
  end.

(** hash.cpp 115-145 *)
Definition hashData (cf : config) (p : process) (index : Z) : option (list Z) :=
  cl <- zget (cf_mlists cf) index ;;
  env <- withinCutoff (pr_cut2 p) cl ;;
  Some (pr_number p :: flat_map ce_types env).
Definition hashCustomRateInput (m : matcher) (cf : config) (p : process) (index : Z) : option Z :=
  d <- hashData cf p index ;; Some (mt_hash m d).

(** matcher.cpp 576-607: types after the event; [i] runs over the process match list *)
Fixpoint firstOne (u : list Z) (j : Z) : option Z :=
  match u with
  | [] => None
  | v :: u' => if v =? 1 then Some j else firstOne u' (j + 1)
  end.
Definition afterStep (cf : config) (acc : list string * list bucket) (x : Z * pentry)
  : option (list string * list bucket) :=
  let (i, pe) := x in
  let u := pe_upd pe in
  upd' <- zset (snd acc) i u ;;
  if zsum (map Z.abs u) =? 0 then Some (fst acc, upd')
  else
    w <- beqi u 0 ;;
    if w then Some (fst acc, upd')
    else match firstOne u 0 with
         | None => Some (fst acc, upd')
         | Some j => s <- zget (cf_names cf) j ;; after' <- zset (fst acc) i s ;; Some (after', upd')
         end.

(** matcher.cpp 526-642 *)
Definition updateSingleRate (cf : config) (rc : ratecalc) (p : process) (index : Z) : option Z :=
  cl <- zget (cf_mlists cf) index ;;
  env <- withinCutoff (pr_cut2 p) cl ;;
  types_before <- omap (fun e => els <- zget (cf_elements cf) (ce_index e) ;; zget els 0) env ;;
  occupations <- omap (fun e => zget (cf_types cf) (ce_index e)) env ;;
  o0 <- zget occupations 0 ;;
  r <- ofold (afterStep cf) (combine (zrange 0 (zlen (pr_ml p) - 1)) (pr_ml p))
             (types_before, repeat (repeat 0 (length o0)) (length env)) ;;
  g <- zget (cf_coords cf) index ;;
  let geo := map ce_c env in
  if pr_bucket p then
    Some (rc_bucket rc geo occupations (snd r) (cf_names cf) (pr_rate p) (pr_number p) g)
  else
    Some (rc_plain rc geo types_before (fst r) (pr_rate p) (pr_number p) g).

(** matcher.cpp 103-147: look every task up in the rate table.  The result lists, for every task,
    its key and the stored rate if there is one. *)
Definition lookupTask (m : matcher) (it : interactions) (cf : config) (t : ratetask)
  : option (ratetask * Z * option Z * Z) :=
  p <- zget (in_procs it) (rt_process t) ;;
  key <- hashCustomRateInput m cf p (rt_index t) ;;
  if rtStored (mt_rt m) key =? -1 then Some (t, key, None, pr_number p)
  else r <- rtRetrieve (mt_rt m) key ;; Some (t, key, Some r, pr_number p).
Definition isMiss (x : ratetask * Z * option Z * Z) : bool :=
  match x with (_, _, None, _) => true | _ => false end.
Definition set_rate (t : ratetask) (r : Z) : ratetask := mkRTk (rt_index t) (rt_process t) r (rt_mult t).
(** matcher.cpp 163-175: put the stored or the newly calculated rate on every task, in order *)
Fixpoint fillRates (xs : list (ratetask * Z * option Z * Z)) (rates : list Z)
  : option (list ratetask * list Z) :=
  match xs with
  | [] => Some ([], rates)
  | (t, _, Some r, _) :: xs' => fr <- fillRates xs' rates ;; Some (set_rate t r :: fst fr, snd fr)
  | (t, _, None, _) :: xs' =>
      match rates with
      | [] => None
      | r :: rates' => fr <- fillRates xs' rates' ;; Some (set_rate t r :: fst fr, snd fr)
      end
  end.
(** matcher.cpp 178-188: store what was calculated; the process is found by its number *)
Definition storeRate (it : interactions) (rt : ratetable) (x : (ratetask * Z * option Z * Z) * Z)
  : option ratetable :=
  let '((_, key, _, number), rate) := x in
  p <- zget (in_procs it) number ;;
  if pr_cache p then rtStore rt key rate else Some rt.
(** matcher.cpp 96-189 *)
Definition customRates (m : matcher) (it : interactions) (cf : config) (upd add : list ratetask)
  : option (matcher * list ratetask * list ratetask) :=
  xa <- omap (lookupTask m it cf) add ;;
  xu <- omap (lookupTask m it cf) upd ;;
  let global := filter isMiss xa ++ filter isMiss xu in
  rates <- mpiMap (mt_ranks m)
             (fun x : ratetask * Z * option Z * Z =>
                let '(t, _, _, _) := x in
                p <- zget (in_procs it) (rt_process t) ;;
                updateSingleRate cf (in_rc it) p (rt_index t)) global ;;
  fa <- fillRates xa rates ;;
  fu <- fillRates xu (snd fa) ;;
  rt <- ofold (storeRate it) (combine global rates) (mt_rt m) ;;
  Some (set_rt m rt, fst fu, fst fa).

(** matcher.cpp 461-496.  addSite is called with the default multiplicity 1.0 (process.h 76-78). *)
Definition modifyProc (it : interactions) (p_idx : Z) (f : process -> option process)
  : option interactions :=
  p <- zget (in_procs it) p_idx ;;
  p' <- f p ;;
  ps <- zset (in_procs it) p_idx p' ;;
  Some (set_procs it ps).
Definition setInv (inv : list (list bool)) (index p_idx : Z) (b : bool) : option (list (list bool)) :=
  row <- zget inv index ;; row' <- zset row p_idx b ;; zset inv index row'.
Definition doRemove (st : interactions * list (list bool)) (ip : Z * Z)
  : option (interactions * list (list bool)) :=
  let (it, inv) := st in let (index, p_idx) := ip in
  it' <- modifyProc it p_idx (fun p => removeSite p index) ;;
  inv' <- setInv inv index p_idx false ;;
  Some (it', inv').
Definition doUpdate (it : interactions) (t : ratetask) : option interactions :=
  modifyProc it (rt_process t)
    (fun p => p' <- removeSite p (rt_index t) ;; Some (addSite p' (rt_index t) (rt_rate t) 1)).
Definition doAdd (st : interactions * list (list bool)) (t : ratetask)
  : option (interactions * list (list bool)) :=
  let (it, inv) := st in
  it' <- modifyProc it (rt_process t) (fun p => Some (addSite p (rt_index t) (rt_rate t) 1)) ;;
  inv' <- setInv inv (rt_index t) (rt_process t) true ;;
  Some (it', inv').
Definition updateProcesses (m : matcher) (rem : list (Z * Z)) (upd add : list ratetask)
           (it : interactions) : option (matcher * interactions) :=
  st1 <- ofold doRemove rem (it, mt_inv m) ;;
  let (it1, inv1) := st1 in
  it2 <- ofold doUpdate upd it1 ;;
  st3 <- ofold doAdd add (it2, inv1) ;;
  let (it3, inv3) := st3 in
  Some (set_inv m inv3, it3).

(** matcher.cpp 41-198 *)
Definition calculateMatching (L : lattice) (m : matcher) (it : interactions) (cf : config)
           (indices : list Z) : option (matcher * interactions * config) :=
  let pairs := flat_map (pairsOf L (in_procs it)) indices in
  cf' <- ofold (refreshUsed L (in_procs it)) indices cf ;;
  tasks <- matchIndicesWithProcesses (lt_unit L) m pairs it cf' ;;
  let '(rem, upd, add) := tasks in
  r <- (if in_custom it then customRates m it cf' upd add else Some (m, upd, add)) ;;
  let '(m', upd', add') := r in
  mi <- updateProcesses m' rem upd' add' it ;;
  Some (fst mi, snd mi, cf').
