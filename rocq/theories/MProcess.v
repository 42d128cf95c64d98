(** Model of c++/src/matchlist.cpp 20-137 (configurationsToMatchList), process.{h,cpp} and
    customrateprocess.{h,cpp}.  Rates are fixed point integers, distances squared. *)
From Verif Require Export MConfig.
Open Scope Z_scope.
Open Scope list_scope.

(** process.h 182-229; [pr_custom] tells a CustomRateProcess from a Process. *)
Record process := mkPR {
  pr_custom : bool;
  pr_cache : bool;
  pr_number : Z;
  pr_range : Z;
  pr_rate : Z;
  pr_cut2 : Z;
  pr_sites : list Z;
  pr_mult : list Z;
  pr_srates : list Z;
  pr_inc : list Z;
  pr_ml : list pentry;
  pr_aff : list Z;
  pr_basis : list Z;
  pr_idmoves : list (Z * Z);
  pr_bucket : bool;
  pr_total : Z }.

(** matchlist.cpp 34-73: the update buckets *)
Definition updateFromInfo (pt : tmap) (info : tmap) : option bucket :=
  ofold (fun u kv => t <- tfind pt (fst kv) ;; zset u t (snd kv))
        info (repeat 0 (length pt)).
Definition updateFromTypes (t1 t2 : bucket) : option bucket :=
  (* update = t2; update[j] -= t1[j] for j < update.size() *)
  omap (fun j => a <- bget t2 j ;; b <- bget t1 j ;; Some (a - b)) (zrange 0 (zlen t2 - 1)).
Definition updateTypes (first second : config) : option (list bucket) :=
  match cf_update second with
  | [] => omap (fun i => t1 <- zget (cf_types first) i ;; t2 <- zget (cf_types second) i ;;
                         updateFromTypes t1 t2)
               (zrange 0 (zlen (cf_elements first) - 1))
  | infos => omap (updateFromInfo (cf_ptypes second)) infos
  end.

(** matchlist.cpp 94-104: cells spanned by one coordinate component, (int)(x<0 ? -x+0.99999 : x) *)
Definition cmpRange (S x : Z) : Z :=
  if x <? 0 then Z.quot (100000 * (- x) + 99999 * S) (100000 * S) else Z.quot x S.

(** matchlist.cpp 76-136; accumulates (range, cutoff^2, match list, number of affected slots) *)
Record mlacc := mkML { ml_range : Z; ml_cut2 : Z; ml_list : list pentry; ml_aff : list Z }.
Definition mlStep (S : Z) (origin : coord) (coords : list coord) (types : list bucket)
                  (upd : list bucket) (acc : mlacc) (i : Z) : option mlacc :=
  c <- zget coords i ;;
  t <- zget types i ;;
  u <- zget upd i ;;
  let d2 := cnorm2 (csub c origin) in
  let range := Z.max (cmpRange S (cx c)) (ml_range acc) in
  let range := Z.max (cmpRange S (cy c)) range in
  let range := Z.max (cmpRange S (cz c)) range in
  Some (mkML range
             (Z.max d2 (ml_cut2 acc))
             (ml_list acc ++ [mkPE false d2 c czero t u])
             (if existsb (fun v => negb (v =? 0)) u then ml_aff acc ++ [0] else ml_aff acc)).
Definition configurationsToMatchList (S : Z) (first second : config) : option mlacc :=
  upd <- updateTypes first second ;;
  origin <- zget (cf_coords first) 0 ;;
  ofold (mlStep S origin (cf_coords first) (cf_types first) upd)
        (zrange 0 (zlen (cf_elements first) - 1)) (mkML 1 0 [] []).

(** process.cpp 55-60 *)
Definition set_move (e : pentry) (v : coord) : pentry :=
  mkPE true (pe_d2 e) (pe_c e) v (pe_match e) (pe_upd e).
Definition placeMoves (l : list pentry) (origins : list Z) (vectors : list coord) : option (list pentry) :=
  ofold (fun l i => o <- zget origins i ;; v <- zget vectors i ;; e <- zget l o ;; zset l o (set_move e v))
        (zrange 0 (zlen origins - 1)) l.

(** process.cpp 67-97; diff.norm() < 1.0e-6  iff  10^12 |diff|^2 < S^2 *)
Definition moveTarget (S : Z) (l : list pentry) (i : Z) (e : pentry) : option Z :=
  let dest := cadd (pe_c e) (pe_move e) in
  (fix go (l : list pentry) (j : Z) : option Z :=
     match l with
     | [] => None
     | f :: l' =>
         if pe_hasmove f && negb (j =? i)
            && (1000000000000 * cnorm2 (csub (pe_c f) dest) <? S * S)
         then Some j else go l' (j + 1)
     end) l 0.
Definition idMovesOf (S : Z) (l : list pentry) : list (Z * Z) :=
  flat_map (fun ie : Z * pentry =>
              let (i, e) := ie in
              if pe_hasmove e then
                match moveTarget S l i e with Some j => [(i, j)] | None => [] end
              else [])
           (combine (zrange 0 (zlen l - 1)) l).

(** process.cpp 23-98 *)
Definition mkProcess (S : Z) (first second : config) (rate : Z) (basis : list Z)
                     (origins : list Z) (vectors : list coord) (number : Z) : option process :=
  acc <- configurationsToMatchList S first second ;;
  l <- placeMoves (ml_list acc) origins vectors ;;
  let sorted := isort (peLt S) l in
  Some (mkPR false false number (ml_range acc) rate (ml_cut2 acc) [] [] [] []
             sorted (ml_aff acc) basis (idMovesOf S sorted)
             (negb (zlen (cf_update second) =? 0)) 0).

(** customrateprocess.cpp 23-46; [cutoff] in units of 1/S *)
Definition mkCustomProcess (S : Z) (first second : config) (rate : Z) (basis : list Z) (cutoff : Z)
                     (origins : list Z) (vectors : list coord) (number : Z) (cache : bool)
  : option process :=
  p <- mkProcess S first second rate basis origins vectors number ;;
  let cut2 := if (0 <=? cutoff) && (pr_cut2 p <? cutoff * cutoff) then cutoff * cutoff else pr_cut2 p in
  Some (mkPR true cache number (Z.sqrt cut2 / S) rate cut2 [] [] [] []
             (pr_ml p) (pr_aff p) basis (pr_idmoves p) (pr_bucket p) 0).

(** ** Site bookkeeping *)
Definition set_sites (p : process) (sites mult srates : list Z) (total : Z) : process :=
  mkPR (pr_custom p) (pr_cache p) (pr_number p) (pr_range p) (pr_rate p) (pr_cut2 p)
       sites mult srates (pr_inc p) (pr_ml p) (pr_aff p) (pr_basis p) (pr_idmoves p)
       (pr_bucket p) total.
Definition set_inc (p : process) (inc : list Z) : process :=
  mkPR (pr_custom p) (pr_cache p) (pr_number p) (pr_range p) (pr_rate p) (pr_cut2 p)
       (pr_sites p) (pr_mult p) (pr_srates p) inc (pr_ml p) (pr_aff p) (pr_basis p) (pr_idmoves p)
       (pr_bucket p) (pr_total p).
Definition set_aff (p : process) (aff : list Z) : process :=
  mkPR (pr_custom p) (pr_cache p) (pr_number p) (pr_range p) (pr_rate p) (pr_cut2 p)
       (pr_sites p) (pr_mult p) (pr_srates p) (pr_inc p) (pr_ml p) aff (pr_basis p) (pr_idmoves p)
       (pr_bucket p) (pr_total p).
Definition set_ml (p : process) (ml : list pentry) (idm : list (Z * Z)) : process :=
  mkPR (pr_custom p) (pr_cache p) (pr_number p) (pr_range p) (pr_rate p) (pr_cut2 p)
       (pr_sites p) (pr_mult p) (pr_srates p) (pr_inc p) ml (pr_aff p) (pr_basis p) idm
       (pr_bucket p) (pr_total p).

(** process.cpp 103-110, customrateprocess.cpp 51-59 *)
Definition addSite (p : process) (index rate mult : Z) : process :=
  if pr_custom p then
    set_sites p (pr_sites p ++ [index]) (pr_mult p ++ [mult]) (pr_srates p ++ [rate])
              (pr_total p + mult * rate)
  else
    set_sites p (pr_sites p ++ [index]) (pr_mult p ++ [mult]) (pr_srates p)
              (pr_total p + mult * pr_rate p).

(** std::find: position of the first occurrence, the length if there is none *)
Fixpoint zfind (l : list Z) (x : Z) : Z :=
  match l with
  | [] => 0
  | a :: l' => if a =? x then 0 else 1 + zfind l' x
  end.
(** std::swap(v[pos], v.back()); v.pop_back(); gives the shortened vector and the removed element.
    Swapping with end() (element not found) or popping an empty vector is undefined behaviour. *)
Definition swapRemove {A} (l : list A) (pos : Z) : option (list A * A) :=
  x <- zget l pos ;;
  last <- zget l (zlen l - 1) ;;
  l' <- zset l pos last ;;
  Some (removelast l', x).
(** process.cpp 115-136, customrateprocess.cpp 64-101 *)
Definition removeSite (p : process) (index : Z) : option process :=
  let pos := zfind (pr_sites p) index in
  rs <- swapRemove (pr_sites p) pos ;;
  if pr_custom p then
    rr <- swapRemove (pr_srates p) pos ;;
    rm <- swapRemove (pr_mult p) pos ;;
    Some (set_sites p (fst rs) (fst rm) (fst rr) (pr_total p - snd rr * snd rm))
  else
    rm <- swapRemove (pr_mult p) pos ;;
    Some (set_sites p (fst rs) (fst rm) (pr_srates p) (pr_total p - snd rm * pr_rate p)).

(** process.cpp 141-147 *)
Definition clearSites (p : process) : process := set_sites p [] [] [] 0.

(** process.cpp 181-185 *)
Definition isListed (p : process) (index : Z) : bool := zmem index (pr_sites p).

(** process.cpp 190-202, customrateprocess.cpp 106-118 *)
Fixpoint incTable (previous : Z) (rs : list Z) : list Z :=
  match rs with
  | [] => []
  | r :: rs' => (previous + r) :: incTable (previous + r) rs'
  end.
Definition siteRates (p : process) : option (list Z) :=
  if pr_custom p then
    omap (fun i => r <- zget (pr_srates p) i ;; m <- zget (pr_mult p) i ;; Some (r * m))
         (zrange 0 (zlen (pr_mult p) - 1))
  else Some (map (fun m => pr_rate p * m) (pr_mult p)).
Definition updateRateTable (p : process) : option process :=
  rs <- siteRates p ;; Some (set_inc p (incTable 0 rs)).

(** A uniform deviate u = dv_num / dv_den, 0 <= dv_num < dv_den (random.cpp 131-156). *)
Record deviate := mkDev { dv_num : Z; dv_den : Z }.
(** element < u * total *)
Definition belowDev (u : deviate) (total : Z) (x : Z) : bool := x * dv_den u <? dv_num u * total.

(** process.cpp 152-176 *)
Definition pickSite (p : process) (u : deviate) : option Z :=
  total <- zget (pr_inc p) (zlen (pr_inc p) - 1) ;;
  pos <- lower_bound (belowDev u total) (pr_inc p) ;;
  zget (pr_sites p) pos.
