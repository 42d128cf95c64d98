(** Model of the floating point parts of c++/src/latticemap.cpp, c++/src/process.cpp, c++/src/customrateprocess.cpp and
    c++/src/interactions.cpp: double is IEEE binary64, operations round to nearest even (Flocq's BinarySingleNaN). *)
From Coq Require Import Reals.
From Flocq Require Import Core BinarySingleNaN.
From Verif Require Export MModel.
From Coq Require Import ZifyBool.
Open Scope Z_scope.
Open Scope list_scope.

Definition f64 : Set := binary_float 53 1024.
Definition prec64 : Prec_gt_0 53 := eq_refl.
Definition emax64 : Prec_lt_emax 53 1024 := eq_refl.
#[global] Existing Instance prec64.
#[global] Existing Instance emax64.
Definition fadd (x y : f64) : f64 := Bplus mode_NE x y.
Definition fsub (x y : f64) : f64 := Bminus mode_NE x y.
Definition fmul (x y : f64) : f64 := Bmult mode_NE x y.
Definition fdiv (x y : f64) : f64 := Bdiv mode_NE x y.
(** m * 2^e rounded to a double; a decimal literal of the program is the double next to it *)
Definition flit (m e : Z) : f64 := binary_normalize 53 1024 prec64 emax64 mode_NE m e false.
(** int to double *)
Definition ofInt (n : Z) : f64 := flit n 0.
(** static_cast<int> of a double, truncation towards zero; values out of the range of int don't occur here *)
Definition toInt (x : f64) : Z := Btrunc x.
(** < of doubles *)
Definition flt (x y : f64) : bool := match Bcompare x y with Some Lt => true | _ => false end.
Definition fzero : f64 := B754_zero false.

(** latticemap.cpp 282: const double eps = 1.0e-9 *)
Definition feps : f64 := flit 4835703278458517 (-82).
(** latticemap.cpp 276-302; int arithmetic without overflow *)
Definition fIndexToCell (L : lattice) (index : Z) : Z * Z * Z :=
  let idx := Z.quot index (lt_nb L) + 1 in
  let factor_i := lt_rb L * lt_rc L in
  let ii := toInt (fdiv (fsub (ofInt idx) feps) (ofInt factor_i)) in
  let ci := ii * factor_i in
  let factor_j := lt_rc L in
  let idx_j := idx - ci in
  let jj := toInt (fdiv (fsub (ofInt idx_j) feps) (ofInt factor_j)) in
  let cij := ci + jj * factor_j in
  let idx_k := idx - cij in
  let kk := toInt (fsub (ofInt idx_k) feps) in
  (ii, jj, kk).

(** The members of a process which take part in selection: sites_, site_multiplicity_, site_rates_, incremental_rate_table_, rate_,
    total_rate_ (process.h 215-260). *)
Record fproc := mkFP { fp_custom : bool; fp_rate : f64; fp_sites : list Z; fp_mult : list f64; fp_srates : list f64; fp_inc : list f64; fp_total : f64 }.
(** process.cpp 103-110, customrateprocess.cpp 51-59 *)
Definition faddSite (p : fproc) (index : Z) (rate mult : f64) : fproc :=
  if fp_custom p then mkFP true (fp_rate p) (fp_sites p ++ [index]) (fp_mult p ++ [mult]) (fp_srates p ++ [rate]) (fp_inc p) (fadd (fp_total p) (fmul mult rate))
  else mkFP false (fp_rate p) (fp_sites p ++ [index]) (fp_mult p ++ [mult]) (fp_srates p) (fp_inc p) (fadd (fp_total p) (fmul mult (fp_rate p))).
(** process.cpp 115-136, customrateprocess.cpp 64-101 *)
Definition fremoveSite (p : fproc) (index : Z) : option fproc :=
  let pos := zfind (fp_sites p) index in
  rs <- swapRemove (fp_sites p) pos ;;
  if fp_custom p then
    rr <- swapRemove (fp_srates p) pos ;;
    rm <- swapRemove (fp_mult p) pos ;;
    Some (mkFP true (fp_rate p) (fst rs) (fst rm) (fst rr) (fp_inc p) (fsub (fp_total p) (fmul (snd rr) (snd rm))))
  else
    rm <- swapRemove (fp_mult p) pos ;;
    Some (mkFP false (fp_rate p) (fst rs) (fst rm) (fp_srates p) (fp_inc p) (fsub (fp_total p) (fmul (snd rm) (fp_rate p)))).
(** process.cpp 141-147 *)
Definition fclearSites (p : fproc) : fproc := mkFP (fp_custom p) (fp_rate p) [] [] [] (fp_inc p) fzero.
(** process.cpp 190-202, customrateprocess.cpp 106-118 *)
Fixpoint fincTable (previous : f64) (rs : list f64) : list f64 :=
  match rs with
  | [] => []
  | r :: rs' => fadd previous r :: fincTable (fadd previous r) rs'
  end.
Definition fsiteRates (p : fproc) : option (list f64) :=
  if fp_custom p then omap (fun i => r <- zget (fp_srates p) i ;; m <- zget (fp_mult p) i ;; Some (fmul r m)) (zrange 0 (zlen (fp_mult p) - 1))
  else Some (map (fun m => fmul (fp_rate p) m) (fp_mult p)).
Definition fupdateRateTable (p : fproc) : option fproc :=
  rs <- fsiteRates p ;; Some (mkFP (fp_custom p) (fp_rate p) (fp_sites p) (fp_mult p) (fp_srates p) (fincTable fzero rs) (fp_total p)).
(** process.cpp 152-176, the deviate as argument *)
Definition fpickSite (p : fproc) (u : f64) : option Z :=
  total <- zget (fp_inc p) (zlen (fp_inc p) - 1) ;;
  pos <- lower_bound (fun e => flt e (fmul u total)) (fp_inc p) ;;
  zget (fp_sites p) pos.

(** interactions.cpp 200-224 *)
Fixpoint fprobTable (previous : f64) (ps : list fproc) : list (f64 * Z) :=
  match ps with
  | [] => []
  | p :: ps' => (fadd (fp_total p) previous, zlen (fp_sites p)) :: fprobTable (fadd previous (fp_total p)) ps'
  end.
(** interactions.cpp 229-254, pairComp 25-37, totalRate interactions.h 102 *)
Definition fpickProcessIndex (table : list (f64 * Z)) (u : f64) : option Z :=
  total <- zget table (zlen table - 1) ;;
  lower_bound (fun e => flt (fst e) (fmul u (fst total))) table.
(** interactions.cpp 259-267, then process.cpp 152-176 (latticemodel.cpp 80-92): the process and the site of the next event *)
Definition fpickEvent (ps : list fproc) (u v : f64) : option (Z * Z) :=
  n <- fpickProcessIndex (fprobTable fzero ps) u ;;
  p <- zget ps n ;;
  p' <- fupdateRateTable p ;;
  site <- fpickSite p' v ;;
  Some (n, site).
