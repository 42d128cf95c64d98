(** Model of c++/src/ontheflymsd.{h,cpp} and python/src/KMCLib/Analysis/OnTheFlyMSD.py.
    Simplifications: times, t_max and the cell vectors are integers (in fixed units), so that all sums and the division that gives the bin are exact;
    the standard deviation (OnTheFlyMSD.py 152-193) is in MMsdDev.v; printResults is not modelled. *)
From Coq Require Export QArith.
From Verif Require Export MPy MTypes MConfig MBlocker.
Open Scope Z_scope.
Open Scope list_scope.

Notation length := List.length.
Notation obind := Base.obind.

(** a position and the time it was taken *)
Definition stop : Type := coord * Z.

(** ontheflymsd.h 112-145; bin_size_ is ms_tmax / ms_nbins *)
Record msd := mkMS {
  ms_history : list (list stop);
  ms_hist : list coord;
  ms_sqr : list coord;
  ms_bins : list Z;
  ms_track : string;
  ms_tmax : Z;
  ms_nbins : Z;
  ms_steps : Z;
  ms_hbins : list (list Z);
  ms_abc : list coord;
  ms_hcounts : list Z;
  ms_blocker : blocker }.

(** coordinate.h: dot, outerProdDiag *)
Definition cdot (a b : coord) : Z := cx a * cx b + cy a * cy b + cz a * cz b.
Definition codiag (a b : coord) : coord := mkC (cx a * cx b) (cy a * cy b) (cz a * cz b).

(** configuration.h 235-241 *)
Definition movedAtomIDs (cf : config) : list Z := vresize 0 (cf_moved cf) (Z.to_nat (cf_nmoved cf)).

(** ontheflymsd.cpp 19-51.  A vector of negative size throws. *)
Definition mkMSD (cf : config) (history_steps nbins tmax t0 : Z) (track : string) (abc : list coord) (blocksize : Z) : option msd :=
  if (nbins <? 0) || (history_steps <? 1) then None
  else
    bl <- mkBlocker nbins blocksize ;;
    history <- ofold (fun hb i =>
                 ty <- zget (cf_aidelements cf) i ;;
                 if String.eqb ty track then
                   c <- zget (cf_aidcoords cf) i ;; h <- zget hb i ;; zset hb i (h ++ [(c, t0)])
                 else Some hb)
               (zrange 0 (zlen (cf_aidcoords cf) - 1)) (repeat [] (length (cf_elements cf))) ;;
    Some (mkMS history (repeat czero (Z.to_nat nbins)) (repeat czero (Z.to_nat nbins)) (repeat 0 (Z.to_nat nbins)) track tmax nbins history_steps
               (repeat (repeat 0 (Z.to_nat nbins)) (Z.to_nat (history_steps - 1))) abc (repeat 0 (Z.to_nat history_steps)) bl).

(** dt/binsize truncated to int; dividing by a bin size of 0 and converting the result to int is undefined behaviour.
    A negative number converted to size_t is larger than any size. *)
Definition binOf (ms : msd) (dt : Z) : option Z := if ms_tmax ms =? 0 then None else Some (Z.quot (dt * ms_nbins ms) (ms_tmax ms)).

(** v[i] += 1 *)
Definition vinc (l : list Z) (i : Z) : option (list Z) := v <- zget l i ;; zset l i (v + 1).

(** ontheflymsd.cpp 113-144: one pass of the loop of calculateAndBinMSD *)
Definition binOne (history : list stop) (ms : msd) (i : Z) : option msd :=
  hcounts <- vinc (ms_hcounts ms) (i - 1) ;;
  h0 <- zget history 0 ;;
  hi <- zget history i ;;
  bin <- binOf ms (snd h0 - snd hi) ;;
  if (0 <=? bin) && (bin <? zlen (ms_hist ms)) then
    let diff_abc := csub (fst hi) (fst h0) in
    a0 <- zget (ms_abc ms) 0 ;; a1 <- zget (ms_abc ms) 1 ;; a2 <- zget (ms_abc ms) 2 ;;
    let diff := mkC (cdot diff_abc a0) (cdot diff_abc a1) (cdot diff_abc a2) in
    let sqr_diff := codiag diff diff in
    let sqr_diff_sqr := codiag sqr_diff sqr_diff in
    v <- zget (ms_hist ms) bin ;; hist <- zset (ms_hist ms) bin (cadd v sqr_diff) ;;
    w <- zget (ms_sqr ms) bin ;; sqr <- zset (ms_sqr ms) bin (cadd w sqr_diff_sqr) ;;
    bins <- vinc (ms_bins ms) bin ;;
    row <- zget (ms_hbins ms) (i - 1) ;; row' <- vinc row bin ;; hbins <- zset (ms_hbins ms) (i - 1) row' ;;
    bl <- blRegister (ms_blocker ms) bin sqr_diff ;;
    Some (mkMS (ms_history ms) hist sqr bins (ms_track ms) (ms_tmax ms) (ms_nbins ms) (ms_steps ms) hbins (ms_abc ms) hcounts bl)
  else
    Some (mkMS (ms_history ms) (ms_hist ms) (ms_sqr ms) (ms_bins ms) (ms_track ms) (ms_tmax ms) (ms_nbins ms) (ms_steps ms) (ms_hbins ms) (ms_abc ms) hcounts (ms_blocker ms)).
(** ontheflymsd.cpp 102-145 *)
Definition calculateAndBin (ms : msd) (history : list stop) : option msd := ofold (binOne history) (zrange 1 (zlen history - 1)) ms.

(** ontheflymsd.cpp 76-82: the loop from the last element down to element 1 *)
Definition shiftHistory (h : list stop) : option (list stop) :=
  ofold (fun h j => v <- zget h (j - 1) ;; zset h j v) (rev (zrange 1 (zlen h - 1))) h.

Definition set_history (ms : msd) (hb : list (list stop)) : msd :=
  mkMS hb (ms_hist ms) (ms_sqr ms) (ms_bins ms) (ms_track ms) (ms_tmax ms) (ms_nbins ms) (ms_steps ms) (ms_hbins ms) (ms_abc ms) (ms_hcounts ms) (ms_blocker ms).

(** ontheflymsd.cpp 63-96: the body of the loop of registerStep *)
Definition registerAtom (time : Z) (cf : config) (ms : msd) (id : Z) : option msd :=
  ty <- zget (cf_aidelements cf) id ;;
  if String.eqb ty (ms_track ms) then
    h <- zget (ms_history ms) id ;;
    let h1 := if zlen h <? ms_steps ms then h ++ [(czero, 0)] else h in
    h2 <- shiftHistory h1 ;;
    c <- zget (cf_aidcoords cf) id ;;
    h3 <- zset h2 0 (c, time) ;;
    hb <- zset (ms_history ms) id h3 ;;
    calculateAndBin (set_history ms hb) h3
  else Some ms.
(** ontheflymsd.cpp 56-97 *)
Definition msRegister (ms : msd) (time : Z) (cf : config) : option msd := ofold (registerAtom time cf) (movedAtomIDs cf) ms.

(** the calls of a run: setup, then registerStep with each time and configuration in turn *)
Definition msSteps (ms : msd) (steps : list (Z * config)) : option msd := ofold (fun m s => msRegister m (fst s) (snd s)) steps ms.
Definition msRun (history_steps nbins tmax : Z) (track : string) (abc : list coord) (blocksize : Z) (start : Z * config) (steps : list (Z * config)) : option msd :=
  ms <- mkMSD (snd start) history_steps nbins tmax (fst start) track abc blocksize ;; msSteps ms steps.

(** ** OnTheFlyMSD.py *)
(** 28-69: the constructor.  The value 100.0 is 100 * funit.  t_max/n_bins is computed here: n_bins = 0 raises. *)
Definition pyMSD (funit : Z) (history_steps n_bins t_max track_type : pyval) : outcome (Z * Z * pyfloat * string) :=
  try hs <- checkPositiveInteger history_steps 5 ;;
  try nb <- checkPositiveInteger n_bins 100 ;;
  try tm <- checkPositiveFloat t_max (FNum (100 * funit)) ;;
  match track_type with
  | VStr s => if nb =? 0 then Raise ZeroDivision else Ok (hs, nb, tm, s)
  | _ => Raise KmcError
  end.

(** 84-86: the check made by setup; [ptypes] are the names in configuration.possibleTypes() *)
Definition pySetupCheck (ptypes : tmap) (track : string) : outcome unit :=
  match tfind ptypes track with Some _ => Ok tt | None => Raise KmcError end.
(** 85-86: transpose of the matrix of the cell vectors: row k holds component k of a, b and c *)
Definition transpose3 (a b c : coord) : list coord := [mkC (cx a) (cx b) (cx c); mkC (cy a) (cy b) (cy c); mkC (cz a) (cz b) (cz c)].

(** 135-139, 142-149: bin counters without zeros, results *)
Definition msDivisor (n : Z) : Z := if n =? 0 then 1 else n.
Definition msResult (f : coord -> Z) (ms : msd) : list Q :=
  map (fun hb => (inject_Z (f (fst hb)) / inject_Z (msDivisor (snd hb)))%Q) (combine (ms_hist ms) (ms_bins ms)).
Definition msResults (ms : msd) : list (list Q) :=
  [msResult cx ms; msResult cy ms; msResult cz ms; msResult (fun c => cx c + cy c) ms; msResult (fun c => cx c + cz c) ms; msResult (fun c => cy c + cz c) ms;
   msResult (fun c => cx c + cy c + cz c) ms].
(** 150: bin centres *)
Definition msTimes (ms : msd) : list Q :=
  let size := (inject_Z (ms_tmax ms) / inject_Z (ms_nbins ms))%Q in
  map (fun i => ((inject_Z i + 1) * size - size / 2)%Q) (zrange 0 (ms_nbins ms - 1)).
(** 122-133: the effective number of steps per bin.  Indices out of range raise IndexError in Python: None. *)
Definition msNeff (ms : msd) : option (list Q) :=
  ofold (fun neff b =>
    row <- zget (ms_hbins ms) b ;;
    ofold (fun neff i =>
      hc <- zget row i ;; bc <- zget (ms_bins ms) i ;;
      if negb (hc =? 0) && negb (bc =? 0) then
        v <- zget neff i ;; zset neff i (v + inject_Z hc / inject_Z bc * (inject_Z b + 1))%Q
      else Some neff) (zrange 0 (zlen neff - 1)) neff)
    (zrange 0 (zlen (ms_hbins ms) - 1)) (repeat 0%Q (length (ms_bins ms))).
(** 243-259: history_bin_counters[-1] of an empty list raises IndexError, max of an empty list ValueError, both None here.
    0.01 is 1/100 exactly. *)
Fixpoint firstAbove (limit : Q) (i : Z) (l : list Z) : Z :=
  match l with [] => i | c :: l' => if negb (Qle_bool (inject_Z c) limit) then i else firstAbove limit (i + 1) l' end.
Definition msSafeCutoff (ms : msd) : option Z :=
  match rev (ms_hbins ms) with
  | [] => None
  | [] :: _ => None
  | (c :: row) :: _ => Some (firstAbove (inject_Z (fold_left Z.max row c) * (1 # 100)) 0 (c :: row))
  end.
