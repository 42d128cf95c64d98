(** Model of the analysis plugins written in Python: python/src/KMCLib/Analysis/Composition.py, ProcessStatistics.py,
    TimeStepDistribution.py.
    Simplification: times are integers (multiples of some unit of time), so their arithmetic is exact; quotients are exact rationals. *)
From Coq Require Export QArith.
From Verif Require Export MConfig MRun.
Open Scope Z_scope.
Open Scope list_scope.

(** ValueError of numpy, for arrays of different lengths *)
Definition ValueError : exn := OtherExn 4.
Definition IndexErr : exn := OtherExn 2.

(** a += b for numpy arrays of integers.  Simplification: no broadcasting. *)
Fixpoint addArrays (a b : list Z) : list Z := match a, b with x :: a', y :: b' => (x + y) :: addArrays a' b' | _, _ => [] end.
Definition numpyAdd (a b : list Z) : outcome (list Z) := if zlen a =? zlen b then Ok (addArrays a b) else Raise ValueError.

(** ** Composition.py *)
(** 33-40 *)
Record composition := mkCO { co_interval : Z; co_steps : Z; co_last : Z; co_data : list (list Q); co_count : list Z; co_empty : list Z }.
(** 42-51; [counts] is configuration.particlesPerType() (MConfig.v), [ntypes] the length of configuration._backendTypeNames() *)
Definition coSetup (interval : Z) (time : Z) (counts : list Z) (ntypes : Z) : composition :=
  mkCO interval 1 time [] counts (repeat 0 (Z.to_nat ntypes)).
(** 53-68 *)
Definition coRegister (co : composition) (time : Z) (counts : list Z) : outcome composition :=
  let co1 := if co_interval co <? time - co_last co
             then mkCO (co_interval co) 0 time (co_data co ++ [map (fun c => (inject_Z c / inject_Z (co_steps co))%Q) (co_count co)]) (co_empty co) (co_empty co)
             else co in
  match numpyAdd (co_count co1) counts with
  | Ok c => Ok (mkCO (co_interval co1) (co_steps co1 + 1) (co_last co1) (co_data co1) c (co_empty co1))
  | Raise e => Raise e
  end.
(** the calls of a run: setup, then registerStep with each time and configuration in turn *)
Fixpoint coSteps (co : composition) (steps : list (Z * list Z)) : outcome composition :=
  match steps with
  | [] => Ok co
  | s :: steps' => match coRegister co (fst s) (snd s) with Ok co' => coSteps co' steps' | Raise e => Raise e end
  end.
Definition coRun (interval ntypes : Z) (start : Z * list Z) (steps : list (Z * list Z)) : outcome composition :=
  coSteps (coSetup interval (fst start) (snd start) ntypes) steps.
(** 118-125 *)
Definition coTimes (co : composition) : list Q :=
  map (fun i => (inject_Z i * inject_Z (co_interval co) + inject_Z (co_interval co) / inject_Z 2)%Q) (zrange 0 (zlen (co_data co) - 1)).

(** ** ProcessStatistics.py *)
(** 48-54 *)
Record statistics := mkPS { ps_procs : list Z; ps_interval : Z; ps_spatial : option (list Z); ps_last : Z; ps_data : list Z; ps_count : Z }.
(** 56-65; [nsites] is len(configuration.sites()) *)
Definition psSetup (procs : list Z) (interval : Z) (spatial : bool) (time nsites : Z) : statistics :=
  mkPS procs interval (if spatial then Some (repeat 0 (Z.to_nat nsites)) else None) time [] 0.
(** data[i] += 1 for a numpy array: a negative index counts from the end *)
Definition numpyInc (l : list Z) (i : Z) : outcome (list Z) :=
  let k := if i <? 0 then i + zlen l else i in
  match zget l k with
  | Some v => match zset l k (v + 1) with Some l' => Ok l' | None => Raise IndexErr end
  | None => Raise IndexErr
  end.
(** 67-84; [proc] and [site] are configuration.latestEventProcess() and latestEventSite() *)
Definition psRegister (ps : statistics) (time proc site : Z) : outcome statistics :=
  let ps1 := if ps_interval ps <? time - ps_last ps
             then mkPS (ps_procs ps) (ps_interval ps) (ps_spatial ps) time (ps_data ps ++ [ps_count ps]) 0
             else ps in
  if zmem proc (ps_procs ps1) then
    match ps_spatial ps1 with
    | Some l =>
        match numpyInc l site with
        | Ok l' => Ok (mkPS (ps_procs ps1) (ps_interval ps1) (Some l') (ps_last ps1) (ps_data ps1) (ps_count ps1 + 1))
        | Raise e => Raise e
        end
    | None => Ok (mkPS (ps_procs ps1) (ps_interval ps1) None (ps_last ps1) (ps_data ps1) (ps_count ps1 + 1))
    end
  else Ok ps1.
Fixpoint psSteps (ps : statistics) (steps : list (Z * (Z * Z))) : outcome statistics :=
  match steps with
  | [] => Ok ps
  | s :: steps' => match psRegister ps (fst s) (fst (snd s)) (snd (snd s)) with Ok ps' => psSteps ps' steps' | Raise e => Raise e end
  end.
Definition psRun (procs : list Z) (interval : Z) (spatial : bool) (nsites start : Z) (steps : list (Z * (Z * Z))) : outcome statistics :=
  psSteps (psSetup procs interval spatial start nsites) steps.
(** 86-92: the values spatialData() returns after finalize().  Division by zero gives inf or nan: None. *)
Definition psFinalize (ps : statistics) : option (list (option Q)) :=
  option_map (map (fun v => if ps_last ps =? 0 then None else Some (inject_Z v / inject_Z (ps_last ps))%Q)) (ps_spatial ps).

(** ** TimeStepDistribution.py *)
(** 33-40 *)
Record distribution := mkTS { ts_bin : Z; ts_hist : list Z; ts_last : Z }.
Definition tsSetup (binsize time : Z) : distribution := mkTS binsize (repeat 0 10%nat) time.
(** 53-58: the while loop, with a bound on the number of passes (None: the bound was reached) *)
Fixpoint tsGrow (fuel : nat) (h : list Z) (b : Z) : option (list Z) :=
  if zlen h <=? b then
    match fuel with
    | O => None
    | S fuel' => tsGrow fuel' (h ++ repeat 0 (Z.to_nat (zlen h / 10))) b
    end
  else Some h.
(** 42-61; int(dt/binsize) truncates towards zero *)
Definition tsRegister (passes : nat) (ts : distribution) (time : Z) : option (outcome distribution) :=
  let dt := time - ts_last ts in
  if ts_bin ts =? 0 then Some (Raise ZeroDivision)
  else
    let b := Z.quot dt (ts_bin ts) in
    h <- tsGrow passes (ts_hist ts) b ;;
    Some (match numpyInc h b with Ok h' => Ok (mkTS (ts_bin ts) h' time) | Raise e => Raise e end).
Fixpoint tsSteps (passes : nat) (ts : distribution) (times : list Z) : option (outcome distribution) :=
  match times with
  | [] => Some (Ok ts)
  | t :: times' => r <- tsRegister passes ts t ;; match r with Ok ts' => tsSteps passes ts' times' | Raise e => Some (Raise e) end
  end.
Definition tsRun (passes : nat) (binsize start : Z) (times : list Z) : option (outcome distribution) :=
  tsSteps passes (tsSetup binsize start) times.
(** 63-71: timeSteps() and normalizedHistogram() after finalize(); without samples the quotients are nan: None *)
Definition tsTimes (ts : distribution) : list Q :=
  map (fun i => ((inject_Z i + 1) * inject_Z (ts_bin ts) - inject_Z (ts_bin ts) / inject_Z 2)%Q) (zrange 0 (zlen (ts_hist ts) - 1)).
Definition tsNormalized (ts : distribution) : list (option Q) :=
  let n := zsum (ts_hist ts) in
  map (fun v => if n =? 0 then None else Some (inject_Z v / inject_Z n)%Q) (ts_hist ts).
