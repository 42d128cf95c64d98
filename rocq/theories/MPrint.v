(** Model of the tables that printResults of the analysis objects writes: python/src/KMCLib/Analysis/ProcessStatistics.py, Composition.py, TimeStepDistribution.py.
    The float 1.0 is the integer U, so the time t of the model is the float t/U.
    Simplification: quotients are exact until they are formatted (MAnalysis.v says the same of times), and an exception leaves what was written before it. *)
From Verif Require Export MAnalysis MScript.
Open Scope string_scope.
Open Scope list_scope.
Open Scope Z_scope.

(** the format %wi *)
Definition fmtI (w : nat) (z : Z) : string := padLeft w (showZ z).
(** ProcessStatistics.py 103-113, the loop over the blocks i, i+1, ... after ntot events.  With an interval of 0.0 dn/dt is a ZeroDivisionError *)
Fixpoint psLines (U interval i ntot : Z) (data : list Z) : string * outcome unit :=
  match data with
  | [] => ("", Ok tt)
  | n :: data' =>
      let t := i * interval in
      let ntot' := ntot + n in
      if 0 <? i
      then if interval =? 0 then ("", Raise ZeroDivision)
           else let (r, o) := psLines U interval (i + 1) ntot' data' in
                ((fmtF 15 5 U t ++ " " ++ fmtI 15 ntot' ++ " " ++ fmtF 15 5 interval (n * U) ++ " " ++ fmtF 15 5 t (ntot' * U) ++ NL ++ r)%string, o)
      else psLines U interval (i + 1) ntot' data'
  end.
(** ProcessStatistics.py 94-113 on the MPI process with the given rank *)
Definition psPrint (rank U : Z) (ps : statistics) : string * outcome unit :=
  if rank =? 0
  then let (r, o) := psLines U (ps_interval ps) 0 0 (ps_data ps) in
       ((padLeft 15 "  time (t)" ++ " " ++ padLeft 15 " count (n)" ++ " " ++ padLeft 15 "(dn/dt)   " ++ " " ++ padLeft 12 "(n/t)" ++ NL ++ r)%string, o)
  else ("", Ok tt).

(** a format with n fields applied to a tuple of another length is a TypeError *)
Definition fields (n : Z) (cs : list string) : outcome string :=
  if zlen cs =? n then Ok (cat (map (fun c => " " ++ c)%string cs) ++ NL)%string else Raise TypeError.
(** %15.3e of the rational q *)
Definition fmtQ (q : Q) : string := fmtE 15 3 (Zpos (Qden q)) (Qnum q).
(** Composition.py 99-109, the loop over the blocks i, i+1, ...; t = i*interval + interval/2.0 *)
Fixpoint coLines (U interval ntypes i : Z) (data : list (list Q)) : string * outcome unit :=
  match data with
  | [] => ("", Ok tt)
  | d :: data' =>
      match fields ntypes (fmtE 15 3 (2 * U) (2 * (i * interval) + interval) :: map fmtQ (tl d)) with
      | Ok l => let (r, o) := coLines U interval ntypes (i + 1) data' in ((l ++ r)%string, o)
      | Raise e => ("", Raise e)
      end
  end.
(** Composition.py 76-109; [names] is configuration._backendTypeNames() at setup *)
Definition coPrint (rank U : Z) (names : list string) (co : composition) : string * outcome unit :=
  if rank =? 0
  then match fields (zlen (co_empty co)) (padLeft 15 "time" :: map (padLeft 15) (tl names)) with
       | Ok h => let (r, o) := coLines U (co_interval co) (zlen (co_empty co)) 0 (co_data co) in ((h ++ r)%string, o)
       | Raise e => ("", Raise e)
       end
  else ("", Ok tt).

(** TimeStepDistribution.py 106-108: the lines of the bins i, i+1, ...; n is the number of samples.  Without samples the fraction is 0/0 = nan. *)
Fixpoint tsLines (U bin n i : Z) (hist : list Z) : string :=
  match hist with
  | [] => ""
  | v :: hist' =>
      let part := if n =? 0 then padLeft 20 "nan" else fmtF 20 15 n v in
      (fmtF 10 5 (2 * U) (2 * ((i + 1) * bin) - bin) ++ " " ++ fmtI 10 v ++ " " ++ part ++ NL ++ tsLines U bin n (i + 1) hist')%string
  end.
(** TimeStepDistribution.py 97-108 *)
Definition tsPrint (rank U : Z) (ts : distribution) : string :=
  if rank =? 0 then tsLines U (ts_bin ts) (zsum (ts_hist ts)) 0 (ts_hist ts) else "".
