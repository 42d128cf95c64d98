(** Model of printResults of python/src/KMCLib/Analysis/OnTheFlyMSD.py (lines 261-290), on top of MMsd.v and MMsdDev.v.
    The float 1.0 is U units of time and V units of squared length.  Simplification: numbers are exact until they are formatted. *)
From Verif Require Export MMsdDev MPrint.
Open Scope string_scope.
Open Scope list_scope.
Open Scope Z_scope.

(** %11.5e of the rational q *)
Definition fmt11 (q : Q) : string := fmtE 11 5 (Zpos (Qden q)) (Qnum q).
(** a line with one field after the other, separated by blanks (288, 290) *)
Definition fieldLine (first : string) (rest : list string) : string := (first ++ cat (map (fun c => " " ++ c) rest) ++ NL)%string.
(** 288 *)
Definition msTitle : string :=
  fieldLine (padLeft 11 "TIME ") (map (padLeft 11) ["MSD_x "; "MSD_y "; "MSD_z "; "MSD_xy "; "MSD_xz "; "MSD_yz "; "MSD_xyz "; "STD_x "; "STD_y "; "STD_z "; "STD_xy "; "STD_xz "; "STD_yz "; "STD_xyz "; "N_eff"]).
Section Print.
(** The standard deviations are square roots: their digits, "%.5e"%s, are an arbitrary function of the number *)
Context (digits : R -> string).
(** 272-290: element i of the zipped columns, as a line of the table *)
Definition msLine (U V : Z) (ms : msd) (neff : list Q) (i : Z) : option string :=
  t <- zget (msTimes ms) i ;;
  xs <- omap (fun row => zget row i) (msResults ms) ;;
  ss <- omap (fun r => msStdDev ms r i) (zrange 0 6) ;;
  nf <- zget neff i ;;
  Some (fieldLine (fmt11 (t / inject_Z U)) (map (fun x => fmt11 (x / inject_Z V)) xs ++ map (fun s => padLeft 11 (digits (s / IZR V)%R)) ss ++ [fmt11 nf])).
(** 261-290.  The zipped list has as many elements as there are bins; [:cutoff_bin] leaves those before the cutoff.  None: an exception *)
Definition msPrint (rank U V : Z) (ms : msd) : option string :=
  if rank =? 0 then
    cut <- msSafeCutoff ms ;;
    neff <- msNeff ms ;;
    ls <- omap (msLine U V ms neff) (zrange 0 (Z.min cut (zlen (msTimes ms)) - 1)) ;;
    Some (msTitle ++ cat ls)%string
  else Some "".
End Print.
