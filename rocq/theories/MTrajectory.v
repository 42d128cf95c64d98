(** Model of the trajectory files: python/src/KMCLib/Utilities/Trajectory/Trajectory.py, LatticeTrajectory.py, XYZTrajectory.py.
    A file is the string of its contents. *)
From Coq Require Export Ascii DecimalString DecimalZ.
From Verif Require Export MTypes.
Open Scope string_scope.
Open Scope list_scope.
Open Scope Z_scope.

Definition NL : string := String "010"%char EmptyString.
Definition DQ : string := String """"%char EmptyString.
(** the format %i, and str() of an integer *)
Definition showZ (z : Z) : string := NilZero.string_of_int (Z.to_int z).
Fixpoint blanks (n : nat) : string := match n with O => "" | S n' => String " "%char (blanks n') end.
(** concatenation *)
Fixpoint cat (l : list string) : string := match l with [] => "" | a :: l' => (a ++ cat l')%string end.
Definition slen (s : string) : Z := Z.of_nat (String.length s).

(** Trajectory.append, Trajectory.py 55-87, for the class with the given _storeData, _bufferSize and flush.
    [clock] and [clock2] are the values time.time() returns at lines 83 and 87; times are integers of some unit.
    State: the subclass state (buffers and file) and __time_last_dump. *)
Section Base.
Context {St D : Type} (store : D -> St -> St) (size : St -> Z) (flush : St -> St * outcome unit) (maxSize maxTime : Z).
Definition trajAppend (d : D) (clock clock2 : Z) (st : St * Z) : (St * Z) * outcome unit :=
  let s1 := store d (fst st) in
  if (maxSize <? size s1) || (maxTime <? clock - snd st) then
    match flush s1 with
    | (s2, Ok _) => ((s2, clock2), Ok tt)
    | (s2, Raise e) => ((s2, snd st), Raise e)
    end
  else ((s1, snd st), Ok tt).
(** the calls a program makes on a trajectory object *)
Inductive tcall := TAppend (d : D) (clock clock2 : Z) | TFlush.
Definition doCall (c : tcall) (st : St * Z) : (St * Z) * outcome unit :=
  match c with
  | TAppend d c1 c2 => trajAppend d c1 c2 st
  | TFlush => let (s, o) := flush (fst st) in ((s, snd st), o)
  end.
(** the calls in order; an exception stops the program *)
Fixpoint doCalls (cs : list tcall) (st : St * Z) : (St * Z) * outcome unit :=
  match cs with
  | [] => (st, Ok tt)
  | c :: cs' => match doCall c st with (st1, Ok _) => doCalls cs' st1 | (st1, Raise e) => (st1, Raise e) end
  end.
End Base.

Section Lattice.
(** [fmtTime]: the format %18.10e of a simulation time; [funit]: the float 1.0 *)
Context {T : Type} (fmtTime : T -> string) (funit : Z).

(** LatticeTrajectory.py 157-164: all names but the last, each followed by a comma, with row breaks *)
Fixpoint plainRows (ts : list pyval) (row : Z) : outcome string :=
  match ts with
  | [] => Ok ""
  | VStr t :: ts' =>
      let row1 := row + (slen t + 2) in
      if 70 <=? row1 then try r <- plainRows ts' 14 ;; Ok (DQ ++ t ++ DQ ++ "," ++ NL ++ blanks 14 ++ r)%string
      else try r <- plainRows ts' row1 ;; Ok (DQ ++ t ++ DQ ++ "," ++ r)%string
  | _ :: _ => Raise TypeError
  end.
(** "(" + str(t[0]) + ",\"" + t[1] + "\")" *)
Definition entryText (t : list pyval) : outcome string :=
  try n <- fst_ t ;; try s <- snd_ t ;;
  match n, s with VInt k, VStr s => Ok ("(" ++ showZ k ++ "," ++ DQ ++ s ++ DQ ++ ")")%string | _, _ => Raise TypeError end.
(** lines 177-186 and 190-197: one site without what follows its closing bracket *)
Definition siteText (bt : list (list pyval)) : outcome string :=
  match bt with
  | [] => Ok "[]"
  | _ :: _ =>
      try es <- oall (fun t => try s <- entryText t ;; Ok (s ++ ",")%string) (removelast bt) ;;
      try e <- entryText (last bt []) ;;
      Ok ("[" ++ cat es ++ e ++ "]")%string
  end.
(** lines 151-199: the text for the types of one frame *)
Definition typesText (types : list pyval) : outcome string :=
  match removelast types with
  | [] => Raise IndexError
  | VStr _ :: _ =>
      try r <- plainRows (removelast types) 14 ;;
      match last types VNone with VStr t => Ok ("types.append([" ++ r ++ DQ ++ t ++ DQ ++ "])" ++ NL)%string | _ => Raise TypeError end
  | _ :: _ =>
      try bs <- toShortBucketsFormat funit types ;;
      try ss <- oall (fun b => try s <- siteText b ;; Ok (s ++ "," ++ NL ++ blanks 14)%string) (removelast bs) ;;
      try s <- siteText (last bs []) ;;
      Ok ("types.append([" ++ cat ss ++ s ++ "])" ++ NL)%string
  end.
(** lines 147-202, one frame: what reaches the file, and how it ends.  What was written before an exception is in the file: the with statement closes it. *)
Definition writeFrame (t : T) (step : Z) (types : list pyval) : string * outcome unit :=
  let pre := ("times.append(" ++ fmtTime t ++ ")" ++ NL ++ "steps.append(" ++ showZ step ++ ")" ++ NL)%string in
  match typesText types with Ok s => ((pre ++ s)%string, Ok tt) | Raise e => (pre, Raise e) end.
(** lines 145-202: zip of the three buffers *)
Fixpoint writeFrames (ts : list T) (ss : list Z) (ys : list (list pyval)) : string * outcome unit :=
  match ts, ss, ys with
  | t :: ts', s :: ss', y :: ys' =>
      match writeFrame t s y with
      | (a, Ok _) => let (b, o) := writeFrames ts' ss' ys' in ((a ++ b)%string, o)
      | (a, Raise e) => (a, Raise e)
      end
  | _, _, _ => ("", Ok tt)
  end.
Record latTraj := mkLT { lt_times : list T; lt_steps : list Z; lt_types : list (list pyval); lt_file : string }.
(** _storeData 95-110 *)
Definition ltStore (d : T * Z * list pyval) (st : latTraj) : latTraj :=
  let '(t, s, y) := d in mkLT (lt_times st ++ [t]) (lt_steps st ++ [s]) (lt_types st ++ [y]) (lt_file st).
(** flush 118-131 on a master rank (the other ranks have the same buffers and write nothing) *)
Definition ltFlush (st : latTraj) : latTraj * outcome unit :=
  if (0 <? zlen (lt_times st)) && (0 <? zlen (lt_steps st)) && (0 <? zlen (lt_types st)) then
    match writeFrames (lt_times st) (lt_steps st) (lt_types st) with
    | (w, Ok _) => (mkLT [] [] [] (lt_file st ++ w)%string, Ok tt)
    | (w, Raise e) => (mkLT (lt_times st) (lt_steps st) (lt_types st) (lt_file st ++ w)%string, Raise e)
    end
  else (st, Ok tt).
(** __init__ 44-56 with the header of 68-90 *)
Definition ltNew (header : string) : latTraj * Z := (mkLT [] [] [] header, 0).
(** __writeHeader 68-90; [ctime] is time.ctime(), [fmtCoord] is the format %15.6f *)
Definition latHeader {K : Type} (fmtCoord : K -> string) (ctime : string) (sites : list (K * K * K)) : string :=
  let site '(x, y, z) := ("[" ++ fmtCoord x ++ "," ++ fmtCoord y ++ "," ++ fmtCoord z ++ "]")%string in
  ("# KMCLib Trajectory" ++ NL ++ "version=" ++ DQ ++ "2013.1.0" ++ DQ ++ NL ++ "creation_time=" ++ DQ ++ ctime ++ DQ ++ NL ++ "sites=[" ++
   cat (map (fun s => site s ++ "," ++ NL ++ blanks 7)%string (removelast sites)) ++ (match rev sites with [] => "" | s :: _ => (site s ++ "]" ++ NL)%string end) ++
   "times=[]" ++ NL ++ "steps=[]" ++ NL ++ "types=[]" ++ NL)%string.
End Lattice.

Section XYZ.
(** the formats %15.10e of times and coordinates *)
Context {T K : Type} (fmtTime : T -> string) (fmtCoord : K -> string).
(** %16s *)
Definition pad16 (s : string) : string := (blanks (16 - String.length s) ++ s)%string.
(** The types of the atoms as they are kept in the buffer: a copy, or a reference to the backend's vector
    (KMCConfiguration.atomIDTypes 234-238 returns what the wrapper makes of a const std::vector<std::string>&, c++/src/configuration.h 69). *)
Inductive handle := Copied (l : list string) | Live.
Definition deref (now : list string) (h : handle) : list string := match h with Copied l => l | Live => now end.
(** XYZTrajectory.py 145-148, one row *)
Definition xyzRow (t : string) (c : K * K * K) (j : Z) : string :=
  let '(x, y, z) := c in (" " ++ pad16 t ++ "   " ++ fmtCoord x ++ " " ++ fmtCoord y ++ " " ++ fmtCoord z ++ "  " ++ showZ j ++ NL)%string.
(** the rows of the atoms j, j+1, ...; coordinates[i][j] out of range is an IndexError *)
Fixpoint xyzRows (ts : list string) (cs : list (K * K * K)) (j : Z) : string * outcome unit :=
  match ts, cs with
  | [], _ => ("", Ok tt)
  | t :: ts', c :: cs' => let (r, o) := xyzRows ts' cs' (j + 1) in ((xyzRow t c j ++ r)%string, o)
  | _ :: _, [] => ("", Raise IndexError)
  end.
(** lines 135-148 *)
Definition xyzFrame (t : T) (step : Z) (types : list string) (cs : list (K * K * K)) : string * outcome unit :=
  let (r, o) := xyzRows types cs 0 in
  (("STEP " ++ showZ step ++ NL ++ "          " ++ showZ (zlen types) ++ NL ++ "    TIME " ++ fmtTime t ++ NL ++ r)%string, o).
Fixpoint xyzFrames (now : list string) (ts : list T) (ss : list Z) (hs : list handle) (cs : list (list (K * K * K))) : string * outcome unit :=
  match ss with
  | [] => ("", Ok tt)
  | s :: ss' =>
      match ts, hs, cs with
      | t :: ts', h :: hs', c :: cs' =>
          match xyzFrame t s (deref now h) c with
          | (a, Ok _) => let (b, o) := xyzFrames now ts' ss' hs' cs' in ((a ++ b)%string, o)
          | (a, Raise e) => (a, Raise e)
          end
      | _, _, _ => ("", Raise IndexError)
      end
  end.
(** buffers, file, and the types of the atoms in the backend at present *)
Record xyzTraj := mkXT { xt_times : list T; xt_steps : list Z; xt_types : list handle; xt_coords : list (list (K * K * K)); xt_file : string; xt_now : list string }.
(** _storeData 92-109.  [d]: time, step, and the configuration's atom types and coordinates at this time; [live]: which of the two handles the wrapper gives *)
Definition xtStore (live : bool) (d : T * Z * list string * list (K * K * K)) (st : xyzTraj) : xyzTraj :=
  let '(t, s, y, c) := d in
  mkXT (xt_times st ++ [t]) (xt_steps st ++ [s]) (xt_types st ++ [if live then Live else Copied y]) (xt_coords st ++ [c]) (xt_file st) y.
(** flush 126-157 *)
Definition xtFlush (st : xyzTraj) : xyzTraj * outcome unit :=
  if zlen (xt_steps st) <? 1 then (st, Ok tt) else
  match xyzFrames (xt_now st) (xt_times st) (xt_steps st) (xt_types st) (xt_coords st) with
  | (w, Ok _) => (mkXT [] [] [] [] (xt_file st ++ w)%string (xt_now st), Ok tt)
  | (w, Raise e) => (mkXT (xt_times st) (xt_steps st) (xt_types st) (xt_coords st) (xt_file st ++ w)%string (xt_now st), Raise e)
  end.
Definition xtNew (header : string) (now : list string) : xyzTraj * Z := (mkXT [] [] [] [] header now, 0).
End XYZ.
