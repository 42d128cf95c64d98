(** Concrete systems for C74: a checker for processes that run together, and a row of three sites. *)
From Verif Require Import PBase MSpmd PSpmd XSystems SModel.
Open Scope string_scope.
Open Scope list_scope.
Open Scope Z_scope.
Section F.
Context {A : Type}.
Fixpoint allRets (ps : list (prog A)) : option (list A) := match ps with [] => Some [] | Ret a :: ps' => (l <- allRets ps' ;; Some (a :: l)) | _ => None end.
Fixpoint allJoins (ps : list (prog A)) : option (list (list Z * (list Z -> prog A))) := match ps with [] => Some [] | Join l k :: ps' => (r <- allJoins ps' ;; Some ((l, k) :: r)) | _ => None end.
Fixpoint runAll (fuel : nat) (size : Z) (ps : list (prog A)) : option (list A) :=
  match allRets ps with
  | Some rs => Some rs
  | None => match fuel with O => None | S f => lks <- allJoins ps ;; v <- joinOverProcesses size (map fst lks) ;; runAll f size (map (fun lk => snd lk v) lks) end
  end.
Lemma allRets_map ps : forall rs, allRets ps = Some rs -> ps = map Ret rs.
Proof. induction ps as [|[a| |l k|v k] ps IH]; intros rs H; cbn in H; try discriminate; [injection H as <-; reflexivity|]. ob H as l El. injection H as <-. cbn. f_equal. auto. Qed.
Lemma allJoins_map ps : forall lks, allJoins ps = Some lks -> ps = map (fun lk => Join (fst lk) (snd lk)) lks.
Proof. induction ps as [|[a| |l k|v k] ps IH]; intros rs H; cbn in H; try discriminate; [injection H as <-; reflexivity|]. ob H as l' El. injection H as <-. cbn. f_equal. auto. Qed.
Lemma runAll_sound fuel size : forall ps rs, runAll fuel size ps = Some rs -> together size ps rs.
Proof.
  induction fuel as [|fuel IH]; intros ps rs H; cbn [runAll] in H; destruct (allRets ps) as [rs0|] eqn:ER.
  - injection H as <-. apply allRets_map in ER. subst. apply allDone.
  - discriminate.
  - injection H as <-. apply allRets_map in ER. subst. apply allDone.
  - ob H as lks EJ. ob H as v EV. apply allJoins_map in EJ. subst. apply allJoin with v; auto.
Qed.
End F.
(** A row of three sites, all with A; A can become B or C and go back *)
Definition xdL : lattice := mkLat 1 3 1 1 true false false xS.
Definition xdpt : tmap := [("*", 0); ("A", 1); ("B", 2); ("C", 3)].
Definition xdcf : option config := mkConfiguration (generateLatticeSites xdL [czero]) [["A"]; ["A"]; ["A"]] xdpt.
Definition xdin : option interactions :=
  ps <- omap (fun p => p)
    [ xplain xdpt 0 1 0 [xcell 0 0 0] [["A"]] [["B"]] [] []; xplain xdpt 0 1 1 [xcell 0 0 0] [["A"]] [["C"]] [] [];
      xplain xdpt 0 1 2 [xcell 0 0 0] [["B"]] [["A"]] [] []; xplain xdpt 0 1 3 [xcell 0 0 0] [["C"]] [["A"]] [] [] ] ;;
  Some (mkInteractions ps true false norc).
(** the device numbers: rank 0 takes the first process (A to B), rank 1 the second one (A to C), both at the last site *)
Definition xdDevice (r : Z) (n : nat) : deviate :=
  match n with O => dev 1 2 | S O => if r =? 0 then dev 1 4 else dev 3 4 | _ => dev 9 10 end.
