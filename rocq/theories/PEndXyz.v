(** What the calls of a run leave in the xyz trajectory file. *)
From Verif Require Import PBase SModel SChain SBucket PBuild PRow PPlain PStepInv PChain PChain2 PAtomNames PBucket TStep TAtoms TTrajectory TXyz MEndXyz SXyz PLattice.
From Verif Require Export SEnd.
From Verif Require SRun PRunLoop PRunAll.
Open Scope string_scope.
Open Scope list_scope.
Open Scope Z_scope.

Section File.
Context (U q : Z) (header : string) (live : bool) (now : list string) (size : @xyzTraj Z Z -> Z) (maxSize maxTime : Z) (ticks : Z -> Z * Z).
Notation call := (@MRun.call sim).
Notation xyzCall := (xyzCall U q header live now size maxSize maxTime ticks).
Notation xyzDo := (xyzDo U q header live now size maxSize maxTime ticks).
Notation xyzFileAfter := (xyzFileAfter U q header live now size maxSize maxTime ticks).
Definition frameOf (f : Z * Z * sim) : Z * Z * list string * list (Z * Z * Z) := (fst (fst f), snd (fst f), atomTypes (md_cf (sm_md (snd f))), atomPositions q (md_cf (sm_md (snd f)))).
Definition xcallsOf (log : list call) : list (@tcall (Z * Z * list string * list (Z * Z * Z))) :=
  flat_map (fun c => match c with MRun.CAppend t k s => [TAppend (frameOf (t, k, s)) (fst (ticks k)) (snd (ticks k))] | MRun.CFlush => [TFlush] | _ => [] end) log.
Lemma xcallsOf_appended log : appended (xcallsOf log) = map frameOf (SRun.frames log).
Proof using Type. induction log as [|c log IH]; [reflexivity|]. unfold xcallsOf, SRun.frames in *. cbn [flat_map]. unfold appended in *. rewrite flat_map_app, IH. destruct c; reflexivity. Qed.
(** a state whose frame can be written *)
Definition showable (s : sim) : Prop := length (cf_aidelements (md_cf (sm_md s))) = length (cf_aidcoords (md_cf (sm_md s))) /\ (forall n, In n (cf_aidelements (md_cf (sm_md s))) -> okWord n) /\ (live = true -> cf_aidelements (md_cf (sm_md s)) = now).
Lemma replay log : ~ In MRun.CNew log -> forall st st',
  doCalls (xtStore live) size (xtFlush (fmtXyz U) (fmtXyz U)) maxSize maxTime (xcallsOf log) st = (st', Ok tt) -> fold_left (fun st c => xyzCall c (fst st)) log (st, Ok tt) = (st', Ok tt).
Proof using Type.
  induction log as [|c log IH]; intros HN st st' H; [cbn in H; injection H as <-; reflexivity|]. cbn [fold_left fst].
  assert (IH' : forall st1, doCalls (xtStore live) size (xtFlush (fmtXyz U) (fmtXyz U)) maxSize maxTime (xcallsOf log) st1 = (st', Ok tt) -> fold_left (fun st c => xyzCall c (fst st)) log (st1, Ok tt) = (st', Ok tt)) by (intros st1 X; apply IH; [intros Hi; apply HN; right; exact Hi|exact X]).
  unfold xcallsOf in H, IH'. cbn [flat_map] in H. destruct c; try (apply IH'; exact H).
  - exfalso. apply HN. left. reflexivity.
  - cbn [app doCalls doCall] in H. cbn [MEndXyz.xyzCall]. unfold frameOf in H at 1. cbn [fst snd] in H.
    destruct (trajAppend _ _ _ _ _ _ _ _ st) as [st1 [v|e]]; [destruct v; apply IH'; exact H|discriminate].
  - cbn [app doCalls] in H. cbn [MEndXyz.xyzCall]. destruct (doCall _ _ _ _ _ TFlush st) as [st1 [v|e]]; [destruct v; apply IH'; exact H|discriminate].
Qed.
Lemma frames_fine log : (forall t k s, In (t, k, s) (SRun.frames log) -> showable s) ->
  forall t s y c, In (t, s, y, c) (appended (xcallsOf log)) -> length y = length c /\ (forall n, In n y -> okWord n) /\ (live = true -> y = now).
Proof using Type.
  intros HW t s y c Hi. rewrite xcallsOf_appended in Hi. apply in_map_iff in Hi. destruct Hi as ([[t' k'] x] & Ei & Hi). unfold frameOf in Ei. cbn [fst snd] in Ei. injection Ei as <- <- <- <-. destruct (HW _ _ _ Hi) as (A & B & C). unfold atomTypes, atomPositions. rewrite map_length. auto.
Qed.
Lemma xcalls_app l m : xcallsOf (l ++ m) = xcallsOf l ++ xcallsOf m. Proof using Type. apply flat_map_app. Qed.
(** after a flush the file tells of all the frames *)
Lemma replay_file log : 0 < U -> (forall t k s, In (t, k, s) (SRun.frames log) -> showable s) -> ~ In MRun.CNew log ->
  exists frames, xyzIn header (xyzFileAfter (MRun.CNew :: log ++ [MRun.CFlush])) = Some frames /\ Forall2 (saysFrame U) (map frameOf (SRun.frames log)) frames.
Proof using Type.
  intros HU HW HN. destruct (C78_frames U size maxSize maxTime header live now (xcallsOf log) HU (frames_fine log HW)) as (st & last & frames & E & R & F). exists frames. rewrite <- xcallsOf_appended. split; [|exact F].
  unfold MEndXyz.xyzFileAfter, MEndXyz.xyzDo. cbn [fold_left MEndXyz.xyzCall fst]. rewrite (replay (log ++ [MRun.CFlush])) with (st' := (st, last)); [exact R| |rewrite xcalls_app; exact E]. intros Hc. apply in_app_or in Hc. destruct Hc as [Hc|[Hc|[]]]; [auto|discriminate].
Qed.
Lemma doCalls_prefix l : forall m st st', doCalls (xtStore live) size (xtFlush (fmtXyz U) (fmtXyz U)) maxSize maxTime (l ++ m) st = (st', Ok tt) -> exists st1, doCalls (xtStore live) size (xtFlush (fmtXyz U) (fmtXyz U)) maxSize maxTime l st = (st1, Ok tt).
Proof using Type.
  induction l as [|c l IH]; intros m st st' H; [exists st; reflexivity|]. cbn [app doCalls] in *. destruct (doCall _ _ _ _ _ c st) as [st1 [v|e]]; [exact (IH _ _ _ H)|discriminate].
Qed.
(** after CNew and any calls but CNew: no exception *)
Lemma replay_ok log : 0 < U -> (forall t k s, In (t, k, s) (SRun.frames log) -> showable s) -> ~ In MRun.CNew log -> snd (xyzDo (MRun.CNew :: log)) = Ok tt.
Proof using Type.
  intros HU HW HN. destruct (C78_frames U size maxSize maxTime header live now (xcallsOf log) HU (frames_fine log HW)) as (st & last & frames & E & _). apply doCalls_prefix in E. destruct E as [st1 E].
  unfold MEndXyz.xyzDo. cbn [fold_left MEndXyz.xyzCall fst]. erewrite replay; [reflexivity|exact HN|exact E].
Qed.
(** the calls after the flush do not touch the file *)
Lemma replay_after log tail : (forall c, In c tail -> exists k, c = MRun.CFinalize k) -> xyzFileAfter (log ++ tail) = xyzFileAfter log.
Proof using Type.
  intros H. unfold MEndXyz.xyzFileAfter, MEndXyz.xyzDo. rewrite fold_left_app. generalize (fold_left (fun st c => xyzCall c (fst st)) log ((mkXT [] [] [] [] "" now, 0), Ok tt)) as st. induction tail as [|c tail IH]; intros st; [reflexivity|]. cbn [fold_left]. rewrite IH by (intros; apply H; right; assumption).
  destruct (H c (or_introl eq_refl)) as [k ->]. reflexivity.
Qed.
(** the answers of the trajectory are never exceptions *)
Lemma traj_fine others log c : 0 < U -> (forall t k s, In (t, k, s) (SRun.frames (log ++ [c])) -> showable s) -> ~ In MRun.CNew (log ++ [c]) -> (c = MRun.CFlush \/ exists t k s, c = MRun.CAppend t k s) ->
  withXyz U q header live now size maxSize maxTime ticks others (MRun.CNew :: log ++ [c]) = MRun.Ok 0.
Proof using Type.
  intros HU HW HN Hc. pose proof (replay_ok (log ++ [c]) HU HW HN) as E. unfold withXyz. rewrite E. change (MRun.CNew :: log ++ [c]) with ((MRun.CNew :: log) ++ [c]). rewrite rev_app_distr. cbn [rev app]. destruct Hc as [->|(t & k & s & ->)]; reflexivity.
Qed.
End File.

(** ** The atoms of reachable states *)
Section Atoms.
Context (ranks : Z) (hash : list Z -> Z) (L : lattice) (basis : list coord) (names : list string) (cf : config) (it : interactions) (prs : list cproc)
        (CH : processesInput ranks L basis names cf it prs).
Lemma start_drawn md0 : mkLatticeModel ranks hash L cf it = Some md0 -> drawnFrom names cf.
Proof using CH.
  intros E0. pose proof (mkLatticeModel_cfg _ _ _ _ _ _ E0) as SC. assert (RC : reachable ranks hash L cf it md0) by (exists md0, []; auto). pose proof (pc_user _ _ _ _ _ _ _ CH) as UI. pose proof (user_std _ _ _ _ _ UI) as ST. pose proof (proj2 (pc_names _ _ _ _ _ _ _ CH)) as KN.
  assert (K : forall els s, In els (cf_elements cf) -> In s els -> In s names).
  { intros els s He Hs. apply KN. apply In_zget in He. destruct He as [y Hy]. rewrite <- (sc_elements _ _ SC) in Hy. destruct (lists_known _ hash _ _ _ _ _ _ CH _ RC y els s Hy Hs) as (k & Hk). exists k. rewrite <- (sc_ptypes _ _ SC). exact Hk. }
  split; [|split; [exact K|]].
  - destruct (ui_cf _ _ _ _ _ UI) as (coords & els & E). apply mkConfiguration_info in E. destruct (start_ids _ _ _ _ _ UI) as (_ & _ & A2). pose proof (wi_coords _ _ _ _ (ui_wf _ _ _ _ _ UI)) as H1. rewrite (ci_coords _ _ _ _ E) in H1.
    intros s Hs. apply In_zget in Hs. destruct Hs as [i Hi]. destruct (ci_aidel _ _ _ _ E i) as (e & s' & X1 & X2 & X3); [rewrite H1, <- A2; eapply zget_range; exact Hi|]. assert (s' = s) by congruence. subst s'. rewrite <- (ci_elements _ _ _ _ E) in X1. eapply K; [eapply zget_In; exact X1|eapply zget_In; exact X2].
  - intros s Hn. apply KN. pose proof (std_names _ _ _ _ ST) as SN. destruct (names_wf _ _ (ui_pt _ _ _ _ _ UI) SN) as [N1 N2].
    apply In_zget in Hn. destruct Hn as [k Ek]. destruct (kind_name _ (ui_pt _ _ _ _ _ UI) k) as [s' Ek']; [pose proof (zget_range _ _ _ Ek); unfold bucket in *; lia|].
    pose proof (N2 _ _ Ek'). assert (s' = s) by congruence. subst s'. eauto.
Qed.
Lemma reach_atoms md : reachable ranks hash L cf it md -> zlen (cf_aidelements (md_cf md)) = nsites L /\ zlen (cf_aidcoords (md_cf md)) = nsites L /\ forall n, In n (cf_aidelements (md_cf md)) -> In n names.
Proof using CH.
  intros RC. pose proof (pc_user _ _ _ _ _ _ _ CH) as UI. pose proof (ui_wf _ _ _ _ _ UI) as WI. destruct (start_ids _ _ _ _ _ UI) as (_ & A1 & A2). destruct (reach_lens _ _ _ _ _ _ WI RC) as (_ & _ & _ & X1 & X2).
  split; [congruence|]. split; [rewrite X1, A1; apply WI|]. destruct RC as (md0 & us & E0 & E1). apply (reach_drawn names ranks hash L cf it md); [eapply start_drawn; exact E0|exists md0, us; auto].
Qed.
(** at the start the atoms are on the sites of the lattice *)
Lemma start_atoms md0 : mkLatticeModel ranks hash L cf it = Some md0 -> cf_aidcoords (md_cf md0) = cf_coords cf /\
  forall i els t, zget (cf_elements (md_cf md0)) i = Some (t :: els) -> zget (cf_aidelements (md_cf md0)) i = Some t.
Proof using CH.
  intros E0. pose proof (pc_user _ _ _ _ _ _ _ CH) as UI. destruct (start_ids _ _ _ _ _ UI) as (_ & A1 & A2). pose proof (mkLatticeModel_cfg _ _ _ _ _ _ E0) as SC. split; [rewrite (sc_aidcoords _ _ SC); exact A1|].
  intros i els t Hi. rewrite (sc_elements _ _ SC) in Hi. rewrite (sc_aidel _ _ SC). destruct (ui_cf _ _ _ _ _ UI) as (coords & els0 & E). apply mkConfiguration_info in E. pose proof (wi_coords _ _ _ _ (ui_wf _ _ _ _ _ UI)) as H1. rewrite (ci_coords _ _ _ _ E) in H1.
  destruct (ci_aidel _ _ _ _ E i) as (e & s' & X1 & X2 & X3); [rewrite H1, <- (wi_elements _ _ _ _ (ui_wf _ _ _ _ _ UI)); eapply zget_range; exact Hi|]. rewrite (ci_elements _ _ _ _ E), X1 in Hi. injection Hi as ->. cbn in X2. congruence.
Qed.
End Atoms.
