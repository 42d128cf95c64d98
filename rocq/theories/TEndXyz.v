(** C85: from the arguments of a script to the xyz trajectory file: the file follows the atoms through a history of the Markov chain. *)
From Coq Require Import Reals Lra.
From Verif Require Import PBase SModel SChain SBucket PPlain PChain PChain2 TPyChain2 PEnd PEndFile TTrajectory TXyz MEndXyz PEndXyz SXyz XRows XSystems XCheck TPyChain TPyProcess TTypes TIdeal TChain SIdeal TEnd.
From Verif Require Export SEnd.
From Verif Require SRun PRunLoop PRunAll PRunFrames TRun.
From Coq Require Import ZifyBool.
Open Scope string_scope.
Open Scope list_scope.
Open Scope Z_scope.

(** the frames of the steps 0, d, 2d, ... up to m show the types and the positions of the atoms of the models: what atomIDTypes() and atomIDCoordinates() return *)
Definition atomsEvery (U q : Z) (clock : double -> Z) (models : Z -> model) (time : Z -> R) (d m : Z) (frames : list (string * Z * list (string * (string * string * string)))) : Prop :=
  zlen frames = m / d + 1 /\ forall i, 0 <= i <= m / d -> exists f, zget frames i = Some f /\
    saysFrame U (clock (DFin (time (i * d))), i * d, atomTypes (md_cf (models (i * d))), atomPositions q (md_cf (models (i * d)))) f.

Section End.
Context (S ranks : Z) (hash : list Z -> Z) (a : mixedArgs) (kl : klattice) (kc : kconf) (ki : kinter) (md0 : model) (L : lattice) (basis : list coord) (names : list string) (ns : particles) (kprs : list (Z * cproc)) (Rg : Z).
(** a script with proper arguments, and the model that it makes *)
Context (HR : 1 <= ranks) (W : mixedPosed S hash a L basis names ns kprs Rg) (HS : mixedScript S a = Ok (kl, kc, ki)) (HM : KMCLatticeModel S ranks hash kl kc ki = Ok (Some md0)).
(** the trajectory, as in C79; names without blanks and line ends *)
Context (q : Z) (header : string) (live : bool) (size : @xyzTraj Z Z -> Z) (maxSize maxTime : Z) (ticks : Z -> Z * Z) (clock : double -> Z).
Context (Hq : 1 <= q) (HQ : forall n, In n names -> okWord n).
(** As in C28: if the buffer keeps references to the types of the backend, they have to stay as they are (C23_elements says for which processes they do) *)
Context (HL : live = true -> forall md, mixedRun S ranks hash a kc md -> atomTypes (md_cf md) = atomTypes (md_cf md0)).
Context (others : list (@MRun.call sim) -> MRun.outcome Z) (t0 : R) (us : list (deviate * deviate)) (vs : list R) (HD : properDeviates us vs) (ct : MRun.control) (nA nB d : Z) (w' : @MRun.world sim) (o : MRun.outcome unit).
Context (Ed : MRun.ct_dtime ct = None) (Edu : MRun.ct_dump ct = Some d) (Hd : 1 <= d).
Let prs := map snd kprs.
Let start := mkSim md0 (DFin t0) us vs.
Let now := atomTypes (md_cf md0).
Let env := withXyz (S * q) q header live now size maxSize maxTime ticks others.
Context (HRun : MRun.run (simBackend clock) env ct true nA nB (MRun.mkWorld start []) = (w', o)).

Lemma start_inRun : inRun S ranks hash a kc start.
Proof using All. split; [exists kl, ki, md0, []; auto|]. split; [exists t0; reflexivity|]. exact HD. Qed.
Lemma unit_pos : 0 < S * q.
Proof using All. pose proof (mp_unit _ _ _ _ _ _ _ _ _ W). nia. Qed.
Lemma inRun_showable s : inRun S ranks hash a kc s -> showable live now s.
Proof using All.
  intros (RN & _). destruct (run_input2 _ _ _ _ _ _ _ _ _ _ _ _ HR W RN) as (cf & it & prs' & SM & _ & RC & _). destruct (reach_atoms _ hash _ _ _ _ _ _ (proj1 SM) _ RC) as (X1 & X2 & X3).
  split; [unfold zlen in *; lia|]. split; [intros n Hn; apply HQ, X3, Hn|]. intros E. apply (HL E). exact RN.
Qed.
Lemma setup_frames ks : SRun.frames (map (fun k => MRun.CSetup k (clock (DFin t0)) start) ks) = [].
Proof using All. induction ks as [|k ks IH]; [reflexivity|]. exact IH. Qed.

(** If the run came to its loop: with the m steps it made, the file, read as C28 and C78 read it, has the frames of the steps 0, d, 2d, ...  The first one has the atoms at the sites of the lattice; each shows the
    atoms of the model to which the first k pairs of deviates led, where k is the step in the frame; the models report the states of a history of the chain.  This holds however the run ends.
    If it ends normally, the last model and its time are those after step m, and if no breaker ended it, it made all steps. *)
Theorem C85_file : In MRun.CFlush (MRun.w_log w') ->
  exists es path time models frames, let m := zlen es in m <= Z.max 0 (MRun.ct_steps ct) /\
    path 0 = particleNumbers names ns /\ time 0 = t0 /\ historyPath L basis names prs path time es /\ drawn md0 us vs es /\
    (forall k, 0 <= k <= m -> runSteps md0 (firstn (Z.to_nat k) us) = Some (models k) /\ reportsNumbers names kc (models k) (path k)) /\
    xyzIn header (xyzFileAfter (S * q) q header live now size maxSize maxTime ticks (MRun.w_log w')) = Some frames /\
    atomsEvery (S * q) q clock models time d m frames /\
    atomPositions q (md_cf (models 0)) = sitesOf q (generateLatticeSites L basis) /\
    (forall k, 0 <= k <= m -> zlen (atomTypes (md_cf (models k))) = nsites L /\ forall t, In t (atomTypes (md_cf (models k))) -> In t names) /\
    (o = MRun.Ok tt -> sm_md (MRun.w_st w') = models m /\ sm_time (MRun.w_st w') = DFin (time m) /\ (TRun.silent env (MRun.w_log w') -> m = Z.max 0 (MRun.ct_steps ct))).
Proof using All.
  intros HF. destruct (PRunFrames.run_frames (simBackend clock) env ct nA nB start w' o d Ed Edu ltac:(lia) HRun HF) as (seg & m & tail & M1 & LG & IN & TL & FR & FI & OUT).
  set (St k := SRun.stateAt (simBackend clock) start k). set (body := MRun.CAppend (clock (DFin t0)) 0 start :: map (fun k => MRun.CSetup k (clock (DFin t0)) start) (zrange 0 (nA - 1)) ++ seg).
  assert (EL : MRun.w_log w' = (MRun.CNew :: body ++ [MRun.CFlush]) ++ tail). { rewrite LG. unfold SRun.setups, body. cbn [app simBackend MRun.bk_time]. rewrite <- !app_assoc. reflexivity. }
  assert (FB : SRun.frames body = map (SRun.atStep (simBackend clock) start) (0 :: SRun.multiples d m)). { unfold body. change (MRun.CAppend (clock (DFin t0)) 0 start :: ?x) with ([MRun.CAppend (clock (DFin t0)) 0 start] ++ x). rewrite !PRunLoop.frames_app, setup_frames, FR. reflexivity. }
  assert (NB : ~ In MRun.CNew body). { unfold body. intros [Hc|Hc]; [discriminate|]. apply in_app_or in Hc. destruct Hc as [Hc|Hc]; [apply in_map_iff in Hc; destruct Hc as (k & ? & _); discriminate|]. exact (IN _ Hc). }
  pose proof (path_inRun S ranks hash a kc L basis names ns kprs Rg HR W clock start m start_inRun FI) as PR.
  assert (WR : forall t k s, In (t, k, s) (SRun.frames body) -> showable live now s).
  { intros t k s Hi. rewrite FB in Hi. apply in_map_iff in Hi. destruct Hi as (j & E & Hj). injection E as <- <- <-. apply inRun_showable. destruct Hj as [<-|Hj]; [exact start_inRun|]. apply TRun.C25_multiples in Hj; [|exact Hd]. apply PR. lia. }
  destruct (PEndXyz.replay_file (S * q) q header live now size maxSize maxTime ticks body unit_pos WR NB) as (frames & EX & FV). rewrite FB in FV.
  destruct (path_history S ranks hash a kc L basis names ns kprs Rg HR W clock start m start_inRun FI m ltac:(lia)) as (es & used & EZ & _ & EU & EV & ER & EE & EP). fold (St m) in EU, EV, ER. unfold start in EU, EV, ER, EE. cbn [sm_us sm_vs sm_md] in EU, EV, ER, EE.
  assert (DR : drawn md0 us vs es).
  { assert (Lu : length es = length used) by (destruct EE as [X _]; unfold zlen in X; lia). split; [rewrite Lu, EU, firstn_app, firstn_all, Nat.sub_diag; cbn [firstn]; rewrite app_nil_r; exact EE|]. rewrite EV, <- (map_length snd es) at 1. rewrite firstn_app, firstn_all, Nat.sub_diag. cbn [firstn]. rewrite app_nil_r. reflexivity. }
  exists es, (fun k => numbersAt kc names (St k)), (fun k => timeOf_ (St k)), (fun k => sm_md (St k)), frames. cbv zeta. rewrite EZ.
  split; [apply M1|]. split; [|split; [reflexivity|split; [exact EP|split; [exact DR|split; [|split; [|split; [|split; [|split]]]]]]]].
  - destruct (C73_start S ranks hash a kl kc ki L basis names ns kprs Rg HR HS W) as (md & E & RP). assert (md = md0) by congruence. subst md. destruct (run_shown S ranks hash a kc L basis names ns kprs Rg HR W start (proj1 start_inRun)) as (_ & RP2 & _).
    destruct RP as (v1 & A1 & ->). destruct RP2 as (v2 & A2 & X). unfold St, SRun.stateAt. cbn [Z.to_nat SRun.stepped]. unfold start in *. cbn [sm_md] in A2. congruence.
  - intros k Hk. destruct (PR k Hk) as (RN & _). fold (St k) in RN. split; [|apply (run_shown S ranks hash a kc L basis names ns kprs Rg HR W _ RN)].
    destruct (path_history S ranks hash a kc L basis names ns kprs Rg HR W clock start m start_inRun FI k Hk) as (esk & usedk & EZk & _ & EUk & _ & ERk & EEk & _). fold (St k) in EUk, ERk. unfold start in EUk, ERk, EEk. cbn [sm_us sm_md] in EUk, ERk, EEk.
    assert (Lu : Z.to_nat k = length usedk) by (destruct EEk as [X _]; unfold zlen in X, EZk; lia). rewrite Lu, EUk, firstn_app, firstn_all, Nat.sub_diag. cbn [firstn]. rewrite app_nil_r. exact ERk.
  - rewrite EL, PEndXyz.replay_after by exact TL. exact EX.
  - unfold atomsEvery. rewrite multiples_list in FV by lia. pose proof (Z.div_pos m d ltac:(lia) ltac:(lia)) as PD.
    assert (LF : zlen frames = m / d + 1). { rewrite <- (PPyProcess.Forall2_zlen _ _ _ FV), !zlen_map, zlen_cons, zlen_map, zlen_zrange. lia. }
    split; [exact LF|]. intros i Hi. destruct (zget_lt frames i) as [f Hf]; [lia|]. exists f. split; [exact Hf|]. assert (Hid : 0 <= i * d <= m) by (pose proof (Z.mul_div_le m d ltac:(lia)); nia).
    assert (Eg : zget (0 :: map (fun i => i * d) (zrange 1 (m / d))) i = Some (i * d)). { rewrite zget_cons. destruct (Z.eqb_spec i 0) as [->|Hne]; [reflexivity|]. rewrite zget_map, zget_zrange by lia. cbn [option_map]. f_equal. lia. }
    destruct (PPyChain3.Forall2_to _ _ _ FV i _ ltac:(rewrite !zget_map, Eg; reflexivity)) as (f' & Hf' & SF). assert (f' = f) by congruence. subst f'.
    unfold frameOf, SRun.atStep in SF. cbn [fst snd] in SF. fold (St (i * d)) in SF. cbn [simBackend MRun.bk_time] in SF. destruct (PR (i * d) Hid) as (_ & (t & Et) & _). fold (St (i * d)) in Et. unfold timeOf_. rewrite Et. rewrite Et in SF. exact SF.
  - destruct (run_input2 _ _ _ _ _ _ _ _ _ _ _ _ HR W (proj1 start_inRun)) as (cf & it & prs' & SM & _ & RC & _). destruct (PPyChain5.simulation_input2 ranks S hash a kl kc ki L basis names ns kprs Rg HR HS W) as (cf1 & it1 & prs1 & KL & WF & MI & SM1 & _).
    unfold KMCLatticeModel in HM. rewrite MI in HM. cbn [MPy.obind obind fst snd] in HM. rewrite KL in HM. injection HM as HM'. destruct (start_atoms _ hash _ _ _ _ _ _ (proj1 SM1) md0 HM') as (X & _). unfold St, SRun.stateAt. cbn [Z.to_nat SRun.stepped start sm_md].
    unfold atomPositions, sitesOf. rewrite X, (gi_coords _ _ _ _ _ (pc_geo _ _ _ _ _ _ _ (proj1 SM1))). reflexivity.
  - intros k Hk. destruct (PR k Hk) as (RN & _). fold (St k) in RN. destruct (run_input2 _ _ _ _ _ _ _ _ _ _ _ _ HR W RN) as (cf & it & prs' & SM & _ & RC & _). destruct (reach_atoms _ hash _ _ _ _ _ _ (proj1 SM) _ RC) as (X1 & _ & X3). split; [exact X1|exact X3].
  - intros ->. destruct OUT as (E1 & E2). fold (St m) in E1. rewrite E1. split; [reflexivity|]. destruct (PR m ltac:(lia)) as (_ & (t & Et) & _). fold (St m) in Et. split; [unfold timeOf_; rewrite Et; reflexivity|].
    intros SI. destruct (TRun.C49_sequence _ _ _ _ _ _ _ _ _ HRun) as (n & N1 & ST & X). destruct (X eq_refl) as (_ & Y). rewrite <- (Y SI). rewrite LG, !PRunLoop.states_app in ST. destruct (TRun.setups_facts (simBackend clock) true nA start) as (_ & F2 & _). rewrite F2, E2 in ST. cbn [app] in ST.
    change (SRun.states (MRun.CFlush :: tail)) with (SRun.states tail) in ST. assert (ET : SRun.states tail = []). { apply PRunLoop.flat_map_nil. intros c Hc. destruct (TL c Hc) as [k ->]. reflexivity. } rewrite ET, app_nil_r in ST. apply (f_equal (@zlen _)) in ST. rewrite !zlen_map, !zlen_zrange in ST. lia.
Qed.
Lemma log_shape seg tail : SRun.setups (simBackend clock) true nA start ++ seg ++ tail =
  MRun.CNew :: (MRun.CAppend (clock (DFin t0)) 0 start :: map (fun k => MRun.CSetup k (clock (DFin t0)) start) (zrange 0 (nA - 1)) ++ seg) ++ tail.
Proof using All. unfold SRun.setups. cbn [app simBackend MRun.bk_time]. rewrite <- app_assoc. reflexivity. Qed.
Lemma frames_showable m : (forall j, 0 <= j < m -> PRunFrames.fine (simBackend clock) (SRun.stateAt (simBackend clock) start j)) ->
  forall t k s, In (t, k, s) (map (SRun.atStep (simBackend clock) start) (0 :: SRun.multiples d m)) -> showable live now s.
Proof using All.
  intros FI t k s Hi. apply in_map_iff in Hi. destruct Hi as (j & E & Hj). injection E as <- <- <-. apply inRun_showable.
  destruct Hj as [<-|Hj]; [exact start_inRun|]. apply TRun.C25_multiples in Hj; [|exact Hd]. eapply (path_inRun S ranks hash a kc L basis names ns kprs Rg HR W clock start m); [exact start_inRun|exact FI|lia].
Qed.
(** the answers of the trajectory are no exceptions, in any piece of the log that has only frames that can be written *)
Lemma never_raised (HO : forall l e, others l <> MRun.Raise e) log e : (forall t k s, In (t, k, s) (SRun.frames log) -> showable live now s) -> ~ In MRun.CNew log -> ~ SRun.raised env (MRun.CNew :: log) e.
Proof using All.
  intros HW HN' (pre & c & E & ER). unfold env in ER. destruct (rev log) as [|c' l] eqn:EL.
  - assert (log = []) by (rewrite <- (rev_involutive log), EL; reflexivity). subst log. cbn in ER. discriminate.
  - assert (EG : log = rev l ++ [c']) by (rewrite <- (rev_involutive log), EL; reflexivity). clear EL E. subst log.
    assert (D : (c' = MRun.CFlush \/ exists t k s, c' = MRun.CAppend t k s) \/ withXyz (S * q) q header live now size maxSize maxTime ticks others (MRun.CNew :: rev l ++ [c']) = others (MRun.CNew :: rev l ++ [c'])).
    { unfold withXyz. change (MRun.CNew :: rev l ++ [c']) with ((MRun.CNew :: rev l) ++ [c']). rewrite rev_app_distr. cbn [rev app]. destruct c'; auto; [exfalso; apply HN'; apply in_or_app; right; left; reflexivity|left; right; eauto]. }
    destruct D as [D|D]; [|rewrite D in ER; exact (HO _ _ ER)]. rewrite (PEndXyz.traj_fine (S * q) q header live now size maxSize maxTime ticks others (rev l) c' unit_pos HW HN' D) in ER. discriminate.
Qed.
(** Without breakers, with analysis objects that raise no exceptions and with enough deviates: the run ends normally, or the chain has come to a state in which the rates of all events are zero. *)
Theorem C85_end : nB = 0 -> (forall l e, others l <> MRun.Raise e) -> MRun.ct_analyse ct <> 0 -> enoughDeviates (MRun.ct_steps ct) us vs -> 0 <= MRun.ct_steps ct ->
  o = MRun.Ok tt \/ exists es s T, (es = [] \/ zlen es < MRun.ct_steps ct) /\ chainHistory L basis names prs (particleNumbers names ns) t0 es s T /\ allRates L basis names prs s = 0.
Proof using All.
  intros HB HO HA (D1 & D2) HSt.
  case_eq o; [intros [] _; left; reflexivity|intros e Eo; right].
  assert (P0 : numbersAt kc names start = particleNumbers names ns).
  { destruct (C73_start S ranks hash a kl kc ki L basis names ns kprs Rg HR HS W) as (md & E & RP). assert (md = md0) by congruence. subst md. destruct (run_shown S ranks hash a kc L basis names ns kprs Rg HR W start (proj1 start_inRun)) as (_ & RP2 & _).
    destruct RP as (v1 & A1 & ->). destruct RP2 as (v2 & A2 & X). unfold start in *. cbn [sm_md] in A2. congruence. }
  assert (HF : In MRun.CFlush (MRun.w_log w') \/ allRates L basis names prs (numbersAt kc names start) = 0).
  { pose proof HRun as H. apply PRunAll.run_inv in H. destruct H as [(A & _)|[(_ & _ & e' & _ & (n & N1 & LE & (N2 & N3)))|(_ & w1 & ob & oc & H & _ & (n & N1 & LM & OM) & O)]].
    - right. apply (avail_rates S ranks hash a kc L basis names ns kprs Rg HR W start (proj1 start_inRun) A).
    - exfalso. cbn [app] in LE. rewrite LE in N3. destruct n as [|n]; [lia|]. unfold SRun.setups in N3. cbn [app firstn simBackend MRun.bk_time] in N3. revert N3. apply (never_raised HO).
      + intros t k s Hi. assert (Hi' : In (t, k, s) (SRun.frames (MRun.CAppend (clock (DFin t0)) 0 start :: map (fun k => MRun.CSetup k (clock (DFin t0)) start) (zrange 0 (nA - 1))))).
        { unfold SRun.frames in *. apply in_flat_map in Hi. destruct Hi as (c & Hc & Hi). apply in_flat_map. exists c. split; [|exact Hi]. apply (TRun.firstn_In n). exact Hc. }
        change (MRun.CAppend (clock (DFin t0)) 0 start :: ?x) with ([MRun.CAppend (clock (DFin t0)) 0 start] ++ x) in Hi'. rewrite PRunLoop.frames_app, setup_frames in Hi'. destruct Hi' as [E|[]]. injection E as <- <- <-. apply inRun_showable, start_inRun.
      + intros Hc. apply TRun.firstn_In in Hc. destruct Hc as [Hc|Hc]; [discriminate|]. apply in_map_iff in Hc. destruct Hc as (k & ? & _). discriminate.
    - left. rewrite LM. apply in_or_app. right. destruct n as [|n]; [exfalso; destruct oc; [cbn in OM; discriminate|lia]|]. left. reflexivity. }
  destruct HF as [HF|HF]; [|exists [], (numbersAt kc names start), t0; split; [left; reflexivity|]; split; [rewrite P0; constructor|exact HF]].
  destruct (PRunFrames.run_frames (simBackend clock) env ct nA nB start w' _ d Ed Edu ltac:(lia) HRun HF) as (seg & m & tail & M1 & LG & IN & TL & FR & FI & OUT).
  set (body := MRun.CAppend (clock (DFin t0)) 0 start :: map (fun k => MRun.CSetup k (clock (DFin t0)) start) (zrange 0 (nA - 1)) ++ seg).
  assert (FB : SRun.frames body = map (SRun.atStep (simBackend clock) start) (0 :: SRun.multiples d m)). { unfold body. change (MRun.CAppend (clock (DFin t0)) 0 start :: ?x) with ([MRun.CAppend (clock (DFin t0)) 0 start] ++ x). rewrite !PRunLoop.frames_app, setup_frames, FR. reflexivity. }
  assert (NB : ~ In MRun.CNew body). { unfold body. intros [Hc|Hc]; [discriminate|]. apply in_app_or in Hc. destruct Hc as [Hc|Hc]; [apply in_map_iff in Hc; destruct Hc as (k & ? & _); discriminate|]. exact (IN _ Hc). }
  pose proof (frames_showable m FI) as WR. rewrite <- FB in WR.
  assert (EL : MRun.w_log w' = MRun.CNew :: body ++ MRun.CFlush :: tail) by (rewrite LG, log_shape; reflexivity).
  assert (FT : SRun.frames (MRun.CFlush :: tail) = []). { apply PRunLoop.flat_map_nil. intros c [<-|Hc]; [reflexivity|]. destruct (TL c Hc) as [k ->]. reflexivity. }
  rewrite Eo in OUT. destruct OUT as [OUT|(j & J1 & J2 & J3)].
  { exfalso. rewrite EL in OUT. revert OUT. apply (never_raised HO).
    - rewrite PRunLoop.frames_app, FT, app_nil_r. exact WR.
    - intros Hc. apply in_app_or in Hc. destruct Hc as [Hc|[Hc|Hc]]; [exact (NB Hc)|discriminate|]. destruct (TL _ Hc) as [k ?]. discriminate. }
  set (sj := SRun.stateAt (simBackend clock) start j) in *.
  assert (NF : ~ PRunFrames.fine (simBackend clock) sj).
  { intros (F1 & F2 & F3). destruct J3 as [(C & _)|[C|[C|[C|[(_ & C)|[(C & _)|(k & p & C & _)]]]]]].
    - exact (F1 C).
    - rewrite C in F2. discriminate.
    - rewrite C in F3. discriminate.
    - revert C. rewrite <- (app_nil_r (SRun.setups _ _ _ _ ++ seg)), <- app_assoc, log_shape, app_nil_r. apply (never_raised HO); assumption.
    - rewrite Edu in C. destruct C as [C _]. lia.
    - exact (HA C).
    - lia. }
  assert (Hm : m = j) by (destruct J2 as [J2|J2]; [exact J2|exfalso; apply NF; apply FI; lia]). subst j.
  destruct (path_history S ranks hash a kc L basis names ns kprs Rg HR W clock start m start_inRun FI m ltac:(lia)) as (es & used & EN & EH & EU & EV & _ & EE & _). fold sj in EH, EU, EV.
  assert (N1 : Z.of_nat (length (sm_us sj)) = Z.of_nat (length (sm_us start)) - m) by (rewrite EU, app_length; destruct EE as [X _]; unfold zlen in *; lia).
  assert (N2 : Z.of_nat (length (nonzero (sm_vs sj))) = Z.of_nat (length (nonzero (sm_vs start))) - m) by (rewrite EV, app_length, map_length; unfold zlen in *; lia).
  exists es, (numbersAt kc names sj), (timeOf_ sj). split; [right; lia|]. split; [rewrite <- P0; exact EH|].
  pose proof (path_inRun S ranks hash a kc L basis names ns kprs Rg HR W clock start m start_inRun FI m ltac:(lia)) as IR. fold sj in IR.
  destruct (C73_total S ranks hash a kc (sm_md sj) L basis names ns kprs Rg HR W (proj1 IR)) as (s' & RP & _ & POS). destruct (run_shown S ranks hash a kc L basis names ns kprs Rg HR W sj (proj1 IR)) as (_ & RP2 & _).
  assert (s' = numbersAt kc names sj). { destruct RP as (v1 & A1 & ->). destruct RP2 as (v2 & A2 & ->). congruence. } subst s'.
  destruct (Z_lt_dec 0 (allRates L basis names prs (numbersAt kc names sj))) as [HT|HT]; [|unfold prs in *; lia]. exfalso. apply NF.
  apply (goes_on S ranks hash a kc L basis names ns kprs Rg HR W clock sj IR HT).
  - intros E. rewrite E in N1. unfold start in N1. cbn [sm_us length] in N1. unfold zlen in D1. lia.
  - unfold start in N2. cbn [sm_vs] in N2. unfold zlen in D2. destruct (nonzero (sm_vs sj)) as [|v l] eqn:EZ; [cbn [length] in N2; lia|]. exists v. assert (Hv : In v (nonzero (sm_vs sj))) by (rewrite EZ; left; reflexivity). unfold nonzero in Hv. apply filter_In in Hv. destruct Hv as [Hv1 Hv2]. split; [exact Hv1|]. destruct (Req_EM_T v 0); [discriminate|assumption].
Qed.
Lemma ended_flushed : o = MRun.Ok tt -> In MRun.CFlush (MRun.w_log w').
Proof using All.
  intros Eo. pose proof HRun as H. apply PRunAll.run_inv in H. destruct H as [(_ & _ & _ & E)|[(_ & _ & e' & E & _)|(_ & w1 & ob & oc & H & _ & (n & N1 & LM & OM) & O)]]; try congruence.
  rewrite LM. apply in_or_app. right. destruct n as [|n]; [exfalso; destruct oc; [cbn in OM; discriminate|lia]|]. left. reflexivity.
Qed.
(** Put together: if no history of fewer than that many events comes to a state in which the rates of all events are zero, then the run makes all steps, and the file follows the atoms through a history of that
    many events. *)
Theorem C85_complete :
  nB = 0 -> (forall l e, others l <> MRun.Raise e) -> MRun.ct_analyse ct <> 0 -> enoughDeviates (MRun.ct_steps ct) us vs -> 0 <= MRun.ct_steps ct ->
  (forall es s T, es = [] \/ zlen es < MRun.ct_steps ct -> chainHistory L basis names prs (particleNumbers names ns) t0 es s T -> 0 < allRates L basis names prs s) ->
  let n := MRun.ct_steps ct in
  o = MRun.Ok tt /\ exists es path time models frames, zlen es = n /\ path 0 = particleNumbers names ns /\ time 0 = t0 /\ historyPath L basis names prs path time es /\ drawn md0 us vs es /\
    (forall k, 0 <= k <= n -> runSteps md0 (firstn (Z.to_nat k) us) = Some (models k) /\ reportsNumbers names kc (models k) (path k)) /\
    xyzIn header (xyzFileAfter (S * q) q header live now size maxSize maxTime ticks (MRun.w_log w')) = Some frames /\
    atomsEvery (S * q) q clock models time d n frames /\ atomPositions q (md_cf (models 0)) = sitesOf q (generateLatticeSites L basis) /\
    sm_md (MRun.w_st w') = models n /\ sm_time (MRun.w_st w') = DFin (time n).
Proof using All.
  intros HB HO HA HE HSt HL' n. destruct (C85_end HB HO HA HE HSt) as [Eo|(es & s & T & E1 & E2 & E3)]; [|exfalso; specialize (HL' es s T E1 E2); lia]. split; [exact Eo|].
  destruct (C85_file (ended_flushed Eo)) as (es & path & time & models & frames & M1 & P0 & T0 & HP & DR & RS & EX & FV & ES & _ & X). destruct (X Eo) as (X1 & X2 & X3).
  assert (Em : zlen es = n). { unfold n. rewrite X3; [lia|]. intros k m' t x v HAn. exfalso. destruct (TRun.C27_breakers _ _ _ _ _ _ _ _ _ (fun _ => 1) HRun) as (Y & _); [intros pre k' Hk; lia|]. destruct HAn as (pre & post & EL & _). specialize (Y k m' t x). rewrite EL in Y. destruct Y as (Y & _); [apply in_or_app; right; left; reflexivity|lia]. }
  rewrite Em in *. exists es, path, time, models, frames. repeat (split; [assumption|]). assumption.
Qed.
End End.

(** ** Example *)
(** the run of C79_example with an xyz trajectory that keeps copies of the types *)
Example C85_example clock : exists kl kc ki md0 w', let ct := MRun.mkControl 2 (Some 2) 1 None in
  mixedScript 10 x73pArgs = Ok (kl, kc, ki) /\ KMCLatticeModel 10 2 xhash kl kc ki = Ok (Some md0) /\
  MRun.run (simBackend clock) (withXyz 10000 1000 "HEADER" false (atomTypes (md_cf md0)) (fun _ => 0) 1000 1000 (fun k => (k, k)) (fun _ => MRun.Ok 0)) ct true 1 0 (MRun.mkWorld (mkSim md0 (DFin 0) x79us x79vs) []) = (w', MRun.Ok tt) /\
  exists es path time models frames, zlen es = 2 /\ historyPath x1L x1basis abNames (map snd x73pKprs) path time es /\ drawn md0 x79us x79vs es /\
    xyzIn "HEADER" (xyzFileAfter 10000 1000 "HEADER" false (atomTypes (md_cf md0)) (fun _ => 0) 1000 1000 (fun k => (k, k)) (MRun.w_log w')) = Some frames /\ atomsEvery 10000 1000 clock models time 2 2 frames.
Proof.
  assert (M := x79made_ok). unfold x79made in M. destruct (mixedScript 10 x73pArgs) as [[[kl kc] ki]|] eqn:E1; [|discriminate]. destruct (KMCLatticeModel 10 2 xhash kl kc ki) as [[md0|]|] eqn:E2; try discriminate. clear M.
  set (ct := MRun.mkControl 2 (Some 2) 1 None).
  destruct (MRun.run (simBackend clock) (withXyz (10 * 1000) 1000 "HEADER" false (atomTypes (md_cf md0)) (fun _ => 0) 1000 1000 (fun k => (k, k)) (fun _ => MRun.Ok 0)) ct true 1 0 (MRun.mkWorld (mkSim md0 (DFin 0) x79us x79vs) [])) as [w' o] eqn:ER.
  assert (HD : properDeviates x79us x79vs).
  { split; [repeat (constructor; [split; split; vm_compute; congruence|]); constructor|]. intros v [<-|[<-|[<-|[]]]]; lra. }
  assert (EN : enoughDeviates 2 x79us x79vs).
  { split; [vm_compute; discriminate|]. unfold nonzero, x79vs. cbn [filter]. rewrite (x79nonzero (1 / 2)), (x79nonzero (1 / 3)) by lra. destruct (Req_EM_T 0 0); unfold zlen; cbn [length]; lia. }
  destruct (C85_complete 10 2 xhash x73pArgs kl kc ki md0 x1L x1basis abNames (oneEachSite xaTypes) x73pKprs 1 ltac:(lia) x73_plain E1 E2 1000 "HEADER" false (fun _ => 0) 1000 1000 (fun k => (k, k)) clock ltac:(lia)) with
    (others := fun _ : list (@MRun.call sim) => @MRun.Ok Z 0) (t0 := 0%R) (us := x79us) (vs := x79vs) (ct := ct) (nA := 1) (nB := 0) (d := 2) (w' := w') (o := o)
    as (-> & es & path & time & models & frames & Z0 & P0 & T0 & HP & DR & RS & EX & AE & _).
  - intros n [<-|[<-|[<-|[]]]]; repeat split; discriminate.
  - discriminate.
  - exact HD.
  - reflexivity.
  - reflexivity.
  - lia.
  - exact ER.
  - reflexivity.
  - intros _ e. discriminate.
  - discriminate.
  - exact EN.
  - cbn. lia.
  - intros es s T Hl HC. eapply (alive_history _ _ _ _ 2%nat); [exact x79alive_ok| |exact HC]. cbn [ct MRun.ct_steps] in Hl. destruct Hl as [->|Hl]; [cbn; lia|]. unfold zlen in Hl. lia.
  - exists kl, kc, ki, md0, w'. cbv zeta. fold ct. split; [reflexivity|]. split; [exact E2|]. split; [exact ER|]. exists es, path, time, models, frames. auto.
Qed.

Print Assumptions C85_file.
Print Assumptions C85_end.
Print Assumptions C85_complete.
