(** C79: from the arguments of a script to the trajectory file: the file shows a history of the Markov chain. *)
From Coq Require Import Reals Lra.
From Verif Require Import PBase SModel PChain TPyChain2 PTrajFile TTrajFile PEndFile PEnd XRows XSystems XCheck TPyChain TPyProcess TTypes TIdeal TPossible TRates TCache TChain SIdeal.
From Verif Require Export SEnd.
From Verif Require SRun PRunLoop PRunAll PRunFrames TRun.
From Coq Require Import ZifyBool.
Open Scope string_scope.
Open Scope list_scope.
Open Scope Z_scope.

Lemma multiples_list d : 1 <= d -> forall m, 0 <= m -> SRun.multiples d m = map (fun i => i * d) (zrange 1 (m / d)).
Proof.
  intros Hd m Hm. replace m with (Z.of_nat (Z.to_nat m)) by lia. induction (Z.to_nat m) as [|n IH]; [unfold SRun.multiples; rewrite (zrange_empty 1) by lia; rewrite Z.div_0_l by lia; rewrite zrange_empty by lia; reflexivity|].
  replace (Z.of_nat (S n)) with (Z.of_nat n + 1) by lia. set (k := Z.of_nat n) in *. assert (Hk : 0 <= k) by lia. clearbody k. unfold SRun.multiples in *. rewrite zrange_snoc, filter_app by lia. replace (k + 1 - 1) with k by lia. rewrite IH. cbn [filter].
  pose proof (Z.div_mod (k + 1) d ltac:(lia)) as D1. pose proof (Z.mod_pos_bound (k + 1) d ltac:(lia)) as B1. pose proof (Z.div_mod k d ltac:(lia)) as D2. pose proof (Z.mod_pos_bound k d ltac:(lia)) as B2. pose proof (Z.div_pos k d ltac:(lia) ltac:(lia)) as P2.
  destruct (Z.eqb_spec ((k + 1) mod d) 0) as [E|E].
  - assert (X : (k + 1) / d = k / d + 1) by nia. rewrite X. rewrite (zrange_snoc 1 (k / d + 1)) by lia. replace (k / d + 1 - 1) with (k / d) by lia. rewrite map_app. cbn [map]. f_equal. f_equal. nia.
  - assert (X : (k + 1) / d = k / d) by nia. rewrite X, app_nil_r. reflexivity.
Qed.

Section End.
Context (S ranks : Z) (hash : list Z -> Z) (a : mixedArgs) (kl : klattice) (kc : kconf) (ki : kinter) (md0 : model) (L : lattice) (basis : list coord) (names : list string) (ns : particles) (kprs : list (Z * cproc)) (Rg : Z).
(** a script with proper arguments, and the model that it makes *)
Context (HR : 1 <= ranks) (W : mixedPosed S hash a L basis names ns kprs Rg) (HS : mixedScript S a = Ok (kl, kc, ki)) (HM : KMCLatticeModel S ranks hash kl kc ki = Ok (Some md0)).
(** the trajectory: times are integers in units that are q times smaller than those of the coordinates *)
Context (q u : Z) (ctime : string) (size : @latTraj Z -> Z) (maxSize maxTime : Z) (ticks : Z -> Z * Z) (clock : double -> Z).
Context (Hq : 1 <= q) (HC : quotable """" ctime) (HN : 2 <= nsites L) (HQ : forall n, In n names -> quotable """" n).
(** any analysis and breaker objects; proper deviates; a dump interval *)
Context (others : list (@MRun.call sim) -> MRun.outcome Z) (t0 : R) (us : list (deviate * deviate)) (vs : list R) (HD : properDeviates us vs) (ct : MRun.control) (nA nB d : Z) (w' : @MRun.world sim) (o : MRun.outcome unit).
Context (Ed : MRun.ct_dtime ct = None) (Edu : MRun.ct_dump ct = Some d) (Hd : 1 <= d).
Let prs := map snd kprs.
Let sites := sitesOf q (generateLatticeSites L basis).
Let start := mkSim md0 (DFin t0) us vs.
Let env := withTrajectory (S * q) u kc ctime sites size maxSize maxTime ticks others.
Context (HRun : MRun.run (simBackend clock) env ct true nA nB (MRun.mkWorld start []) = (w', o)).

Lemma start_inRun : inRun S ranks hash a kc start.
Proof using All. split; [exists kl, ki, md0, []; auto|]. split; [exists t0; reflexivity|]. exact HD. Qed.
Lemma sites_some : sites <> [].
Proof using All.
  destruct (run_input2 _ _ _ _ _ _ _ _ _ _ _ _ HR W (proj1 start_inRun)) as (cf & it & prs' & SM & _). assert (X : zlen (generateLatticeSites L basis) = nsites L).
  { pose proof (pc_wf _ _ _ _ _ _ _ (proj1 SM)) as WF. pose proof (pc_wb _ _ _ _ _ _ _ (proj1 SM)) as WB. apply PLattice.lattice_sites_len; [exact WF|apply WB]. }
  unfold sites, sitesOf. intros E. apply (f_equal (@length _)) in E. rewrite map_length in E. unfold zlen in X. cbn in E. lia.
Qed.
Lemma unit_pos : 0 < S * q.
Proof using All. pose proof (mp_unit _ _ _ _ _ _ _ _ _ W). nia. Qed.
Lemma inRun_writable s : inRun S ranks hash a kc s -> writable kc s.
Proof using All. intros (RN & _). destruct (run_shown S ranks hash a kc L basis names ns kprs Rg HR W s RN) as (Q & _ & Q2 & Q3). split; [exact Q|]. split; [lia|]. intros n Hn. apply HQ, Q3, Hn. Qed.
Lemma frames_writable m : (forall j, 0 <= j < m -> PRunFrames.fine (simBackend clock) (SRun.stateAt (simBackend clock) start j)) ->
  forall t k s, In (t, k, s) (map (SRun.atStep (simBackend clock) start) (0 :: SRun.multiples d m)) -> writable kc s.
Proof using All.
  intros FI t k s Hi. apply in_map_iff in Hi. destruct Hi as (j & E & Hj). injection E as <- <- <-. apply inRun_writable.
  destruct Hj as [<-|Hj]; [exact start_inRun|]. apply TRun.C25_multiples in Hj; [|exact Hd]. eapply (path_inRun S ranks hash a kc L basis names ns kprs Rg HR W clock start m); [exact start_inRun|exact FI|lia].
Qed.
Lemma log_shape seg tail : SRun.setups (simBackend clock) true nA start ++ seg ++ tail =
  MRun.CNew :: (MRun.CAppend (clock (DFin t0)) 0 start :: map (fun k => MRun.CSetup k (clock (DFin t0)) start) (zrange 0 (nA - 1)) ++ seg) ++ tail.
Proof using All. unfold SRun.setups. cbn [app simBackend MRun.bk_time]. rewrite <- app_assoc. reflexivity. Qed.
Lemma setup_frames ks : SRun.frames (map (fun k => MRun.CSetup k (clock (DFin t0)) start) ks) = [].
Proof using All. induction ks as [|k ks IH]; [reflexivity|]. exact IH. Qed.

(** the events are those that the first pairs of deviates select (C73_probability says how often a pair selects an event), the waiting times those of the first deviates that are not zero *)
Definition drawn (md : model) (us : list (deviate * deviate)) (vs : list R) (es : list (Z * Z * R)) : Prop := eventsOf md (firstn (length es) us) es /\ map snd es = firstn (length es) (nonzero vs).
(** If the run came to its loop: with the m steps it made, the file, executed as a Python program, has the sites of the lattice and the frames of the steps 0, d, 2d, ...  They show the states of a history of
    the chain that begins with the particles of the script.  This holds however the run ends.  If it ends normally, and no breaker ended it, it made all steps; and the configuration is that after step m. *)
Theorem C79_file fl {A} (construct : list A -> string -> list (string * pyval) -> outcome A) : In MRun.CFlush (MRun.w_log w') ->
  exists es path time frames vars, let m := zlen es in m <= Z.max 0 (MRun.ct_steps ct) /\
    path 0 = particleNumbers names ns /\ time 0 = t0 /\ historyPath L basis names prs path time es /\ drawn md0 us vs es /\
    execFile (fun m k => Some (fl m k)) construct (fileAfter (S * q) u kc ctime sites size maxSize maxTime ticks (MRun.w_log w')) = Ok (mkState vars [] false) /\
    fileVars (S * q) fl ctime sites frames vars /\ everyStep clock names path time d m frames /\
    (o = MRun.Ok tt -> reportsNumbers names kc (sm_md (MRun.w_st w')) (path m) /\ sm_time (MRun.w_st w') = DFin (time m) /\ (TRun.silent env (MRun.w_log w') -> m = Z.max 0 (MRun.ct_steps ct))).
Proof using All.
  intros HF. destruct (PRunFrames.run_frames (simBackend clock) env ct nA nB start w' o d Ed Edu ltac:(lia) HRun HF) as (seg & m & tail & M1 & LG & IN & TL & FR & FI & OUT).
  set (St k := SRun.stateAt (simBackend clock) start k). set (body := MRun.CAppend (clock (DFin t0)) 0 start :: map (fun k => MRun.CSetup k (clock (DFin t0)) start) (zrange 0 (nA - 1)) ++ seg).
  assert (EL : MRun.w_log w' = (MRun.CNew :: body ++ [MRun.CFlush]) ++ tail). { rewrite LG, log_shape. fold body. cbn [app]. rewrite <- app_assoc. reflexivity. }
  assert (FB : SRun.frames body = map (SRun.atStep (simBackend clock) start) (0 :: SRun.multiples d m)). { unfold body. change (MRun.CAppend (clock (DFin t0)) 0 start :: ?x) with ([MRun.CAppend (clock (DFin t0)) 0 start] ++ x). rewrite !PRunLoop.frames_app, setup_frames, FR. reflexivity. }
  assert (NB : ~ In MRun.CNew body). { unfold body. intros [Hc|Hc]; [discriminate|]. apply in_app_or in Hc. destruct Hc as [Hc|Hc]; [apply in_map_iff in Hc; destruct Hc as (k & ? & _); discriminate|]. exact (IN _ Hc). }
  pose proof (frames_writable m FI) as WR. rewrite <- FB in WR.
  destruct (replay_file (S * q) u kc ctime sites size maxSize maxTime ticks fl construct body unit_pos HC sites_some WR NB) as (vars & EX & FV). rewrite FB in FV.
  pose proof (path_inRun S ranks hash a kc L basis names ns kprs Rg HR W clock start m start_inRun FI) as PR.
  destruct (path_history S ranks hash a kc L basis names ns kprs Rg HR W clock start m start_inRun FI m ltac:(lia)) as (es & used & EZ & _ & EU & EV & ER & EE & EP). fold (St m) in EU, EV, ER. unfold start in EU, EV, ER, EE. cbn [sm_us sm_vs sm_md] in EU, EV, ER, EE.
  assert (DR : drawn md0 us vs es).
  { assert (Lu : length es = length used) by (destruct EE as [X _]; unfold zlen in X; lia). split; [rewrite Lu, EU, firstn_app, firstn_all, Nat.sub_diag; cbn [firstn]; rewrite app_nil_r; exact EE|]. rewrite EV, <- (map_length snd es) at 1. rewrite firstn_app, firstn_all, Nat.sub_diag. cbn [firstn]. rewrite app_nil_r. reflexivity. }
  exists es, (fun k => numbersAt kc names (St k)), (fun k => timeOf_ (St k)), (shownFrames kc (map (SRun.atStep (simBackend clock) start) (0 :: SRun.multiples d m))), vars. cbv zeta. rewrite EZ.
  split; [apply M1|]. split; [|split; [reflexivity|split; [exact EP|split; [exact DR|split; [|split; [exact FV|split]]]]]].
  - destruct (C73_start S ranks hash a kl kc ki L basis names ns kprs Rg HR HS W) as (md & E & RP). assert (md = md0) by congruence. subst md. destruct (run_shown S ranks hash a kc L basis names ns kprs Rg HR W start (proj1 start_inRun)) as (_ & RP2 & _).
    destruct RP as (v1 & A1 & ->). destruct RP2 as (v2 & A2 & X). unfold St, SRun.stateAt. cbn [Z.to_nat SRun.stepped]. unfold start in *. cbn [sm_md] in A2. congruence.
  - rewrite EL, replay_after by exact TL. exact EX.
  - unfold everyStep, shownFrames. rewrite multiples_list by lia. pose proof (Z.div_pos m d ltac:(lia) ltac:(lia)) as PD. rewrite !zlen_map, zlen_cons, zlen_map, zlen_zrange. split; [lia|].
    intros i Hi. exists (shownAt kc (sm_md (St (i * d)))). assert (Hid : 0 <= i * d <= m) by (pose proof (Z.mul_div_le m d ltac:(lia)); nia). split; [|reflexivity]. rewrite !zget_map.
    assert (Eg : zget (0 :: map (fun i => i * d) (zrange 1 (m / d))) i = Some (i * d)). { rewrite zget_cons. destruct (Z.eqb_spec i 0) as [->|Hne]; [reflexivity|]. rewrite zget_map, zget_zrange by lia. cbn [option_map]. f_equal. lia. }
    rewrite Eg. cbn [option_map SRun.atStep fst snd]. fold (St (i * d)). cbn [simBackend MRun.bk_time]. destruct (PR (i * d) Hid) as (_ & (t & Et) & _). fold (St (i * d)) in Et. unfold timeOf_. rewrite Et. reflexivity.
  - intros ->. destruct OUT as (E1 & E2). fold (St m) in E1. rewrite E1. destruct (PR m ltac:(lia)) as (RN & (t & Et) & _). fold (St m) in RN, Et. split; [apply (run_shown S ranks hash a kc L basis names ns kprs Rg HR W _ RN)|]. split; [unfold timeOf_; rewrite Et; reflexivity|].
    intros SI. destruct (TRun.C49_sequence _ _ _ _ _ _ _ _ _ HRun) as (n & N1 & ST & X). destruct (X eq_refl) as (_ & Y). rewrite <- (Y SI). rewrite LG, !PRunLoop.states_app in ST. destruct (TRun.setups_facts (simBackend clock) true nA start) as (_ & F2 & _). rewrite F2, E2 in ST. cbn [app] in ST.
    change (SRun.states (MRun.CFlush :: tail)) with (SRun.states tail) in ST. assert (ET : SRun.states tail = []). { apply PRunLoop.flat_map_nil. intros c Hc. destruct (TL c Hc) as [k ->]. reflexivity. } rewrite ET, app_nil_r in ST. apply (f_equal (@zlen _)) in ST. rewrite !zlen_map, !zlen_zrange in ST. lia.
Qed.
(** the answers of the trajectory are no exceptions, in any piece of the log that has only frames that can be written *)
Lemma never_raised (HO : forall l e, others l <> MRun.Raise e) log e : (forall t k s, In (t, k, s) (SRun.frames log) -> writable kc s) -> ~ In MRun.CNew log -> ~ SRun.raised env (MRun.CNew :: log) e.
Proof using All.
  intros HW HN' (pre & c & E & ER). unfold env in ER. destruct (rev log) as [|c' l] eqn:EL.
  - assert (log = []) by (rewrite <- (rev_involutive log), EL; reflexivity). subst log. cbn in ER. discriminate.
  - assert (EG : log = rev l ++ [c']) by (rewrite <- (rev_involutive log), EL; reflexivity). clear EL E. subst log.
    assert (D : (c' = MRun.CFlush \/ exists t k s, c' = MRun.CAppend t k s) \/ withTrajectory (S * q) u kc ctime sites size maxSize maxTime ticks others (MRun.CNew :: rev l ++ [c']) = others (MRun.CNew :: rev l ++ [c'])).
    { unfold withTrajectory. change (MRun.CNew :: rev l ++ [c']) with ((MRun.CNew :: rev l) ++ [c']). rewrite rev_app_distr. cbn [rev app]. destruct c'; auto; [exfalso; apply HN'; apply in_or_app; right; left; reflexivity|left; right; eauto]. }
    destruct D as [D|D]; [|rewrite D in ER; exact (HO _ _ ER)]. rewrite (traj_fine (S * q) u kc ctime sites size maxSize maxTime ticks others (rev l) c' unit_pos HC sites_some HW HN' D) in ER. discriminate.
Qed.
(** Without breakers, with analysis objects that raise no exceptions and with enough deviates: the run ends normally, or the chain has come to a state in which the rates of all events are zero. *)
Theorem C79_end : nB = 0 -> (forall l e, others l <> MRun.Raise e) -> MRun.ct_analyse ct <> 0 -> enoughDeviates (MRun.ct_steps ct) us vs -> 0 <= MRun.ct_steps ct ->
  o = MRun.Ok tt \/ exists es s T, (es = [] \/ zlen es < MRun.ct_steps ct) /\ chainHistory L basis names prs (particleNumbers names ns) t0 es s T /\ allRates L basis names prs s = 0.
Proof using All.
  intros HB HO HA (D1 & D2) HSt.
  case_eq o; [intros [] _; left; reflexivity|intros e Eo; right].
  assert (P0 : numbersAt kc names start = particleNumbers names ns).
  { destruct (C73_start S ranks hash a kl kc ki L basis names ns kprs Rg HR HS W) as (md & E & RP). assert (md = md0) by congruence. subst md. destruct (run_shown S ranks hash a kc L basis names ns kprs Rg HR W start (proj1 start_inRun)) as (_ & RP2 & _).
    destruct RP as (v1 & A1 & ->). destruct RP2 as (v2 & A2 & X). unfold start in *. cbn [sm_md] in A2. congruence. }
  assert (HF : In MRun.CFlush (MRun.w_log w') \/ allRates L basis names prs (numbersAt kc names start) = 0).
  { pose proof HRun as H. apply PRunAll.run_inv in H. destruct H as [(A & _)|[(_ & _ & e' & _ & (n & N1 & LE & (N2 & N3)))|(_ & w1 & ob & oc & H & _ & (n & N1 & LM & OM) & O)]].
    - right. apply (avail_rates S ranks hash a kc L basis names ns kprs Rg HR W start (proj1 start_inRun) A).
    - exfalso. cbn [app] in LE. rewrite LE in N3. destruct n as [|n]; [lia|]. unfold SRun.setups in N3. cbn [app firstn simBackend MRun.bk_time] in N3. revert N3. apply (never_raised HO).
      + intros t k s Hi. assert (Hi' : In (t, k, s) (SRun.frames (MRun.CAppend (clock (DFin t0)) 0 start :: map (fun k => MRun.CSetup k (clock (DFin t0)) start) (zrange 0 (nA - 1))))).
        { unfold SRun.frames in *. apply in_flat_map in Hi. destruct Hi as (c & Hc & Hi). apply in_flat_map. exists c. split; [|exact Hi]. apply (TRun.firstn_In n). exact Hc. }
        change (MRun.CAppend (clock (DFin t0)) 0 start :: ?x) with ([MRun.CAppend (clock (DFin t0)) 0 start] ++ x) in Hi'. rewrite PRunLoop.frames_app, setup_frames in Hi'. destruct Hi' as [E|[]]. injection E as <- <- <-. apply inRun_writable, start_inRun.
      + intros Hc. apply TRun.firstn_In in Hc. destruct Hc as [Hc|Hc]; [discriminate|]. apply in_map_iff in Hc. destruct Hc as (k & ? & _). discriminate.
    - left. rewrite LM. apply in_or_app. right. destruct n as [|n]; [exfalso; destruct oc; [cbn in OM; discriminate|lia]|]. left. reflexivity. }
  destruct HF as [HF|HF]; [|exists [], (numbersAt kc names start), t0; split; [left; reflexivity|]; split; [rewrite P0; constructor|exact HF]].
  destruct (PRunFrames.run_frames (simBackend clock) env ct nA nB start w' _ d Ed Edu ltac:(lia) HRun HF) as (seg & m & tail & M1 & LG & IN & TL & FR & FI & OUT).
  set (body := MRun.CAppend (clock (DFin t0)) 0 start :: map (fun k => MRun.CSetup k (clock (DFin t0)) start) (zrange 0 (nA - 1)) ++ seg).
  assert (FB : SRun.frames body = map (SRun.atStep (simBackend clock) start) (0 :: SRun.multiples d m)). { unfold body. change (MRun.CAppend (clock (DFin t0)) 0 start :: ?x) with ([MRun.CAppend (clock (DFin t0)) 0 start] ++ x). rewrite !PRunLoop.frames_app, setup_frames, FR. reflexivity. }
  assert (NB : ~ In MRun.CNew body). { unfold body. intros [Hc|Hc]; [discriminate|]. apply in_app_or in Hc. destruct Hc as [Hc|Hc]; [apply in_map_iff in Hc; destruct Hc as (k & ? & _); discriminate|]. exact (IN _ Hc). }
  pose proof (frames_writable m FI) as WR. rewrite <- FB in WR.
  assert (EL : MRun.w_log w' = MRun.CNew :: body ++ MRun.CFlush :: tail) by (rewrite LG, log_shape; reflexivity).
  assert (FT : SRun.frames (MRun.CFlush :: tail) = []). { apply PRunLoop.flat_map_nil. intros c [<-|Hc]; [reflexivity|]. destruct (TL c Hc) as [k ->]. reflexivity. }
  rewrite Eo in OUT. destruct OUT as [OUT|(j & J1 & J2 & J3)].
  { exfalso. rewrite EL in OUT. revert OUT. apply (never_raised HO).
    - rewrite PRunLoop.frames_app, FT, app_nil_r. exact WR.
    - intros Hc. apply in_app_or in Hc. destruct Hc as [Hc|[Hc|Hc]]; [exact (NB Hc)|discriminate|]. destruct (TL _ Hc) as [k ?]. discriminate. }
  set (sj := SRun.stateAt (simBackend clock) start j) in *.
  assert (NF : ~ PRunFrames.fine (simBackend clock) sj).
  { intros (F1 & F2 & F3). destruct J3 as [(C & _)|[C|[C|[C|[(_ & C)|[(C & _)|(k & p & C & _)]]]]]].
    - exact (F1 C).
    - rewrite C in F2. discriminate.
    - rewrite C in F3. discriminate.
    - revert C. rewrite <- (app_nil_r (SRun.setups _ _ _ _ ++ seg)), <- app_assoc, log_shape, app_nil_r. apply (never_raised HO); assumption.
    - rewrite Edu in C. destruct C as [C _]. lia.
    - exact (HA C).
    - lia. }
  assert (Hm : m = j) by (destruct J2 as [J2|J2]; [exact J2|exfalso; apply NF; apply FI; lia]). subst j.
  destruct (path_history S ranks hash a kc L basis names ns kprs Rg HR W clock start m start_inRun FI m ltac:(lia)) as (es & used & EN & EH & EU & EV & _ & EE & _). fold sj in EH, EU, EV.
  assert (N1 : Z.of_nat (length (sm_us sj)) = Z.of_nat (length (sm_us start)) - m) by (rewrite EU, app_length; destruct EE as [X _]; unfold zlen in *; lia).
  assert (N2 : Z.of_nat (length (nonzero (sm_vs sj))) = Z.of_nat (length (nonzero (sm_vs start))) - m) by (rewrite EV, app_length, map_length; unfold zlen in *; lia).
  exists es, (numbersAt kc names sj), (timeOf_ sj). split; [right; lia|]. split; [rewrite <- P0; exact EH|].
  pose proof (path_inRun S ranks hash a kc L basis names ns kprs Rg HR W clock start m start_inRun FI m ltac:(lia)) as IR. fold sj in IR.
  destruct (C73_total S ranks hash a kc (sm_md sj) L basis names ns kprs Rg HR W (proj1 IR)) as (s' & RP & _ & POS). destruct (run_shown S ranks hash a kc L basis names ns kprs Rg HR W sj (proj1 IR)) as (_ & RP2 & _).
  assert (s' = numbersAt kc names sj). { destruct RP as (v1 & A1 & ->). destruct RP2 as (v2 & A2 & ->). congruence. } subst s'.
  destruct (Z_lt_dec 0 (allRates L basis names prs (numbersAt kc names sj))) as [HT|HT]; [|unfold prs in *; lia]. exfalso. apply NF.
  apply (goes_on S ranks hash a kc L basis names ns kprs Rg HR W clock sj IR HT).
  - intros E. rewrite E in N1. unfold start in N1. cbn [sm_us length] in N1. unfold zlen in D1. lia.
  - unfold start in N2. cbn [sm_vs] in N2. unfold zlen in D2. destruct (nonzero (sm_vs sj)) as [|v l] eqn:EZ; [cbn [length] in N2; lia|]. exists v. assert (Hv : In v (nonzero (sm_vs sj))) by (rewrite EZ; left; reflexivity). unfold nonzero in Hv. apply filter_In in Hv. destruct Hv as [Hv1 Hv2]. split; [exact Hv1|]. destruct (Req_EM_T v 0); [discriminate|assumption].
Qed.
Lemma ended_flushed : o = MRun.Ok tt -> In MRun.CFlush (MRun.w_log w').
Proof using All.
  intros Eo. pose proof HRun as H. apply PRunAll.run_inv in H. destruct H as [(_ & _ & _ & E)|[(_ & _ & e' & E & _)|(_ & w1 & ob & oc & H & _ & (n & N1 & LM & OM) & O)]]; try congruence.
  rewrite LM. apply in_or_app. right. destruct n as [|n]; [exfalso; destruct oc; [cbn in OM; discriminate|lia]|]. left. reflexivity.
Qed.
(** Put together: if no history of fewer than that many events comes to a state in which the rates of all events are zero, then the run makes all steps,
    types() shows the state after the last one, and the file shows a history of that many events, from the particles of the script on, at every d-th step. *)
Theorem C79_complete fl {A} (construct : list A -> string -> list (string * pyval) -> outcome A) :
  nB = 0 -> (forall l e, others l <> MRun.Raise e) -> MRun.ct_analyse ct <> 0 -> enoughDeviates (MRun.ct_steps ct) us vs -> 0 <= MRun.ct_steps ct ->
  (forall es s T, es = [] \/ zlen es < MRun.ct_steps ct -> chainHistory L basis names prs (particleNumbers names ns) t0 es s T -> 0 < allRates L basis names prs s) ->
  let n := MRun.ct_steps ct in
  o = MRun.Ok tt /\ exists es path time frames vars, zlen es = n /\ path 0 = particleNumbers names ns /\ time 0 = t0 /\ historyPath L basis names prs path time es /\ drawn md0 us vs es /\
    execFile (fun m k => Some (fl m k)) construct (fileAfter (S * q) u kc ctime sites size maxSize maxTime ticks (MRun.w_log w')) = Ok (mkState vars [] false) /\
    fileVars (S * q) fl ctime sites frames vars /\ everyStep clock names path time d n frames /\
    reportsNumbers names kc (sm_md (MRun.w_st w')) (path n) /\ sm_time (MRun.w_st w') = DFin (time n).
Proof using All.
  intros HB HO HA HE HSt HL n. destruct (C79_end HB HO HA HE HSt) as [Eo|(es & s & T & E1 & E2 & E3)]; [|exfalso; specialize (HL es s T E1 E2); lia]. split; [exact Eo|].
  destruct (C79_file fl construct (ended_flushed Eo)) as (es & path & time & frames & vars & M1 & P0 & T0 & HP & DR & EX & FV & ES & X). destruct (X Eo) as (X1 & X2 & X3).
  assert (Em : zlen es = n). { unfold n. rewrite X3; [lia|]. intros k m' t x v HAn. exfalso. destruct (TRun.C27_breakers _ _ _ _ _ _ _ _ _ (fun _ => 1) HRun) as (Y & _); [intros pre k' Hk; lia|]. destruct HAn as (pre & post & EL & _). specialize (Y k m' t x). rewrite EL in Y. destruct Y as (Y & _); [apply in_or_app; right; left; reflexivity|lia]. }
  rewrite Em in *. exists es, path, time, frames, vars. repeat (split; [assumption|]). assumption.
Qed.
End End.

(** ** Examples *)
(** no history of fewer than n events comes to a state without events: all of them are tried *)
Fixpoint aliveFor (L : lattice) (basis : list coord) (names : list string) (prs : list cproc) (n : nat) (s : pstate) : bool :=
  match n with
  | O => true
  | Datatypes.S n => (0 <? allRates L basis names prs s) && forallb (fun pr => forallb (fun x => negb (0 <? eventRate L basis names pr x s) || aliveFor L basis names prs n (happened L basis names pr x s)) (SIdeal.sites L)) prs
  end.

Lemma alive_history L basis names prs : forall n s t es s' T, aliveFor L basis names prs n s = true -> (length es < n)%nat -> chainHistory L basis names prs s t es s' T -> 0 < allRates L basis names prs s'.
Proof.
  induction n as [|n IH]; intros s t es s' T H Hl HC; [lia|]. cbn [aliveFor] in H. apply andb_true_iff in H. destruct H as [H1 H2]. inversion HC as [|? ? e v s1 es' ? ? ST _ H3]; subst; [lia|].
  inversion ST as [i pr x Ei Hx HP]; subst. rewrite forallb_forall in H2. specialize (H2 pr (zget_In _ _ _ Ei)). rewrite forallb_forall in H2. specialize (H2 x Hx). apply orb_true_iff in H2. destruct H2 as [H2|H2]; [lia|]. cbn [length] in Hl. eapply (IH _ _ es' s' T H2); [lia|exact H3].
Qed.
Definition x79us : list (deviate * deviate) := [(dev 1 10, dev 1 3); (dev 3 4, dev 1 2)].
Definition x79vs : list R := [(1 / 2)%R; 0%R; (1 / 3)%R].
Definition x79alive : bool := aliveFor x1L x1basis abNames (map snd x73pKprs) 2 (particleNumbers abNames (oneEachSite xaTypes)).
Lemma x79alive_ok : x79alive = true. Proof. vm_compute. reflexivity. Qed.
Definition x79made : bool := match mixedScript 10 x73pArgs with Ok (kl, kc, ki) => match KMCLatticeModel 10 2 xhash kl kc ki with Ok (Some _) => true | _ => false end | _ => false end.
Lemma x79made_ok : x79made = true. Proof. vm_compute. reflexivity. Qed.
Strategy expand [x79alive x79made].
Lemma x79nonzero v : v <> 0%R -> (if Req_EM_T v 0 then false else true) = true. Proof. intros H. destruct (Req_EM_T v 0); [contradiction|reflexivity]. Qed.
(** the hopping particles of C73_example_plain: two steps, a frame every second step, an analysis object, any clock *)
Example C79_example clock : exists kl kc ki md0 w', let ct := MRun.mkControl 2 (Some 2) 1 None in let sites := sitesOf 1000 (generateLatticeSites x1L x1basis) in
  mixedScript 10 x73pArgs = Ok (kl, kc, ki) /\ KMCLatticeModel 10 2 xhash kl kc ki = Ok (Some md0) /\
  MRun.run (simBackend clock) (withTrajectory 10000 1 kc "Tue Nov 17" sites (fun _ => 0) 1000 1000 (fun k => (k, k)) (fun _ => MRun.Ok 0)) ct true 1 0 (MRun.mkWorld (mkSim md0 (DFin 0) x79us x79vs) []) = (w', MRun.Ok tt) /\
  exists es path time frames vars, zlen es = 2 /\ path 0 = particleNumbers abNames (oneEachSite xaTypes) /\ historyPath x1L x1basis abNames (map snd x73pKprs) path time es /\ drawn md0 x79us x79vs es /\
    execFile (fun m k => Some (VFloat (FNum (m + k)))) (fun (_ : list unit) _ _ => Raise KmcError) (fileAfter 10000 1 kc "Tue Nov 17" sites (fun _ => 0) 1000 1000 (fun k => (k, k)) (MRun.w_log w')) = Ok (mkState vars [] false) /\
    fileVars 10000 (fun m k => VFloat (FNum (m + k))) "Tue Nov 17" sites frames vars /\ everyStep clock abNames path time 2 2 frames.
Proof.
  assert (M := x79made_ok). unfold x79made in M. destruct (mixedScript 10 x73pArgs) as [[[kl kc] ki]|] eqn:E1; [|discriminate]. destruct (KMCLatticeModel 10 2 xhash kl kc ki) as [[md0|]|] eqn:E2; try discriminate. clear M.
  set (ct := MRun.mkControl 2 (Some 2) 1 None). set (sites := sitesOf 1000 (generateLatticeSites x1L x1basis)).
  destruct (MRun.run (simBackend clock) (withTrajectory (10 * 1000) 1 kc "Tue Nov 17" sites (fun _ => 0) 1000 1000 (fun k => (k, k)) (fun _ => MRun.Ok 0)) ct true 1 0 (MRun.mkWorld (mkSim md0 (DFin 0) x79us x79vs) [])) as [w' o] eqn:ER.
  assert (HD : properDeviates x79us x79vs).
  { split; [repeat (constructor; [split; split; vm_compute; congruence|]); constructor|]. intros v [<-|[<-|[<-|[]]]]; lra. }
  assert (EN : enoughDeviates 2 x79us x79vs).
  { split; [vm_compute; discriminate|]. unfold nonzero, x79vs. cbn [filter]. rewrite (x79nonzero (1 / 2)), (x79nonzero (1 / 3)) by lra. destruct (Req_EM_T 0 0); unfold zlen; cbn [length]; lia. }
  destruct (C79_complete 10 2 xhash x73pArgs kl kc ki md0 x1L x1basis abNames (oneEachSite xaTypes) x73pKprs 1 ltac:(lia) x73_plain E1 E2 1000 1 "Tue Nov 17" (fun _ => 0) 1000 1000 (fun k => (k, k)) clock ltac:(lia)) with
    (others := fun _ : list (@MRun.call sim) => @MRun.Ok Z 0) (t0 := 0%R) (us := x79us) (vs := x79vs) (ct := ct) (nA := 1) (nB := 0) (d := 2) (w' := w') (o := o) (fl := fun m k => VFloat (FNum (m + k))) (construct := fun (_ : list unit) (_ : string) (_ : list (string * pyval)) => @Raise unit KmcError)
    as (-> & es & path & time & frames & vars & Z0 & P0 & T0 & HP & DR & EX & FV & ES & _).
  - intros c Hc. cbn in Hc. repeat (destruct Hc as [<-|Hc]; [repeat split; discriminate|]). destruct Hc.
  - vm_compute. discriminate.
  - intros n [<-|[<-|[<-|[]]]] c Hc; cbn in Hc; repeat (destruct Hc as [<-|Hc]; [repeat split; discriminate|]); destruct Hc.
  - exact HD.
  - reflexivity.
  - reflexivity.
  - lia.
  - exact ER.
  - reflexivity.
  - intros _ e. discriminate.
  - discriminate.
  - exact EN.
  - cbn. lia.
  - intros es s T Hl HC. eapply (alive_history _ _ _ _ 2%nat); [exact x79alive_ok| |exact HC]. cbn [ct MRun.ct_steps] in Hl. destruct Hl as [->|Hl]; [cbn; lia|]. unfold zlen in Hl. lia.
  - exists kl, kc, ki, md0, w'. cbv zeta. fold ct sites. split; [reflexivity|]. split; [exact E2|]. split; [exact ER|]. exists es, path, time, frames, vars. split; [exact Z0|]. split; [exact P0|]. split; [exact HP|]. split; [exact DR|]. split; [exact EX|]. split; [exact FV|exact ES].
Qed.

Print Assumptions C79_file.
Print Assumptions C79_end.
Print Assumptions C79_complete.
