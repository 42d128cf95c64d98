(** The states of a whole run are those of a history of the chain. *)
From Coq Require Import Reals Lra.
From Verif Require Import PBase SModel SNoUB SChain PPlain PChain PChain2 TSelect TStep TIdeal TTimer TChain PPyChain5 TPyChain TPyChain2 PTrajFile PEndFile SEnd.
From Verif Require SRun PRunLoop PRunAll PRunFrames.
Open Scope string_scope.
Open Scope list_scope.
Open Scope Z_scope.

Lemma chainHistory_snoc L basis names prs es : forall s t e v s1 t1 s2 t2, chainHistory L basis names prs s t es s1 t1 -> chainHistory L basis names prs s1 t1 [(e, v)] s2 t2 -> chainHistory L basis names prs s t (es ++ [(e, v)]) s2 t2.
Proof. induction es as [|x es IH]; intros s t e v s1 t1 s2 t2 H1 H2; inversion H1; subst; [exact H2|]. cbn [app]. econstructor; [eassumption|eassumption|]. eapply IH; eauto. Qed.

Section Path.
Context (S ranks : Z) (hash : list Z -> Z) (a : mixedArgs) (kc : kconf) (L : lattice) (basis : list coord) (names : list string) (ns : particles) (kprs : list (Z * cproc)) (Rg : Z).
Context (HR : 1 <= ranks) (W : mixedPosed S hash a L basis names ns kprs Rg) (clock : double -> Z).
Let prs := map snd kprs.
Notation B := (simBackend clock).
Notation fine := (PRunFrames.fine B).
(** a state of the backend in a run of the script: a model it came to, a time, deviates in their ranges *)
Definition inRun (s : sim) : Prop := mixedRun S ranks hash a kc (sm_md s) /\ (exists t, sm_time s = DFin t) /\ Forall (fun u => unitDeviate (fst u) /\ unitDeviate (snd u)) (sm_us s) /\ (forall v, In v (sm_vs s) -> 0 <= v < 1)%R.
Definition timeOf_ (s : sim) : R := match sm_time s with DFin t => t | _ => 0%R end.
Definition numbersAt (s : sim) : pstate := numbersOf names (asPython (shownAt kc (sm_md s))).

Lemma run_shown s : mixedRun S ranks hash a kc (sm_md s) -> typesQuery kc (md_cf (sm_md s)) = Ok (asPython (shownAt kc (sm_md s))) /\ reportsNumbers names kc (sm_md s) (numbersAt s) /\ sitesShown (shownAt kc (sm_md s)) = nsites L /\
  forall n, In n (namesShown (shownAt kc (sm_md s))) -> In n names.
Proof using HR W.
  intros RN. destruct (run_input2 _ _ _ _ _ _ _ _ _ _ _ _ HR W RN) as (cf & it & prs' & SM & LK & RC & RP). destruct (proj2 (RP _ RC _) eq_refl) as (vs & Q & _). pose proof (shownAt_query _ _ _ Q) as EV.
  split; [congruence|]. split; [exists vs; split; [exact Q|unfold numbersAt; congruence]|]. split.
  - rewrite shownAt_len. pose proof (now_len _ hash _ _ _ _ _ _ (proj1 SM) _ RC) as X. unfold numbersIn in X. rewrite zlen_map in X. exact X.
  - intros n Hn. destruct (shownAt_names _ _ _ _ Q Hn) as (y & els & Hy & Hi). destruct (lists_known _ hash _ _ _ _ _ _ (proj1 SM) _ RC y els n Hy Hi) as (k & Hk). apply (pc_names _ _ _ _ _ _ _ (proj1 SM)). exists k.
    destruct (reach_static _ _ _ _ _ _ RC) as (_ & _ & EP). congruence.
Qed.
(** one step of the backend that does not fail is an event *)
Lemma step_event s : inRun s -> fine s -> inRun (SRun.bstep B s) /\ exists e v u, chainHistory L basis names prs (numbersAt s) (timeOf_ s) [(e, v)] (numbersAt (SRun.bstep B s)) (timeOf_ (SRun.bstep B s)) /\
  sm_us s = u :: sm_us (SRun.bstep B s) /\ nonzero (sm_vs s) = v :: nonzero (sm_vs (SRun.bstep B s)) /\ singleStep (sm_md s) (fst u) (snd u) = Some (sm_md (SRun.bstep B s)) /\ lastEvent (sm_md (SRun.bstep B s)) = e.
Proof using HR W.
  intros (RN & (t & ET) & FU & FV) (FA & FP & FS). destruct s as [md t0 us vs]. cbn [sm_md sm_time sm_us sm_vs] in *. subst t0. unfold SRun.bstep in *. cbn [simBackend MRun.bk_propagate MRun.bk_single MRun.bk_avail sm_md sm_time sm_us sm_vs] in *.
  destruct (totalRate (md_in md)) as [rate|] eqn:ER; cbn [obind] in *; [|discriminate]. destruct (propagateTime (IZR rate) (DFin t) vs) as [[t1 rest]|] eqn:EP; cbn [fst snd] in *; [|discriminate]. cbn [sm_md sm_time sm_us sm_vs] in *.
  destruct us as [|[u1 u2] us]; [discriminate|]. cbn [fst snd] in *. destruct (singleStep md u1 u2) as [md'|] eqn:ES; cbn [fst snd sm_md sm_time sm_us sm_vs] in *; [|discriminate].
  inversion FU as [|? ? [U1 U2] FU']; subst. cbn [fst snd] in U1, U2.
  assert (RN' : mixedRun S ranks hash a kc md'). { destruct RN as (kl & ki & md0 & us0 & E1 & E2 & E3). exists kl, ki, md0, (us0 ++ [(u1, u2)]). split; [exact E1|]. split; [exact E2|]. eapply runSteps_snoc; eauto. }
  assert (TR : timedRun md (DFin t) [(u1, u2)] vs = Some (md', t1, rest)). { cbn [timedRun]. rewrite ER. cbn [obind]. rewrite EP. cbn [obind fst snd]. rewrite ES. reflexivity. }
  destruct (run_shown (mkSim md (DFin t) ((u1, u2) :: us) vs) RN) as (_ & RP & _). cbn [sm_md] in RP.
  destruct (C73_history S ranks hash a kc md L basis names ns kprs Rg HR W RN _ t [(u1, u2)] vs md' t1 rest RP) as (es & s' & T & CH & RP' & -> & EV & used & VU & VF); [constructor; [split; assumption|constructor]|exact FV|exact TR|].
  destruct (run_shown (mkSim md' (DFin T) us rest) RN') as (_ & RP2 & _). assert (s' = numbersAt (mkSim md' (DFin T) us rest)). { destruct RP' as (v1 & A1 & ->). destruct RP2 as (v2 & A2 & ->). cbn [sm_md] in A2. congruence. } subst s'.
  split.
  - split; [exact RN'|]. split; [exists T; reflexivity|]. split; [exact FU'|]. intros v Hv. apply FV. rewrite VU. apply in_or_app. right. exact Hv.
  - destruct EV as [EL EV]. destruct es as [|[e v] es]; [change (zlen (@nil (Z * Z * R))) with 0 in EL; rewrite zlen_cons in EL; pose proof (zlen_nonneg (@nil (deviate * deviate))); lia|]. rewrite !zlen_cons in EL. change (zlen (@nil (deviate * deviate))) with 0 in EL.
    assert (es = []) by (apply zlen_0; lia). subst es. exists e, v, (u1, u2). split; [exact CH|]. split; [reflexivity|]. split; [cbn [sm_vs]; rewrite VU; unfold nonzero; rewrite filter_app, VF; reflexivity|]. split; [exact ES|].
    destruct (EV 0 e v eq_refl) as (mdk & R1 & R2). change (Z.to_nat (0 + 1)) with 1%nat in R1. cbn [firstn] in R1. rewrite runSteps_next in R1. cbn [fst snd] in R1. rewrite ES in R1. cbn [obind] in R1. injection R1 as <-. exact R2.
Qed.
Lemma path_inRun s m : inRun s -> (forall j, 0 <= j < m -> fine (SRun.stateAt B s j)) -> forall k, 0 <= k <= m -> inRun (SRun.stateAt B s k).
Proof using HR W.
  intros H0 HF k Hk. replace k with (Z.of_nat (Z.to_nat k)) in * by lia. induction (Z.to_nat k) as [|n IH]; [exact H0|]. replace (Z.of_nat (Datatypes.S n)) with (Z.of_nat n + 1) in * by lia. rewrite PRunAll.stateAt_S by lia. apply step_event; [apply IH; lia|apply HF; lia].
Qed.
Lemma eventsOf_snoc md us es md1 u md2 v : eventsOf md us es -> runSteps md us = Some md1 -> singleStep md1 (fst u) (snd u) = Some md2 -> eventsOf md (us ++ [u]) (es ++ [(lastEvent md2, v)]).
Proof using Type.
  intros [EL EV] R1 S1. split; [rewrite !zlen_app; change (zlen [u]) with 1; change (zlen [(lastEvent md2, v)]) with 1; lia|]. intros k e w Hk. pose proof (zget_range _ _ _ Hk) as Hr. rewrite zlen_app in Hr. change (zlen [(lastEvent md2, v)]) with 1 in Hr.
  destruct (Z_lt_dec k (zlen es)) as [Hlt|Hge].
  - rewrite zget_app_l in Hk by lia. destruct (EV k e w Hk) as (mdk & A & C). exists mdk. split; [|exact C]. rewrite firstn_app. replace (Z.to_nat (k + 1) - length us)%nat with 0%nat by (unfold zlen in *; lia). cbn [firstn]. rewrite app_nil_r. exact A.
  - rewrite zget_app_r in Hk by lia. replace (k - zlen es) with 0 in Hk by lia. injection Hk as <- <-. exists md2. split; [|reflexivity]. rewrite firstn_all2 by (rewrite app_length; cbn [length]; unfold zlen in *; lia). destruct u as [u1 u2]. eapply runSteps_snoc; eauto.
Qed.
(** k steps: a history; its events are those the pairs of deviates select, its waiting times those of the other deviates *)
Lemma path_history s m : inRun s -> (forall j, 0 <= j < m -> fine (SRun.stateAt B s j)) -> forall k, 0 <= k <= m ->
  exists es used, zlen es = k /\ chainHistory L basis names prs (numbersAt s) (timeOf_ s) es (numbersAt (SRun.stateAt B s k)) (timeOf_ (SRun.stateAt B s k)) /\
  sm_us s = used ++ sm_us (SRun.stateAt B s k) /\ nonzero (sm_vs s) = map snd es ++ nonzero (sm_vs (SRun.stateAt B s k)) /\ runSteps (sm_md s) used = Some (sm_md (SRun.stateAt B s k)) /\ eventsOf (sm_md s) used es /\
  forall j e v, zget es j = Some (e, v) -> chainHistory L basis names prs (numbersAt (SRun.stateAt B s j)) (timeOf_ (SRun.stateAt B s j)) [(e, v)] (numbersAt (SRun.stateAt B s (j + 1))) (timeOf_ (SRun.stateAt B s (j + 1))).
Proof using HR W.
  intros H0 HF k Hk. replace k with (Z.of_nat (Z.to_nat k)) in * by lia. induction (Z.to_nat k) as [|n IH].
  - exists [], []. split; [reflexivity|]. split; [constructor|]. split; [reflexivity|]. split; [reflexivity|]. split; [reflexivity|]. split; [split; [reflexivity|]; intros j e v Hj; rewrite zget_nil in Hj; discriminate|]. intros j e v Hj. rewrite zget_nil in Hj. discriminate.
  - replace (Z.of_nat (Datatypes.S n)) with (Z.of_nat n + 1) in * by lia. destruct IH as (es & used & EL & EH & EU & EN & ER & EE & EP); [lia|].
    destruct (step_event (SRun.stateAt B s (Z.of_nat n))) as (_ & e & v & u & C & C1 & C2 & C3 & C4); [eapply path_inRun; eauto; lia|apply HF; lia|]. rewrite <- PRunAll.stateAt_S in C, C1, C2, C3, C4 by lia.
    exists (es ++ [(e, v)]), (used ++ [u]). split; [rewrite zlen_app, EL; reflexivity|]. split; [eapply chainHistory_snoc; eauto|]. split; [rewrite EU, C1, <- app_assoc; reflexivity|]. split; [rewrite EN, C2, map_app, <- app_assoc; reflexivity|].
    split; [destruct u as [u1 u2]; eapply runSteps_snoc; eauto|]. split; [rewrite <- C4; eapply eventsOf_snoc; eauto|].
    intros j e' v' Hj. pose proof (zget_range _ _ _ Hj) as Hr. destruct (Z_lt_dec j (zlen es)) as [Hlt|Hge]; [rewrite zget_app_l in Hj by lia; exact (EP j e' v' Hj)|]. rewrite zlen_app in Hr. change (zlen [(e, v)]) with 1 in Hr. rewrite zget_app_r in Hj by lia. replace (j - zlen es) with 0 in Hj by lia. injection Hj as <- <-. replace j with (Z.of_nat n) by lia. exact C.
Qed.
(** a state in which nothing can happen *)
Lemma avail_rates s : mixedRun S ranks hash a kc (sm_md s) -> totalAvailableSites (md_in (sm_md s)) = 0 -> allRates L basis names prs (numbersAt s) = 0.
Proof using HR W.
  intros RN A0. destruct (C73_total S ranks hash a kc (sm_md s) L basis names ns kprs Rg HR W RN) as (s' & RP & TR & _). destruct (run_shown s RN) as (_ & RP2 & _).
  assert (s' = numbersAt s). { destruct RP as (v1 & A1 & ->). destruct RP2 as (v2 & A2 & ->). congruence. } subst s'. fold prs in TR.
  destruct (run_input2 _ _ _ _ _ _ _ _ _ _ _ _ HR W RN) as (cf & it & prs' & SM & LK & RC & _). pose proof (pc_wi _ _ _ _ _ _ _ (proj1 SM)) as WI.
  assert (NE : in_procs it <> []). { intros E. pose proof (pc_len _ _ _ _ _ _ _ (proj1 SM)) as X. rewrite E in X. apply zlen_0 in X. exact (pc_some _ _ _ _ _ _ _ (proj1 SM) X). }
  destruct (C10_total_rate _ _ _ _ _ _ WI RC NE) as (T1 & _). destruct (C09_reachable _ _ _ _ _ _ WI RC) as (_ & T2). rewrite T1 in TR. injection TR as <-. rewrite T2 in A0. clear - A0. 
  assert (G : forall ps : list process, 0 <= zsum (map (fun p => zlen (events p)) ps)). { induction ps as [|p ps IH]; [cbn; lia|]. cbn [map]. rewrite zsum_cons. pose proof (zlen_nonneg (events p)). lia. }
  induction (in_procs (md_in (sm_md s))) as [|p ps IH]; [reflexivity|]. cbn [map] in *. rewrite zsum_cons in *. pose proof (zlen_nonneg (events p)). pose proof (G ps). rewrite IH by lia. assert (E : events p = []) by (apply zlen_0; lia). unfold processRate. rewrite E. reflexivity.
Qed.
(** a state with something to happen and deviates left *)
Lemma goes_on s : inRun s -> 0 < allRates L basis names prs (numbersAt s) -> sm_us s <> [] -> (exists v, In v (sm_vs s) /\ v <> 0%R) -> fine s.
Proof using HR W.
  intros (RN & (t & ET) & FU & FV) HT HU (v & Hv & Nv). assert (A : totalAvailableSites (md_in (sm_md s)) <> 0) by (intros A; rewrite (avail_rates s RN A) in HT; lia).
  destruct (C73_total S ranks hash a kc (sm_md s) L basis names ns kprs Rg HR W RN) as (s' & RP & TR & _). destruct (run_shown s RN) as (_ & RP2 & _).
  assert (s' = numbersAt s). { destruct RP as (v1 & A1 & ->). destruct RP2 as (v2 & A2 & ->). congruence. } subst s'. fold prs in TR.
  destruct s as [md t0 us vs]. cbn [sm_md sm_time sm_us sm_vs] in *. subst t0. unfold PRunFrames.fine. cbn [simBackend MRun.bk_propagate MRun.bk_single MRun.bk_avail sm_md sm_time sm_us sm_vs]. split; [exact A|]. rewrite TR. cbn [obind].
  assert (X : exists r, propagateTime (IZR (allRates L basis names prs (numbersAt (mkSim md (DFin t) us vs)))) (DFin t) vs = Some r).
  { apply IZR_lt in HT. generalize dependent (IZR (allRates L basis names prs (numbersAt (mkSim md (DFin t) us vs)))). clear - FV Hv Nv. intros rate HT. induction vs as [|w vs IH]; [destruct Hv|]. cbn [propagateTime]. pose proof (FV w (or_introl eq_refl)) as Hw. unfold dlog. destruct (Req_EM_T w 0) as [->|Hn].
    - cbn [dneg ddiv]. destruct (Rlt_dec rate 0); [lra|]. cbn [isinf]. destruct Hv as [Hv|Hv]; [congruence|]. apply IH; [intros; apply FV; right; assumption|exact Hv].
    - destruct (Rlt_dec w 0); [lra|]. cbn [dneg ddiv]. destruct (Req_EM_T rate 0); [lra|]. cbn [isinf]. eauto. }
  destruct X as [[t1 rest] ->]. cbn [fst snd sm_md sm_time sm_us sm_vs]. split; [reflexivity|]. destruct us as [|[u1 u2] us]; [congruence|]. cbn [fst snd]. inversion FU as [|? ? [U1 U2] FU']; subst. cbn [fst snd] in U1, U2.
  destruct (C73_step S ranks hash a kc md L basis names ns kprs Rg HR W RN _ u1 u2 RP2 HT U1 U2) as (md' & s' & -> & _). reflexivity.
Qed.
End Path.
