(** C74, second part: a script run with a seed, on any number of ranks, is a history of the chain the script describes. *)
From Verif Require Import PBase SModel SNoUB MSpmd PSpmd SRandom PRandom TMpi TTimer TIdeal TChain TPyChain TPyChain2 TRandom TCache XSystems XCheck.
From Coq Require Import Lra ZifyBool.
Open Scope string_scope.
Open Scope list_scope.
Open Scope Z_scope.

Lemma realOf_unit u : 0 < dv_num u < dv_den u -> (0 <= realOf u < 1)%R.
Proof.
  intros [H1 H2]. unfold realOf. assert (A : (0 < IZR (dv_num u))%R) by (apply IZR_lt; lia). assert (B : (IZR (dv_num u) < IZR (dv_den u))%R) by (apply IZR_lt; lia).
  split; [apply Rlt_le; apply Rdiv_lt_0_compat; lra|]. apply Rmult_lt_reg_r with (IZR (dv_den u)); [lra|]. unfold Rdiv. rewrite Rmult_assoc, Rinv_l by lra. lra.
Qed.
Lemma runSteps_ranks us : forall md md', runSteps md us = Some md' -> mt_ranks (md_mt md') = mt_ranks (md_mt md).
Proof.
  induction us as [|u us IH]; intros md md' H; unfold runSteps in H; cbn [ofold] in H; [injection H as <-; reflexivity|]. ob H as md1 E. apply IH in H. rewrite H. eapply singleStep_ranks; eauto.
Qed.

Lemma filter_all {A} (f : A -> bool) l : (forall x, In x l -> f x = true) -> filter f l = l.
Proof. induction l as [|a l IH]; intros H; cbn [filter]; [reflexivity|]. rewrite (H a (or_introl eq_refl)), IH; [reflexivity|]. intros x Hx. apply H. right. exact Hx. Qed.

(** The script of C73, in the state md it has reached so far, is run on the given number of ranks with a pseudo-random generator that gives numbers strictly between 0 and 1.
    If the run ends, it is a history of the chain of the script: the same history on every rank, with the times and the events chosen by the numbers of the seeded engine in their order. *)
Theorem C74_script {E} (seeded : rng -> Z -> E) (canonical : rng -> E -> deviate * E) S ranks hash a kc md L basis names ns kprs R s fuel n c (now : Z -> Z) t (G : Z -> generators E) rs :
  1 <= ranks -> mixedPosed S hash a L basis names ns kprs R -> mixedRun S ranks hash a kc md -> reportsNumbers names kc md s -> rc_type c <> DEVICE ->
  (forall k u, In u (numbers canonical (rc_type c) (seeded (rc_type c) (usedSeed c (now 0))) k) -> 0 < dv_num u < dv_den u) ->
  together ranks (map (fun r => rankRun r seeded canonical fuel n c (now r) (Ret md) (DFin t) (G r)) (zrange 0 (ranks - 1))) rs ->
  zlen rs = ranks /\
  exists steps es s' T e,
    allNumbers steps = numbers canonical (rc_type c) (seeded (rc_type c) (usedSeed c (now 0))) (length (allNumbers steps)) /\
    chainHistory L basis names (map snd kprs) s t es s' T /\ eventsOf md (choiceNumbers steps) es /\ clockNumbers steps = map snd es /\
    (e = AllSteps /\ length es = n \/ e = NoProcess /\ (length es < n)%nat) /\
    forall x, In x rs -> exists md' g', x = Ran md' (DFin T) g' e /\ reportsNumbers names kc md' s'.
Proof.
  intros HR W RN HS Hc HU HT.
  assert (RK : mt_ranks (md_mt md) = ranks).
  { destruct (run_input2 _ _ _ _ _ _ _ _ _ _ _ _ HR W RN) as (cf & it & prs' & _ & _ & (md0 & us & M1 & M2) & _). rewrite (runSteps_ranks _ _ _ M2). apply (mkLatticeModel_ranks _ _ _ _ _ _ M1). }
  rewrite <- RK in HT. apply C74_ranks_again in HT; [|rewrite RK; exact HR|exact Hc]. rewrite RK in HT.
  pose proof (omap_length _ _ _ HT) as HL. split; [unfold zlen; rewrite HL; change (zlen (zrange 0 (ranks - 1)) = ranks); rewrite zlen_zrange; lia|].
  assert (exists x0, runAlone seeded canonical fuel n c (now 0) (Some md) (DFin t) (G 0) = Some x0) as [x0 E0].
  { unfold zrange in HT. replace (Z.to_nat (ranks - 1 - 0 + 1)) with (Datatypes.S (Z.to_nat (ranks - 1))) in HT by lia. cbn [zseq omap] in HT. destruct (runAlone seeded canonical fuel n c (now 0) (Some md) (DFin t) (G 0)); [eauto|discriminate]. }
  pose proof E0 as E1. apply C74_run in E1; [|exact Hc]. destruct E1 as (md' & t' & g' & e & steps & EX & EN & ET & EF).
  assert (UN : forall u, In u (allNumbers steps) -> 0 < dv_num u < dv_den u) by (intros u Hu; rewrite EN in Hu; eapply HU; exact Hu).
  assert (UC : Forall (fun u => unitDeviate (fst u) /\ unitDeviate (snd u)) (choiceNumbers steps)).
  { apply Forall_forall. intros u Hu. unfold choiceNumbers in Hu. apply in_map_iff in Hu. destruct Hu as (st & <- & Hst). unfold unitDeviate.
    assert (A1 : In (fst (snd st)) (allNumbers steps)) by (unfold allNumbers; apply in_flat_map; exists st; split; [exact Hst|]; apply in_or_app; right; left; reflexivity).
    assert (A2 : In (snd (snd st)) (allNumbers steps)) by (unfold allNumbers; apply in_flat_map; exists st; split; [exact Hst|]; apply in_or_app; right; right; left; reflexivity).
    apply UN in A1. apply UN in A2. destruct A1, A2. repeat split; auto using Z.lt_le_incl. }
  assert (UV : forall v, In v (clockNumbers steps) -> (0 < v < 1)%R).
  { intros v Hv. unfold clockNumbers in Hv. apply in_map_iff in Hv. destruct Hv as (u & <- & Hu). apply in_flat_map in Hu. destruct Hu as (st & Hst & Hu).
    assert (A1 : In u (allNumbers steps)) by (unfold allNumbers; apply in_flat_map; exists st; split; [exact Hst|]; apply in_or_app; left; exact Hu). apply UN in A1. destruct (realOf_unit u A1) as [_ B].
    split; [|exact B]. unfold realOf. apply Rdiv_lt_0_compat; apply IZR_lt; lia. }
  assert (UV' : forall v, In v (clockNumbers steps) -> (0 <= v < 1)%R) by (intros v Hv; apply UV in Hv; lra).
  destruct (C73_history S ranks hash a kc md L basis names ns kprs R HR W RN s t (choiceNumbers steps) (clockNumbers steps) md' t' [] HS UC UV' ET) as (es & s' & T & CH & RP & -> & EV & used & EU & FU).
  rewrite app_nil_r in EU. subst used.
  exists steps, es, s', T, e. split; [exact EN|]. split; [exact CH|]. split; [exact EV|]. split.
  - rewrite <- FU. symmetry. apply filter_all. intros v Hv. apply UV in Hv. destruct (Req_EM_T v 0) as [Z0|]; [lra|reflexivity].
  - assert (LE : length es = length steps) by (destruct EV as [LV _]; unfold zlen, choiceNumbers in LV; rewrite map_length in LV; apply Nat2Z.inj in LV; exact LV).
    split; [rewrite LE; destruct EF as [F|(F1 & F2 & _)]; auto|].
    intros x Hx. destruct (In_zget _ _ Hx) as [i Hi]. rewrite (omap_zget _ _ _ i HT) in Hi. ob Hi as r Ei. pose proof Hi as Er.
    pose proof (C74_reproducible seeded canonical fuel n c (now 0) (now 0) (Some md) (DFin t) (G 0) (G r) Hc eq_refl) as RE. rewrite E0, Er, EX in RE. cbn [option_map leaves] in RE.
    destruct x as [gx|mx tx gx ex]; cbn [leaves] in RE; [discriminate|]. injection RE as <- <- <-. do 2 eexists. split; [reflexivity|exact RP].
Qed.

(** ** A concrete case: the script of C73 with plain and bucket processes and a rate calculator, two steps on two ranks *)
Lemma toyNumbers ty k : forall e u, In u (numbers toyNext ty e k) -> 0 < dv_num u < dv_den u.
Proof.
  induction k as [|k IH]; intros e u Hu; cbn [numbers] in Hu; [contradiction|]. destruct Hu as [<-|Hu]; [|eapply IH; exact Hu].
  unfold toyNext. cbn [fst dv_num dv_den]. pose proof (Z.mod_pos_bound e 1000 ltac:(lia)). lia.
Qed.
Definition x74sCheck : bool :=
  match mixedScript 10 (x73Args (Some x73Plug)) with
  | Ok (kl, kc, ki) => match KMCLatticeModel 10 2 codeOf kl kc ki with
    | Ok (Some md) => match typesQuery kc (md_cf md) with
      | Ok _ => match toyLoop 2 MINSTD md (toySeed MINSTD 1017) with Some _ => true | None => false end
      | _ => false end
    | _ => false end
  | _ => false end.
Lemma x74s_ok : x74sCheck = true. Proof. vm_compute. reflexivity. Qed.
Strategy expand [x74sCheck].
Example C74_script_example : exists kc md s rs, mixedRun 10 2 codeOf (x73Args (Some x73Plug)) kc md /\ reportsNumbers abNames kc md s /\
  (forall k u, In u (numbers toyNext MINSTD (toySeed MINSTD 1017) k) -> 0 < dv_num u < dv_den u) /\
  together 2 (map (fun r => rankRun r toySeed toyNext 5 2 toyControl (1000 + r) (Ret md) (DFin 0) (someGens r)) (zrange 0 1)) rs /\
  exists es s' T, chainHistory x1L x1basis abNames (map snd (x73Kprs (fun k _ _ => k) (around3 169))) s 0 es s' T /\ length es = 2%nat.
Proof.
  pose proof x74s_ok as H. unfold x74sCheck in H. destruct (mixedScript 10 (x73Args (Some x73Plug))) as [[[kl kc] ki]|] eqn:E1; [|discriminate]. destruct (KMCLatticeModel 10 2 codeOf kl kc ki) as [[md|]|] eqn:E2; try discriminate.
  destruct (typesQuery kc (md_cf md)) as [vs|] eqn:E3; [|discriminate]. destruct (toyLoop 2 MINSTD md (toySeed MINSTD 1017)) as [md'|] eqn:E4; [|discriminate]. clear H.
  assert (RN : mixedRun 10 2 codeOf (x73Args (Some x73Plug)) kc md) by (exists kl, ki, md, []; auto).
  assert (RS : reportsNumbers abNames kc md (numbersOf abNames vs)) by (exists vs; auto).
  assert (RK : mt_ranks (md_mt md) = 2).
  { destruct (run_input2 _ _ _ _ _ _ _ _ _ _ _ _ (ltac:(lia) : 1 <= 2) x73_calculator RN) as (cf & it & prs' & _ & _ & (md0 & us & M1 & M2) & _). rewrite (runSteps_ranks _ _ _ M2). apply (mkLatticeModel_ranks _ _ _ _ _ _ M1). }
  destruct (toyLoop_loop 4 2 MINSTD md 0 _ _ E4) as (t' & ss & e' & EL).
  assert (ER : forall g, runAlone toySeed toyNext 5 2 toyControl 1000 (Some md) (DFin 0) g = Some (ranOf (prepared toySeed toyControl 1017 g) (md', DFin t', ss, e', AllSteps))).
  { intros g. rewrite runAlone_engine by discriminate. cbn [obind]. change (rc_type toyControl) with MINSTD. change (usedSeed toyControl 1000) with 1017. rewrite EL. reflexivity. }
  set (rs := [ranOf (prepared toySeed toyControl 1017 (someGens 0)) (md', DFin t', ss, e', AllSteps); ranOf (prepared toySeed toyControl 1017 (someGens 1)) (md', DFin t', ss, e', AllSteps)]).
  assert (HT : together 2 (map (fun r => rankRun r toySeed toyNext 5 2 toyControl (1000 + r) (Ret md) (DFin 0) (someGens r)) (zrange 0 1)) rs).
  { pose proof (proj2 (C74_ranks_again toySeed toyNext 5 2 toyControl (fun r => 1000 + r) md (DFin 0) someGens rs ltac:(rewrite RK; lia) ltac:(discriminate))) as X. rewrite RK in X. apply X. cbn [omap zrange]. change (zrange 0 (2 - 1)) with [0; 1]. cbn [omap]. change (1000 + 0) with 1000. rewrite !ER. reflexivity. }
  exists kc, md, (numbersOf abNames vs), rs. split; [exact RN|]. split; [exact RS|]. split; [intros k u; apply toyNumbers|]. split; [exact HT|].
  destruct (C74_script toySeed toyNext 10 2 codeOf (x73Args (Some x73Plug)) kc md x1L x1basis abNames x73Ns _ 1 _ 5 2 toyControl (fun r => 1000 + r) 0 someGens rs ltac:(lia) x73_calculator RN RS ltac:(discriminate) (fun k u => toyNumbers MINSTD k _ u) HT)
    as (_ & steps & es & s' & T & e & _ & CH & _ & _ & EF & HX).
  exists es, s', T. split; [exact CH|]. destruct EF as [[_ F]|[F _]]; [exact F|]. destruct (HX _ (or_introl eq_refl)) as (md2 & g2 & X & _). cbn [ranOf] in X. congruence.
Qed.

Print Assumptions C74_script.
