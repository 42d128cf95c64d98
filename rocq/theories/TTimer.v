(** Theorems on the clock: C24, C60 (second part). *)
From Coq Require Import Reals Lra.
From Verif Require Import PBase SModel PProcess PStep PRun PStepInv PPlain PSelect TSelect MTimer XSystems XRows SBucket.
Open Scope list_scope.
Open Scope Z_scope.

Lemma ln_nonpos u : (0 < u <= 1)%R -> (ln u <= 0)%R.
Proof. intros [H1 H2]. destruct (Req_dec u 1) as [->|Hn]; [rewrite ln_1; lra|]. assert (ln u < ln 1)%R by (apply ln_increasing; lra). rewrite ln_1 in H. lra. Qed.
Lemma ln_neg u : (0 < u < 1)%R -> (ln u < 0)%R.
Proof. intros [H1 H2]. assert (ln u < ln 1)%R by (apply ln_increasing; lra). rewrite ln_1 in H. lra. Qed.
(** ** C24 *)
(** One advance of the clock: deviates that are zero are skipped, the first other deviate u advances the time by -ln(u)/R, which is not negative. *)
Theorem C24_increment rate t zeros u rest : (0 < rate)%R -> (forall z, In z zeros -> z = 0%R) -> (0 < u <= 1)%R ->
  propagateTime rate (DFin t) (zeros ++ u :: rest) = Some (DFin (t + - ln u / rate), rest) /\ (0 <= - ln u / rate)%R /\ ((u < 1)%R -> (0 < - ln u / rate)%R).
Proof.
  intros Hr Hz Hu. split; [|split].
  - induction zeros as [|z zs IH]; cbn [app propagateTime].
    + unfold dlog. destruct (Req_EM_T u 0); [lra|]. destruct (Rlt_dec u 0); [lra|]. cbn [dneg ddiv]. destruct (Req_EM_T rate 0); [lra|]. reflexivity.
    + rewrite (Hz z) by (left; reflexivity). unfold dlog. destruct (Req_EM_T 0 0); [|lra]. cbn [dneg ddiv]. destruct (Rlt_dec rate 0); [lra|]. cbn [isinf]. apply IH. intros y Hy. apply Hz. right. exact Hy.
  - pose proof (ln_nonpos u Hu). apply Rmult_le_pos; [lra|]. left. apply Rinv_0_lt_compat. exact Hr.
  - intros Hu1. pose proof (ln_neg u ltac:(lra)). apply Rmult_lt_0_compat; [lra|]. apply Rinv_0_lt_compat. exact Hr.
Qed.
(** whatever the total rate: if the clock advances at all, with deviates in [0,1) and a total rate that is not negative, it did so in this way *)
Lemma propagateTime_inv rate t us t' rest : (0 <= rate)%R -> (forall u, In u us -> 0 <= u < 1)%R -> propagateTime rate (DFin t) us = Some (t', rest) ->
  (0 < rate)%R /\ exists zeros u, us = zeros ++ u :: rest /\ (forall z, In z zeros -> z = 0%R) /\ (0 < u < 1)%R /\ t' = DFin (t + - ln u / rate).
Proof.
  intros Hr. induction us as [|u us IH]; intros Hus H; [discriminate|]. cbn [propagateTime] in H. assert (Hu := Hus u (or_introl eq_refl)). unfold dlog in H.
  destruct (Req_EM_T u 0) as [->|Hn].
  - cbn [dneg ddiv] in H. destruct (Rlt_dec rate 0); [lra|]. cbn [isinf] in H. destruct IH as (R1 & zeros & v & -> & Z1 & V1 & E); [intros y Hy; apply Hus; right; exact Hy|exact H|].
    split; [exact R1|]. exists (0%R :: zeros), v. split; [reflexivity|]. split; [intros z [<-|Hz]; auto|]. auto.
  - destruct (Rlt_dec u 0); [lra|]. cbn [dneg ddiv] in H. pose proof (ln_neg u ltac:(lra)) as L. destruct (Req_EM_T rate 0) as [->|Hr0].
    + destruct (Req_EM_T (- ln u) 0); [lra|]. destruct (Rlt_dec 0 (- ln u)); [|lra]. cbn [isinf] in H. destruct IH as (R1 & _); [intros y Hy; apply Hus; right; exact Hy|exact H|]. lra.
    + cbn [isinf dplus] in H. injection H as <- <-. split; [lra|]. exists [], u. split; [reflexivity|]. split; [intros z []|]. split; [lra|reflexivity].
Qed.
(** the sum of a list of reals *)
Definition rsum (l : list R) : R := fold_right Rplus 0%R l.
(** the sum of the rates of all events listed in a state *)
Definition listedRate (md : model) : Z := zsum (map processRate (in_procs (md_in md))).
Definition increment (mv : model * R) : R := (- ln (snd mv) / IZR (listedRate (fst mv)))%R.
(** A run with the clock, from any reachable state.  ms are the states in which the steps were made and the deviates used for the clock in these steps:
    the deviates are the non-zero ones, in the order in which they were drawn, and the time is the start time plus the sum of the increments -ln(v)/R. *)
Theorem C24_run ranks hash L cf it us : wfInput ranks L cf it -> in_procs it <> [] -> (forall md, reachable ranks hash L cf it md -> forall i x r, evt (md_in md) i x r -> 0 <= r) ->
  forall md t vs md' t' rest, reachable ranks hash L cf it md -> (forall v, In v vs -> 0 <= v < 1)%R ->
  timedRun md (DFin t) us vs = Some (md', t', rest) ->
  exists ms : list (model * R), zlen ms = zlen us /\ (forall i m v, zget ms i = Some (m, v) -> runSteps md (firstn (Z.to_nat i) us) = Some m /\ 0 < listedRate m /\ (0 < v < 1)%R) /\
    runSteps md us = Some md' /\ t' = DFin (t + rsum (map increment ms)) /\ (forall mv, In mv ms -> 0 < increment mv)%R /\
    exists used, vs = used ++ rest /\ filter (fun v => if Req_EM_T v 0 then false else true) used = map snd ms.
Proof.
  intros WI Hne HN. induction us as [|u us IH]; intros md t vs md' t' rest HR HV H.
  - cbn in H. injection H as <- <- <-. exists []. split; [reflexivity|]. split; [intros i m v E; rewrite zget_nil in E; discriminate|]. split; [reflexivity|]. split; [cbn; f_equal; ring|]. split; [intros mv []|]. exists []. auto.
  - cbn [timedRun] in H. destruct (totalRate (md_in md)) as [rate|] eqn:ER; [|discriminate]. cbn [obind] in H. destruct (propagateTime (IZR rate) (DFin t) vs) as [[t1 vs1]|] eqn:EP; [|discriminate]. cbn [obind fst snd] in H.
    destruct (singleStep md (fst u) (snd u)) as [md1|] eqn:ES; [|discriminate]. cbn [obind] in H.
    destruct (C10_total_rate _ _ _ _ _ _ WI HR Hne) as [ER' _]. rewrite ER in ER'. injection ER' as ER'. fold (listedRate md) in ER'.
    assert (R0 : 0 <= rate). { rewrite ER'. unfold listedRate. apply zsum_nonneg. intros x Hx. apply in_map_iff in Hx. destruct Hx as (p & <- & Hp). unfold processRate. apply zsum_nonneg. intros y Hy. apply in_map_iff in Hy. destruct Hy as ([s r] & <- & Hin).
      apply In_zget in Hp. destruct Hp as [i Ei]. apply (HN md HR i s r). exists p. auto. }
    apply propagateTime_inv in EP; [|apply IZR_le; lia|exact HV]. destruct EP as (R1 & zeros & v & -> & Z1 & V1 & ->). assert (R1' : 0 < rate) by (apply lt_IZR; exact R1).
    destruct (IH md1 (t + - ln v / IZR rate)%R vs1 md' t' rest) as (ms & N1 & G1 & S1 & T1 & I1 & used & U1 & U2); auto.
    { eapply reach_step; eauto. } { intros y Hy. apply HV. apply in_or_app. right. right. exact Hy. }
    exists ((md, v) :: ms). split; [rewrite !zlen_cons; lia|]. split; [|split; [|split; [|split]]].
    + intros i m w E. rewrite zget_cons in E. destruct (Z.eqb_spec i 0) as [->|Hi]; [injection E as <- <-; split; [reflexivity|]; split; [lia|exact V1]|].
      pose proof (zget_range _ _ _ E). destruct (G1 _ _ _ E) as (G2 & G3). split; [|exact G3]. replace (Z.to_nat i) with (S (Z.to_nat (i - 1))) by lia. cbn [firstn]. unfold runSteps. cbn [ofold]. rewrite ES. cbn [obind]. exact G2.
    + unfold runSteps. cbn [ofold]. rewrite ES. cbn [obind]. exact S1.
    + rewrite T1. cbn [map rsum fold_right]. unfold increment at 2. cbn [fst snd]. rewrite <- ER'. f_equal. unfold rsum. ring.
    + intros mv [<-|Hin]; [|apply I1; exact Hin]. unfold increment. cbn [fst snd]. rewrite <- ER'. pose proof (ln_neg v V1). apply Rmult_lt_0_compat; [lra|]. apply Rinv_0_lt_compat. exact R1.
    + exists (zeros ++ v :: used). split; [rewrite <- app_assoc, U1; reflexivity|]. rewrite filter_app. cbn [filter map snd]. destruct (Req_EM_T v 0); [lra|]. rewrite U2. replace (filter _ zeros) with (@nil R); [reflexivity|].
      clear - Z1. induction zeros as [|z zs IHz]; [reflexivity|]. cbn [filter]. rewrite (Z1 z) by (left; reflexivity). destruct (Req_EM_T 0 0); [|lra]. apply IHz. intros y Hy. apply Z1. right. exact Hy.
Qed.

(** With rate constants, none of them negative, the hypothesis on the rates holds in every reachable state. *)
Theorem C24_given_rates ranks hash L cf it : wfInput ranks L cf it -> in_custom it = false -> (forall p, In p (in_procs it) -> 0 <= pr_rate p) ->
  forall md, reachable ranks hash L cf it md -> forall i x r, evt (md_in md) i x r -> 0 <= r.
Proof.
  intros WI HC HP md HR i x r (p' & Ep & Hin). destruct (reachable_info _ _ _ _ _ _ WI HR) as (cf1 & it2 & RI). destruct (reachable_proc _ _ _ _ _ _ _ _ _ _ RI Ep) as (p & q & E1 & E2 & SQ & Hq).
  assert (F : pr_custom p' = pr_custom p /\ pr_rate p' = pr_rate p).
  { assert (pstatic q = pstatic p -> pr_custom p' = pr_custom p /\ pr_rate p' = pr_rate p) by (intros S2; rewrite <- SQ in S2; unfold pstatic in S2; split; congruence).
    destruct Hq as [->|[_ Hq]]; [auto using clearSites_static|]. pose proof (clearSites_static p) as C. unfold pstatic in SQ, C. pose proof (expand_fields _ _ _ _ Hq) as X. intuition congruence. }
  destruct F as [F1 F2]. unfold events, prates in Hin. rewrite F1, (wi_cust _ _ _ _ WI _ _ E1), HC in Hin. apply in_combine_r in Hin. apply in_map_iff in Hin. destruct Hin as (_ & <- & _). rewrite F2. apply HP. eapply zget_In; eauto.
Qed.

(** System A (two plain processes with positive rate constants, an arrangement reached after some steps), run for two further steps with four clock deviates, the first and the third of them zero. *)
Lemma skipOneZero rate t u rest : (0 < rate)%R -> (0 < u <= 1)%R -> propagateTime rate (DFin t) (0%R :: u :: rest) = Some (DFin (t + - ln u / rate), rest).
Proof. intros H1 H2. apply (C24_increment rate t [0%R] u rest H1); [intros z [<-|[]]; reflexivity|exact H2]. Qed.
Example C24_example : exists ranks hash L cf it md md' t' rest, wfInput ranks L cf it /\ in_procs it <> [] /\
  (forall md, reachable ranks hash L cf it md -> forall i x r, evt (md_in md) i x r -> 0 <= r) /\ reachable ranks hash L cf it md /\
  timedRun md (DFin 0) [(dev 1 100, dev 1 2); (dev 1 2, dev 1 2)] [0; /2; 0; /3; /5]%R = Some (md', t', rest) /\ rest = [/5]%R.
Proof.
  assert (H : xaCheck (fun cf it md md' => negb (match in_procs it with [] => true | _ => false end) && negb (in_custom it) && forallb (fun p => 0 <? pr_rate p) (in_procs it)
    && match totalRate (md_in md), totalRate (md_in md') with Some r, Some r' => (0 <? r) && (0 <? r') | _, _ => false end
    && match singleStep md' (dev 1 2) (dev 1 2) with Some _ => true | None => false end) = true) by (vm_compute; reflexivity).
  unfold xaCheck in H. apply userCheck_sound in H. destruct H as (cf & it & md & md' & US & HQ). rewrite !andb_true_iff in HQ. destruct HQ as ((((Q1 & Q2) & Q3) & Q4) & Q5).
  destruct (totalRate (md_in md)) as [r|] eqn:E1; [|discriminate]. destruct (totalRate (md_in md')) as [r'|] eqn:E2; [|discriminate]. destruct (singleStep md' (dev 1 2) (dev 1 2)) as [md2|] eqn:E3; [|discriminate].
  apply andb_true_iff in Q4. destruct Q4 as [R1 R2]. apply Z.ltb_lt in R1, R2. pose proof (IZR_lt _ _ R1) as P1. pose proof (IZR_lt _ _ R2) as P2.
  assert (WI : wfInput 2 x1L cf it) by (apply (us_input _ _ _ _ _ _ _ _ _ _ _ _ _ _ _ _ _ US)).
  exists 2, xhash, x1L, cf, it, md, md2. do 2 eexists. split; [exact WI|]. split; [destruct (in_procs it); [discriminate|congruence]|].
  split; [|split; [reached US|split; [|reflexivity]]].
  - apply C24_given_rates; [exact WI|apply negb_true_iff; exact Q2|]. intros p Hp. rewrite forallb_forall in Q3. specialize (Q3 p Hp). apply Z.ltb_lt in Q3. lia.
  - cbn [timedRun]. rewrite E1. cbn [obind]. rewrite (skipOneZero _ _ (/2)) by (assumption || lra). cbn [obind fst snd].
    rewrite (us_step _ _ _ _ _ _ _ _ _ _ _ _ _ _ _ _ _ US). cbn [obind]. rewrite E2. cbn [obind]. rewrite (skipOneZero _ _ (/3)) by (assumption || lra). cbn [obind fst snd].
    rewrite E3. cbn [obind]. reflexivity.
Qed.

(** ** C60, second part *)
(** With a total rate of zero the clock never advances, whatever deviates are drawn: the loop in propagateTime does not end. *)
Theorem C60_zero_rate t us : (forall u, In u us -> 0 <= u < 1)%R -> propagateTime 0 (DFin t) us = None.
Proof.
  intros H. destruct (propagateTime 0 (DFin t) us) as [[t' rest]|] eqn:E; [|reflexivity]. apply propagateTime_inv in E; [|lra|exact H]. destruct E as [E _]. lra.
Qed.
(** Such a state is reachable: available events, total rate zero, a process with rate constant 0. *)
Definition x0Specs : list xspec := [ plain hopRows 0 ].
Definition x0Check := userCheck 2 xhash x1L x1sites (one xaTypes) x1pt x0Specs true false norc [] (dev 1 2) (dev 1 2).
Strategy expand [x0Check].
Theorem C60_hangs_refuted : exists ranks hash L cf it spec md, userInput ranks L cf it spec /\ reachable ranks hash L cf it md /\
  0 < totalAvailableSites (md_in md) /\ totalRate (md_in md) = Some 0 /\ (forall t us, (forall u, In u us -> 0 <= u < 1)%R -> propagateTime (IZR 0) (DFin t) us = None).
Proof.
  assert (H : x0Check (fun cf it md md' => (0 <? totalAvailableSites (md_in md)) && match totalRate (md_in md) with Some 0 => true | _ => false end) = true) by (vm_compute; reflexivity).
  unfold x0Check in H. apply userCheck_sound in H. destruct H as (cf & it & md & md' & US & HQ). apply andb_true_iff in HQ. destruct HQ as [Q1 Q2].
  exists 2, xhash, x1L, cf, it, (specOf x0Specs), md. split; [inputOf US|]. split; [reached US|]. split; [apply Z.ltb_lt; exact Q1|]. split; [destruct (totalRate (md_in md)) as [[]|]; try discriminate; reflexivity|].
  intros t us Hus. apply C60_zero_rate. exact Hus.
Qed.

Print Assumptions C24_increment. Print Assumptions C24_run. Print Assumptions C24_given_rates. Print Assumptions C24_example.
Print Assumptions C60_zero_rate. Print Assumptions C60_hangs_refuted.
