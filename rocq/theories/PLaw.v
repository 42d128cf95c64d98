(** The numbers that make a given sequence of events with given waiting times are those of a box. *)
From Coq Require Import Lra.
From Verif Require Import PBase SModel SGeo SEvent SBuild SPlain SStep SBucket SPossible SNoUB PLattice PProcess PMatcher PPerform PStep PGeo PPossible PRun PEffect PRematch PEvent PBuild PPlain PRow PStepInv PBucket PRegular PSelect TMatch TStep TSelect PIdeal PIdeal2 PPick PChain PChain2 SLaw TTimer TChain.
From Coq Require Import ZifyBool.
Open Scope string_scope.
Open Scope list_scope.
Open Scope Z_scope.

Lemma zsum_firstn_le (l : list Z) : (forall a, In a l -> 0 <= a) -> forall n, 0 <= zsum (firstn n l) <= zsum l.
Proof.
  intros H n. rewrite <- (firstn_skipn n l) at 3. rewrite zsum_app.
  assert (A : 0 <= zsum (firstn n l)) by (apply zsum_nonneg; intros a Ha; apply H; rewrite <- (firstn_skipn n l); apply in_or_app; left; exact Ha).
  assert (B : 0 <= zsum (skipn n l)) by (apply zsum_nonneg; intros a Ha; apply H; rewrite <- (firstn_skipn n l); apply in_or_app; right; exact Ha). lia.
Qed.

Section Pick.
Context (ranks : Z) (hash : list Z -> Z) (L : lattice) (cf : config) (it : interactions) (WI : wfInput ranks L cf it).
Notation sites := (sites L).
Notation n := (zlen (in_procs it)).
Context (md : model) (HR : reachable ranks hash L cf it md) (av : Z -> Z -> bool) (rate : Z -> Z -> Z).
Context (EV : forall i x r, evt (md_in md) i x r <-> 0 <= i < n /\ In x sites /\ av i x = true /\ r = rate i x).
Context (NN : forall i x, 0 <= i < n -> In x sites -> 0 <= rate i x).
Notation pointRate := (pointRate av rate).
Notation procTotal := (procTotal L av rate).
Notation grandTotal := (grandTotal L it av rate).

Lemma pick_box i x : 0 <= i < n -> In x sites -> 0 < pointRate i x ->
  exists a c, 0 <= a /\ a + procTotal i <= grandTotal /\ 0 <= c /\ c + pointRate i x <= procTotal i /\ 0 < procTotal i /\
    forall u1 u2, unitDeviate u1 -> unitDeviate u2 ->
      (pickedEvent md u1 u2 = Some (i, x) <->
       (a * dv_den u1 < dv_num u1 * grandTotal <= (a + procTotal i) * dv_den u1) /\ (c * dv_den u2 < dv_num u2 * procTotal i <= (c + pointRate i x) * dv_den u2)).
Proof using WI HR EV NN.
  intros Hi Hx HP. assert (He : av i x = true) by (unfold PPick.pointRate in HP; destruct (av i x); [reflexivity|lia]).
  assert (EPR : pointRate i x = rate i x) by (unfold PPick.pointRate; rewrite He; reflexivity).
  assert (Hr : 0 < rate i x) by lia.
  assert (EVT : evt (md_in md) i x (rate i x)) by (apply EV; auto).
  assert (NNE : forall j y r, evt (md_in md) j y r -> 0 <= r) by (intros j y r Hy; apply EV in Hy; destruct Hy as (A & B & _ & ->); apply NN; assumption).
  assert (OK : ratesOK md) by (split; [exact NNE|eauto 6]).
  destruct (reachable_info _ _ _ _ _ _ WI HR) as (cf1 & it2 & RI). pose proof (ri_inv _ _ _ _ _ _ _ _ RI) as IV. destruct (rates_facts md IV OK) as (_ & HN & _).
  destruct EVT as (p & Ep & Hin). pose proof (bi_proc _ _ (iv_binv _ IV) i p Ep) as PI.
  assert (N1 : forall y r, In (y, r) (events p) -> 0 <= r) by (intros y r Hy; apply (NNE i y r); exists p; auto).
  assert (PP : 0 < processRate p). { apply zsum_pos_of; [intros a Ha; apply in_map_iff in Ha; destruct Ha as ([y r] & <- & Hy); eauto|]. exists (rate i x). split; [apply in_map_iff; exists (x, rate i x); auto|exact Hr]. }
  pose proof (pick_processRate _ _ _ _ _ WI md HR _ _ EV i p Ep) as EPT. pose proof (pick_rates _ _ _ _ _ WI md HR _ _ EV) as EGT.
  assert (Eq : updateRateTable p = Some (set_inc p (incTable 0 (prates p)))) by (unfold updateRateTable; rewrite siteRates_prates by exact PI; reflexivity).
  destruct (In_zget _ _ Hin) as [j Ej]. pose proof (zget_range _ _ _ Ej) as Hj.
  set (rs := map processRate (in_procs (md_in md))) in *. set (ss := map snd (events p)).
  assert (R1 : zget rs i = Some (procTotal i)) by (unfold rs; rewrite zget_map, Ep; cbn [option_map]; rewrite EPT; reflexivity).
  assert (R2 : zget ss j = Some (rate i x)) by (unfold ss; rewrite zget_map, Ej; reflexivity).
  assert (G1 : zsum rs = grandTotal) by (rewrite EGT; reflexivity). assert (G2 : zsum ss = procTotal i) by (rewrite <- EPT; reflexivity).
  assert (M1 : forall a, In a rs -> 0 <= a) by (intros a Ha; apply in_map_iff in Ha; destruct Ha as (q & <- & Hq); auto).
  assert (M2 : forall a, In a ss -> 0 <= a) by (intros a Ha; apply in_map_iff in Ha; destruct Ha as ([y r] & <- & Hy); cbn; eauto).
  pose proof (zsum_firstn_S _ _ _ R1) as F1. pose proof (zsum_firstn_S _ _ _ R2) as F2.
  pose proof (zsum_firstn_le rs M1 (Z.to_nat i)) as B1. pose proof (zsum_firstn_le rs M1 (Z.to_nat (i + 1))) as B1'. pose proof (zsum_firstn_le ss M2 (Z.to_nat j)) as B2. pose proof (zsum_firstn_le ss M2 (Z.to_nat (j + 1))) as B2'.
  exists (zsum (firstn (Z.to_nat i) rs)), (zsum (firstn (Z.to_nat j) ss)). rewrite EPR, <- G2, <- G1. rewrite <- G2 in F1. split; [lia|]. split; [lia|]. split; [lia|]. split; [lia|]. split; [rewrite G2, <- EPT; exact PP|].
  intros u1 u2 U1 U2. pose proof (C13_process_selection _ _ _ _ _ _ _ i WI HR OK U1 (proj1 Hi)) as S1. fold rs in S1. unfold chosen in S1. rewrite F1 in S1.
  assert (S2 : pickSite (set_inc p (incTable 0 (prates p))) u2 = Some x <-> chosen ss u2 j).
  { rewrite (C15_site_selection _ _ _ _ _ _ _ _ _ u2 x WI HR Ep Eq N1 PP U2). split; [|intros H; exists j, (rate i x); auto].
    intros (k & r & Ek & HC). assert (k = j); [|subst; exact HC]. apply (NoDup_zget_inj (map fst (events p)) k j x).
    - rewrite events_fst by apply PI. apply PI.
    - rewrite zget_map, Ek. reflexivity.
    - rewrite zget_map, Ej. reflexivity. }
  unfold chosen in S2. rewrite F2 in S2. rewrite <- S1, <- S2. unfold pickedEvent. split.
  - intros H. ob H as i0 E1. ob H as p0 E2. ob H as q0 E3. ob H as x0 E4. injection H as -> ->. split; [first [exact E1|reflexivity]|]. assert (p0 = p) by congruence. subst p0. congruence.
  - intros [E1 E2]. rewrite E1. cbn [obind]. rewrite Ep. cbn [obind]. rewrite Eq. cbn [obind]. rewrite E2. reflexivity.
Qed.
End Pick.

(** ** The model after a step depends on the event only *)
Lemma same_pick md u1 u2 w1 w2 e : pickedEvent md u1 u2 = Some e -> pickedEvent md w1 w2 = Some e -> singleStep md u1 u2 = singleStep md w1 w2.
Proof.
  intros H K. unfold pickedEvent in H, K. ob H as i E1. ob H as p E2. ob H as q E3. ob H as x E4. injection H as <-. ob K as i' F1. ob K as p' F2. ob K as q' F3. ob K as x' F4. injection K as -> ->.
  assert (p' = p) by congruence. subst p'. assert (q' = q) by congruence. subst q'. unfold singleStep, pickProcess. rewrite E1, F1. cbn [obind]. rewrite E2. cbn [obind]. rewrite E3. cbn [obind].
  destruct (zset (in_procs (md_in md)) i q) as [ps|] eqn:ES; [|reflexivity]. cbn [obind]. cbn [set_procs in_procs]. rewrite (zset_get _ _ _ _ _ ES), Z.eqb_refl. cbn [obind]. rewrite E4, F4. reflexivity.
Qed.
(** ** Fractions and waiting times *)
Lemma frac_lt a b c d : 0 < b -> 0 < d -> (IZR a / IZR b < IZR c / IZR d)%R <-> a * d < c * b.
Proof.
  intros Hb Hd. apply IZR_lt in Hb, Hd.
  assert (E1 : (IZR a / IZR b * (IZR b * IZR d) = IZR (a * d))%R) by (rewrite mult_IZR; field; lra). assert (E2 : (IZR c / IZR d * (IZR b * IZR d) = IZR (c * b))%R) by (rewrite mult_IZR; field; lra).
  assert (HP : (0 < IZR b * IZR d)%R) by (apply Rmult_lt_0_compat; lra). split; intros H.
  - apply lt_IZR. rewrite <- E1, <- E2. apply Rmult_lt_compat_r; assumption.
  - apply (Rmult_lt_reg_r (IZR b * IZR d)); [exact HP|]. rewrite E1, E2. apply IZR_lt. exact H.
Qed.
Lemma frac_le a b c d : 0 < b -> 0 < d -> (IZR a / IZR b <= IZR c / IZR d)%R <-> a * d <= c * b.
Proof.
  intros Hb Hd. split; intros H.
  - destruct (Z_le_gt_dec (a * d) (c * b)) as [|X]; [assumption|]. exfalso. assert (Y : (IZR c / IZR d < IZR a / IZR b)%R) by (apply frac_lt; lia). lra.
  - destruct (Rle_lt_dec (IZR a / IZR b) (IZR c / IZR d)) as [|X]; [assumption|]. exfalso. apply frac_lt in X; lia.
Qed.
Lemma clock_one rate t v : (0 < rate)%R -> (0 < v < 1)%R -> propagateTime rate (DFin t) [v] = Some (DFin (t + - ln v / rate), []).
Proof. intros Hr Hv. cbn [propagateTime]. unfold dlog. destruct (Req_EM_T v 0); [lra|]. destruct (Rlt_dec v 0); [lra|]. cbn [dneg ddiv]. destruct (Req_EM_T rate 0); [lra|]. reflexivity. Qed.
Lemma clock_longer rate t v w : (0 < rate)%R -> (0 < v)%R -> (w < t + - ln v / rate - t)%R <-> (v < exp (- (rate * w)))%R.
Proof.
  intros Hr Hv. replace (t + - ln v / rate - t)%R with (- ln v / rate)%R by ring. assert (E : (- ln v / rate * rate = - ln v)%R) by (field; lra). split; intros H.
  - apply (Rmult_lt_compat_r rate) in H; [|exact Hr]. rewrite E in H. rewrite <- (exp_ln v Hv) at 1. apply exp_increasing. lra.
  - apply (Rmult_lt_reg_r rate); [exact Hr|]. rewrite E. apply ln_increasing in H; [|exact Hv]. rewrite ln_exp in H. lra.
Qed.
Lemma exp_unit r w : (0 <= r)%R -> (0 <= w)%R -> (0 <= exp (- (r * w)) <= 1)%R.
Proof.
  intros Hr Hw. split; [left; apply exp_pos|]. rewrite <- exp_0. assert (0 <= r * w)%R by (apply Rmult_le_pos; assumption). destruct (Req_dec (r * w) 0) as [->|]; [rewrite Ropp_0; lra|]. left. apply exp_increasing. lra.
Qed.
Lemma timedRun_one md t u v md1 t1 : (0 < v < 1)%R -> timedRun md (DFin t) [u] [v] = Some (md1, t1, []) <->
  exists rate, totalRate (md_in md) = Some rate /\ propagateTime (IZR rate) (DFin t) [v] = Some (t1, []) /\ singleStep md (fst u) (snd u) = Some md1.
Proof.
  intros Hv. split.
  - intros H. cbn [timedRun] in H. ob H as rate Er. ob H as r Ep. ob H as md' ES. injection H as <- <- E2. destruct r as [t2 l]. cbn [fst snd] in *. subst l. eauto 6.
  - intros (rate & E1 & E2 & E3). cbn [timedRun]. rewrite E1. cbn [obind]. rewrite E2. cbn [obind fst snd]. rewrite E3. reflexivity.
Qed.

(** ** Steps and boxes *)
Section Law.
Context (ranks : Z) (hash : list Z -> Z) (L : lattice) (basis : list coord) (names : list string) (cf : config) (it : interactions) (prs : list cproc).
Context (SI : simulated ranks hash L basis names cf it prs).
Notation rateOf pr x s := (eventRate L basis names pr x s).
Notation rates s := (allRates L basis names prs s).

Lemma made_possible md t u us v vs i x w es : reachable ranks hash L cf it md -> properNumbers (u :: us) (v :: vs) -> makes md t (u :: us) (v :: vs) ((i, x, w) :: es) ->
  exists pr, zget prs i = Some pr /\ 0 < rateOf pr x (shown names md).
Proof using SI.
  destruct SI as [CH RG]. pose proof (given_follow _ _ _ _ _ _ _ _ CH RG) as RF. intros HR [PU PV] H. inversion PU as [|? ? [U1 U2] _]; subst. inversion PV as [|? ? Hv _]; subst.
  inversion H as [|? ? ? ? ? ? ? ? ? md1 t1 HT EE HW HM]; subst. apply timedRun_one in HT; [|exact Hv]. destruct HT as (rate & E1 & E2 & E3).
  rewrite (chain_total _ _ _ _ _ _ _ _ CH RF md HR) in E1. injection E1 as <-. pose proof (chain_total_nonneg _ _ _ _ _ _ _ _ CH RF md HR) as NN.
  assert (0 < rates (shown names md)). { unfold shown. destruct (Z.eq_dec (rates (numbersIn names (md_cf md))) 0) as [E0|]; [|lia]. exfalso. rewrite E0, C60_zero_rate in E2; [discriminate|]. intros y [<-|[]]; lra. }
  pose proof (chain_step _ _ _ _ _ _ _ _ CH RF md _ _ md1 HR H0 U1 U2 E3) as HC. rewrite EE in HC. inversion HC; subst. eauto.
Qed.
Lemma law : forall es md, reachable ranks hash L cf it md -> properEvents L es ->
  exists bs, Forall properBox bs /\ zlen bs = zlen es /\ boxesVolume bs = pathLaw L basis names prs (shown names md) es /\
    forall t us vs, properNumbers us vs -> (makes md t us vs es <-> inBoxes bs us vs).
Proof using SI.
  pose proof SI as [CH RG]. pose proof (given_follow _ _ _ _ _ _ _ _ CH RG) as RF. pose proof (pc_wi _ _ _ _ _ _ _ CH) as WI.
  induction es as [|[[i x] w] es IH]; intros md HR PE.
  - exists []. split; [constructor|]. split; [reflexivity|]. split; [reflexivity|]. intros t us vs _. split; intros H; inversion H; constructor.
  - inversion PE as [|? ? [Hx Hw] PE']; subst. cbn [fst snd] in Hx, Hw. set (s := shown names md) in *.
    destruct (zget prs i) as [pr|] eqn:Ei; [destruct (Z_lt_dec 0 (rateOf pr x s)) as [HP|HP]|].
    + (* possible *)
      set (R := rates s). assert (HS : chainStep L basis names prs s (i, x) (happened L basis names pr x s)) by (constructor; assumption).
      pose proof (chain_positive _ _ _ _ _ _ _ _ CH RF md _ _ HR HS) as HT. fold (shown names md) in HT. fold s in HT. fold R in HT.
      destruct (chain_follows _ _ _ _ _ _ _ _ CH RF md _ _ HR HS) as (u1 & u2 & md1 & U1 & U2 & ES & EE & HS1). fold (shown names md1) in HS1.
      pose proof (pick_step _ _ _ _ _ WI md HR u1 u2 md1 (numbers_ok _ _ _ _ _ _ _ CH) ES) as PK. rewrite EE in PK.
      pose proof (reach_step _ _ _ _ _ _ _ _ _ HR ES) as HR1.
      assert (Hi : 0 <= i < zlen (in_procs it)) by (rewrite <- (pc_len _ _ _ _ _ _ _ CH); eapply zget_range; eauto).
      pose proof (pick_box _ _ _ _ _ WI md HR _ _ (chain_ev _ _ _ _ _ _ _ _ CH RF md HR) (chain_nn _ _ _ _ _ _ _ _ CH RF md HR) i x Hi Hx) as PB.
      rewrite (point_rate _ _ _ _ _ i pr x Ei), (grand_total _ _ _ _ _ _ _ CH) in PB. rewrite (proc_total _ _ _ _ _ i pr Ei) in PB. fold (shown names md) in PB. fold s in PB. fold R in PB.
      destruct (PB HP) as (a & c & A0 & A1 & C0 & C1 & PP & PQ). clear PB. set (P := ratesOf L basis names pr s) in *. set (r := rateOf pr x s) in *.
      destruct (IH md1 HR1 PE') as (bs & B1 & B2 & B3 & B4).
      set (b := mkBox (IZR a / IZR R) (IZR (a + P) / IZR R) (IZR c / IZR P) (IZR (c + r) / IZR P) (exp (- (IZR R * w)))).
      assert (HTr : (0 < IZR R)%R) by (apply IZR_lt; exact HT). assert (HPr : (0 < IZR P)%R) by (apply IZR_lt; exact PP).
      exists (b :: bs). split; [|split; [rewrite !zlen_cons; lia|split]].
      * constructor; [|exact B1]. unfold properBox, b. cbn [bx_lo1 bx_hi1 bx_lo2 bx_hi2 bx_top].
        assert (O : forall z y, z <= y -> 0 < y -> (IZR z / IZR y <= 1)%R). { intros z y Hz Hy. replace 1%R with (IZR 1 / IZR 1)%R by field. apply frac_le; lia. }
        assert (Q : forall z y, 0 <= z -> 0 < y -> (0 <= IZR z / IZR y)%R). { intros z y Hz Hy. replace 0%R with (IZR 0 / IZR 1)%R by field. apply frac_le; lia. }
        pose proof (exp_unit (IZR R) w ltac:(lra) Hw) as EU. split; [split; [apply Q; lia|apply frac_le; nia]|]. split; [apply O; lia|]. split; [split; [apply Q; lia|apply frac_le; nia]|]. split; [apply O; lia|exact EU].
      * cbn [boxesVolume pathLaw]. rewrite Ei, B3, HS1. fold R r. unfold boxVolume, b. cbn [bx_lo1 bx_hi1 bx_lo2 bx_hi2 bx_top]. rewrite !plus_IZR. field. split; lra.
      * intros t us vs PN. split.
        -- intros HM. inversion HM as [|? ? u us' v vs' ? ? ? md2 t2 HTR EV HW HM']; subst. destruct PN as [PU PV]. inversion PU as [|? ? [V1 V2] PU']; subst. inversion PV as [|? ? Hv PV']; subst.
           pose proof HTR as HTR'. apply timedRun_one in HTR'; [|exact Hv]. destruct HTR' as (rate & E1 & E2 & E3). rewrite (chain_total _ _ _ _ _ _ _ _ CH RF md HR) in E1. injection E1 as <-. fold (shown names md) in E2. fold s in E2. fold R in E2.
           rewrite clock_one in E2 by (assumption || lra). injection E2 as <-. apply clock_longer in HW; [|lra|lra].
           pose proof (pick_step _ _ _ _ _ WI md HR _ _ md2 (numbers_ok _ _ _ _ _ _ _ CH) E3) as PK2. rewrite EV in PK2. assert (md2 = md1) by (rewrite (same_pick _ _ _ _ _ _ PK2 PK), ES in E3; congruence). subst md2.
           constructor; [|apply (B4 (t + - ln v / IZR R)%R); [split; assumption|exact HM']]. apply PQ in PK2; [|assumption|assumption]. destruct PK2 as [[K1 K2] [K3 K4]]. unfold inBox, b, realOf. cbn [bx_lo1 bx_hi1 bx_lo2 bx_hi2 bx_top].
           repeat split; try (apply frac_lt; lia); try (apply frac_le; lia); try lra; exact HW.
        -- intros HB. inversion HB as [|? ? u us' v vs' IB HB']; subst. destruct PN as [PU PV]. inversion PU as [|? ? [V1 V2] PU']; subst. inversion PV as [|? ? Hv PV']; subst.
           unfold inBox, b, realOf in IB. cbn [bx_lo1 bx_hi1 bx_lo2 bx_hi2 bx_top] in IB. destruct IB as ([K1 K2] & [K3 K4] & [K5 K6]).
           apply frac_lt in K1; [|lia|lia]. apply frac_le in K2; [|lia|lia]. apply frac_lt in K3; [|lia|lia]. apply frac_le in K4; [|lia|lia].
           assert (PK2 : pickedEvent md (fst u) (snd u) = Some (i, x)) by (apply PQ; [assumption|assumption|split; split; lia]).
           apply (makesMore md t u us' v vs' (i, x) w es md1 (t + - ln v / IZR R)%R).
           ++ apply timedRun_one; [exact Hv|]. exists R. split; [exact (chain_total _ _ _ _ _ _ _ _ CH RF md HR)|]. split; [apply clock_one; assumption|]. rewrite (same_pick _ _ _ _ _ _ PK2 PK). exact ES.
           ++ exact EE.
           ++ apply clock_longer; [lra|lra|exact K6].
           ++ apply B4; [split; assumption|exact HB'].
    + (* rate 0 *)
      assert (E0 : rateOf pr x s = 0). { pose proof (chain_nn _ _ _ _ _ _ _ _ CH RF md HR i x) as N0. rewrite <- (pc_len _ _ _ _ _ _ _ CH) in N0. specialize (N0 (zget_range _ _ _ Ei) Hx). unfold PChain.rateOf in N0. rewrite Ei in N0. fold (shown names md) in N0. fold s in N0. lia. }
      exists (mkBox 0 0 0 0 0 :: map (fun _ => mkBox 0 0 0 0 0) es). split; [|split; [rewrite !zlen_cons, zlen_map; reflexivity|split]].
      * constructor; [unfold properBox; cbn; lra|]. apply Forall_forall. intros b Hb. apply in_map_iff in Hb. destruct Hb as (e & <- & _). unfold properBox; cbn; lra.
      * cbn [boxesVolume pathLaw]. rewrite Ei, E0. unfold boxVolume. cbn [bx_lo1 bx_hi1 bx_lo2 bx_hi2 bx_top]. unfold Rdiv. ring.
      * intros t us vs PN. split; intros H; exfalso.
        -- destruct us as [|u us]; [inversion H|]. destruct vs as [|v vs]; [inversion H|]. destruct (made_possible _ _ _ _ _ _ _ _ _ _ HR PN H) as (pr' & Ei' & HP'). fold s in HP'. assert (pr' = pr) by congruence. subst pr'. lia.
        -- inversion H as [|? ? ? ? ? ? ([K1 K2] & _) _]; subst. cbn in K1, K2. lra.
    + (* no such process *)
      exists (mkBox 0 0 0 0 0 :: map (fun _ => mkBox 0 0 0 0 0) es). split; [|split; [rewrite !zlen_cons, zlen_map; reflexivity|split]].
      * constructor; [unfold properBox; cbn; lra|]. apply Forall_forall. intros b Hb. apply in_map_iff in Hb. destruct Hb as (e & <- & _). unfold properBox; cbn; lra.
      * cbn [boxesVolume pathLaw]. rewrite Ei. unfold boxVolume. cbn [bx_lo1 bx_hi1 bx_lo2 bx_hi2 bx_top]. ring.
      * intros t us vs PN. split; intros H; exfalso.
        -- destruct us as [|u us]; [inversion H|]. destruct vs as [|v vs]; [inversion H|]. destruct (made_possible _ _ _ _ _ _ _ _ _ _ HR PN H) as (pr' & Ei' & HP'). congruence.
        -- inversion H as [|? ? ? ? ? ? ([K1 K2] & _) _]; subst. cbn in K1, K2. lra.
Qed.
End Law.
