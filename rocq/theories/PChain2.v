(** Proofs: the rates of the events are those of the chain, with rate constants and with a rate calculator. *)
From Verif Require Import PBase SModel SGeo SEvent SBuild SPlain SStep SBucket SPossible SRates SCache PLattice PProcess PMatcher PPerform PStep PGeo PPossible PRun PEffect PRematch PEvent PBuild PPlain PRow PStepInv PBucket PRegular PRates PEnv PSelect PTypes PCache PCache2 TMatch TStep TSelect TPossible TRates TCache TNoUB PIdeal PPick PChain.
From Coq Require Import ZifyBool.
Open Scope string_scope.
Open Scope list_scope.
Open Scope Z_scope.

(** the names listed at the sites are known *)
Definition listsKnown (cf : config) : Prop := forall y els s, zget (cf_elements cf) y = Some els -> In s els -> exists k, tfind (cf_ptypes cf) s = Some k.
Lemma elementsOf_In names t els s : elementsOf names t = Some els -> In s els -> In s names.
Proof.
  unfold elementsOf. intros H Hs. ob H as ns E. inversion H; subst els. apply in_concat in Hs. destruct Hs as (l & Hl & Hs). destruct (omap_In _ _ _ _ E Hl) as (j & _ & Ej).
  unfold bget in Ej. ob Ej as n En. destruct (0 <? n); [|inversion Ej; subst l; destruct Hs]. ob Ej as a Ea. inversion Ej; subst l. apply repeat_spec in Hs. subst s. eapply zget_In; eauto.
Qed.

Section Chain.
Context (ranks : Z) (hash : list Z -> Z) (L : lattice) (basis : list coord) (names : list string) (cf : config) (it : interactions) (prs : list cproc)
        (CH : processesInput ranks L basis names cf it prs).
Notation coords := (generateLatticeSites L basis).
Notation now md := (numbersIn names (md_cf md)).

Lemma lists_known md : reachable ranks hash L cf it md -> listsKnown (md_cf md).
Proof using CH.
  pose proof (pc_ui _ _ _ _ _ _ _ CH) as UI. pose proof (user_std _ _ _ _ _ UI) as ST. revert md. apply (std_ind _ hash _ _ _ ST listsKnown).
  - destruct (ui_cf _ _ _ _ _ UI) as (cs & els & E). apply mkConfiguration_info in E. intros y e s Ee Hs. rewrite (ci_elements _ _ _ _ E) in Ee.
    pose proof (omap_zget _ _ _ y (ci_types _ _ _ _ E)) as X. rewrite Ee in X. cbn [obind] in X.
    pose proof (omap_zlen _ _ _ (ci_types _ _ _ _ E)) as Hl. destruct (zget_lt (cf_types cf) y) as [t Et]; [pose proof (zget_range _ _ _ Ee); unfold bucket in *; lia|]. rewrite Et in X. symmetry in X.
    destruct (bucketOf_known _ _ _ _ X s Hs) as (k & Hk & _). eauto.
  - intros a b [] H y els s. rewrite sc_elements, sc_ptypes. apply H.
  - intros md md' i p x ys HR HR' Ep EF H y els s Ee Hs. destruct (reach_static _ _ _ _ _ _ HR) as (_ & EN & EP). destruct (reach_static _ _ _ _ _ _ HR') as (_ & _ & EP').
    assert (D : (exists j e, zget (pr_ml p) j = Some e /\ zget ys j = Some y /\ changes e) \/ zget (cf_elements (md_cf md')) y = zget (cf_elements (md_cf md)) y).
    { destruct (in_dec Z.eq_dec y ys) as [Hi|Hi].
      - apply In_zget in Hi. destruct Hi as [j Ej]. destruct (zget_lt (pr_ml p) j) as [e Ee0]; [rewrite <- (ef_len _ _ _ _ _ _ EF); eapply zget_range; eauto|].
        destruct (changes_dec e) as [C|C]; [left; eauto|right].
        apply (ef_elements_other _ _ _ _ _ _ EF). intros j' e' E1 E2. assert (j' = j) by (eapply NoDup_zget_inj; [apply EF|exact E2|exact Ej]). subst j'. congruence.
      - right. apply (ef_elements_other _ _ _ _ _ _ EF). intros j e _ E. exfalso. apply Hi. eapply zget_In; eauto. }
    destruct D as [(j & e & E1 & E2 & C)|E1]; [|rewrite E1 in Ee; rewrite EP'; rewrite <- EP; eapply H; eauto].
    destruct (ef_elements _ _ _ _ _ _ EF j e y E1 E2 C) as (t' & els' & X1 & X2 & X3). assert (els' = els) by congruence. subst els'.
    pose proof (elementsOf_In _ _ _ _ X2 Hs) as Hn. rewrite EP'. rewrite EN in Hn. pose proof (std_names _ _ _ _ ST) as SN. destruct (names_wf _ _ (pc_pt _ _ _ _ _ _ _ CH) SN) as [N1 N2].
    apply In_zget in Hn. destruct Hn as [k Ek]. destruct (kind_name _ (pc_pt _ _ _ _ _ _ _ CH) k) as [s' Ek']; [pose proof (zget_range _ _ _ Ek); unfold bucket in *; lia|].
    pose proof (N2 _ _ Ek'). assert (s' = s) by congruence. subst s'. eauto.
Qed.
(** every state of a run is one that events lead to *)
Lemma comes_reach md : reachable ranks hash L cf it md -> comesTo L basis names prs (numbersIn names cf) (now md).
Proof using CH.
  intros (md0 & us & E0 & E1). assert (S0 : now md0 = numbersIn names cf).
  { destruct (mkLatticeModel_inv _ _ _ _ _ _ (pc_wi _ _ _ _ _ _ _ CH) E0) as (_ & _ & cf1 & it2 & it' & mt' & mls & E1' & _ & _ & _ & _ & E6 & _).
    destruct (initMatchLists_fields _ _ _ _ E1') as (ml0 & n & _ & _ & Ecf1). unfold numbersIn. rewrite E6, Ecf1. reflexivity. }
  assert (HR0 : reachable ranks hash L cf it md0) by (exists md0, []; auto).
  assert (G : forall us md1 md, reachable ranks hash L cf it md1 -> comesTo L basis names prs (numbersIn names cf) (now md1) -> runSteps md1 us = Some md -> comesTo L basis names prs (numbersIn names cf) (now md)).
  { clear - CH. induction us as [|[u1 u2] us IH]; intros md1 md HR HC H; [inversion H; subst; exact HC|]. cbn [runSteps] in H. ob H as md2 E2.
    destruct (step_happened _ hash _ _ _ _ _ _ CH md1 u1 u2 md2 HR E2) as (i & pr & x & Ei & Hx & Hc & _ & _ & EN). eapply (IH md2); [eapply reach_step; eauto| |exact H]. rewrite EN. econstructor; eauto. }
  apply (G us md0); auto. rewrite S0. constructor.
Qed.

Lemma constant_follow : constantRates it prs -> ratesFollow ranks hash L basis names cf it prs.
Proof using CH.
  intros [HC HR0]. split; [intros X; congruence|]. split.
  - intros md i x r pr HR He Ei. destruct (C10_total_rate _ _ _ _ _ _ (pc_wi _ _ _ _ _ _ _ CH) HR (procs_some _ _ _ _ _ _ _ CH)) as [_ HT]. destruct (HT HC i x r He) as (p & Ep & ->).
    symmetry. apply (HR0 i pr p Ei Ep).
  - intros md i pr x HR Ei Hx _. destruct (cproc_of _ _ _ _ _ _ _ CH i pr Ei) as [p Ep]. destruct (HR0 i pr p Ei Ep) as [A B]. rewrite B. exact A.
Qed.
Lemma amount_number md y s n : reachable ranks hash L cf it md -> 0 <= y < nsites L -> (amount (md_cf md) y s n <-> In s names /\ n = numberAt names (now md) y s).
Proof using CH.
  intros HR Hy. destruct (site_numbers _ hash _ _ _ _ _ _ CH md y HR Hy) as (t & els & Et & Ee & HW & HN). destruct (pc_names _ _ _ _ _ _ _ CH) as [ND IN].
  destruct (reach_static _ _ _ _ _ _ HR) as (_ & _ & EP). unfold amount. rewrite EP. split.
  - intros (k & t' & K1 & K2 & K3). assert (Hs : In s names) by (apply IN; eauto). split; [exact Hs|]. rewrite (numberAt_get names (md_cf md) y s els ND Hs Ee). assert (t' = t) by congruence. subst t'. rewrite (HN s k K1) in K3. congruence.
  - intros [Hs ->]. rewrite (numberAt_get names (md_cf md) y s els ND Hs Ee). apply IN in Hs. destruct Hs as [k Hk]. exists k, t. auto.
Qed.
(** what is hashed in a state that is reached *)
Lemma environment_comes md d : (forall p, In p (in_procs it) -> coversCut L basis (maxRange it) (pr_cut2 p)) -> reachable ranks hash L cf it md -> environmentIn md d ->
  comeUp L basis names (cf_names cf) prs (numbersIn names cf) (map pr_cut2 (in_procs it)) d.
Proof using CH.
  intros CV HR (i & p' & x & Ep' & Hx & (p0 & Ep0 & Hb) & Ed). assert (p0 = p') by congruence. subst p0. pose proof (pc_ui _ _ _ _ _ _ _ CH) as UI. pose proof (pc_geo _ _ _ _ _ _ _ CH) as GI. destruct (pc_names _ _ _ _ _ _ _ CH) as [ND IN].
  destruct (reachable_info _ _ _ _ _ _ (pc_wi _ _ _ _ _ _ _ CH) HR) as (cf1 & it2 & RI). rewrite (ri_lat _ _ _ _ _ _ _ _ RI) in Hx, Hb.
  destruct (reachable_proc _ _ _ _ _ _ _ _ _ _ RI Ep') as (p & q & Ep & _ & Hs & HQ).
  assert (HF : pr_cut2 p' = pr_cut2 p /\ pr_number p' = pr_number p /\ pr_basis p' = pr_basis p).
  { apply pstatic_fields in Hs. destruct Hs as (_ & _ & S3 & _ & _ & S6 & _ & S8 & _). rewrite S3, S6, S8.
    destruct HQ as [->|[_ HQ]]; [auto|]. apply expand_fields in HQ. destruct HQ as (_ & _ & -> & _ & _ & -> & _ & _ & _ & _ & _ & -> & _). auto. }
  destruct HF as (F1 & F2 & F3). destruct (zget_lt prs i) as [pr Ei]; [rewrite (pc_len _ _ _ _ _ _ _ CH); eapply zget_range; eauto|].
  destruct (pc_proc _ _ _ _ _ _ _ CH i pr p Ei Ep) as (Eb & En & PL & _). rewrite <- (spec_of prs i pr Ei) in PL. rewrite F3, Eb in Hb. destruct Hb as [Hb|[]].
  unfold hashData in Ed. ob Ed as cl Ecl. ob Ed as env Ew. inversion Ed; subst d; clear Ed. rewrite F1 in Ew. rewrite F2, En.
  pose proof (within_surroundings ranks hash L basis cf it (specOfProc prs) md UI GI (pc_wild _ _ _ _ _ _ _ CH) HR i (cp_basis pr) p p' Ep Eb PL Ep' (CV p (zget_In _ _ _ Ep)) x Hx (eq_sym Hb) cl env Ecl Ew) as SU.
  destruct (reach_static _ _ _ _ _ _ HR) as (EC & _ & _). rewrite (gi_coords _ _ _ _ _ GI) in EC. rewrite EC in SU.
  assert (ED : flat_map ce_types env = flat_map (fun y => map (numberAt names (now md) y) (cf_names cf)) (map ce_index env)).
  { pose proof (ri_inv _ _ _ _ _ _ _ _ RI) as IV. assert (HU : usedBy L (md_in md) x) by (exists i, p'; split; [exact Ep'|]; rewrite F3, Eb; left; exact Hb).
    pose proof (user_std _ _ _ _ _ UI) as ST. pose proof (rf_current _ _ _ _ _ (round_reach _ hash _ _ _ ST false ltac:(discriminate) md HR) x Hx HU cl) as CU.
    destruct (names_wf _ _ (pc_pt _ _ _ _ _ _ _ CH) (std_names _ _ _ _ ST)) as [N1 N2].
    rewrite (flat_map_concat _ (map ce_index env)), map_map, (flat_map_concat ce_types). f_equal. apply map_ext_in. intros e He. pose proof (CU e Ecl (withinCutoff_In _ _ _ _ Ew He)) as Et.
    assert (Hy : 0 <= ce_index e < nsites L). { destruct (reach_lens _ _ _ _ _ _ (pc_wi _ _ _ _ _ _ _ CH) HR) as (L1 & L2 & _). apply zget_range in Et. unfold bucket in *. lia. }
    destruct (site_numbers _ hash _ _ _ _ _ _ CH md (ce_index e) HR Hy) as (t & els & Et' & Ee & HW & HN). assert (t = ce_types e) by congruence. subst t.
    apply PBase.zget_ext. intros k. destruct (zget (ce_types e) k) as [n|] eqn:Ek.
    2: { symmetry. apply zget_None. apply zget_None in Ek. rewrite zlen_map. unfold bucket in *. lia. }
    pose proof (zget_range _ _ _ Ek) as Hk. rewrite <- Ek. rewrite zget_map. destruct (kind_name _ (pc_pt _ _ _ _ _ _ _ CH) k) as [s Es]; [unfold bucket in *; lia|].
    rewrite (HN s k Es), (N2 s k Es). cbn [option_map]. f_equal. symmetry. apply (numberAt_get names (md_cf md)); auto. apply IN. eauto. }
  rewrite ED. apply (comesUpAt _ _ _ _ _ _ _ (now md) i pr (pr_cut2 p) x (map ce_index env) (map ce_c env)); auto.
  - apply comes_reach. exact HR.
  - rewrite zget_map, Ep. reflexivity.
  - apply In_sites. exact Hx.
  - rewrite <- (basis_mod L (pc_wf _ _ _ _ _ _ _ CH)) by apply Hx. symmetry. exact Hb.
Qed.
Lemma calculator_follow rateS rateB : calculatorRates hash L basis names cf it prs rateS rateB -> ratesFollow ranks hash L basis names cf it prs.
Proof using CH.
  intros CC. pose proof (pc_ui _ _ _ _ _ _ _ CH) as UI. pose proof (pc_geo _ _ _ _ _ _ _ CH) as GI. destruct (pc_names _ _ _ _ _ _ _ CH) as [ND IN].
  assert (XG : forall x, In x (sites L) -> exists g, zget coords x = Some g).
  { intros x Hx. apply In_sites in Hx. apply zget_lt. rewrite (lattice_sites_len L (pc_wf _ _ _ _ _ _ _ CH) basis (proj1 (pc_wb _ _ _ _ _ _ _ CH))). exact Hx. }
  split; [apply CC|]. split.
  - intros md i x r pr HR He Ei. destruct (cproc_of _ _ _ _ _ _ _ CH i pr Ei) as [p Ep]. destruct (pc_proc _ _ _ _ _ _ _ CH i pr p Ei Ep) as (Eb & En & PL & _). rewrite <- (spec_of prs i pr Ei) in PL.
    pose proof (cc_cut _ _ _ _ _ _ _ _ _ CC p (zget_In _ _ _ Ep)) as CV.
    assert (ENV : exists ys ds g, surroundings L (cf_coords (md_cf md)) (pr_cut2 p) x ys ds /\ zget (cf_coords (md_cf md)) x = Some g /\
      match specOfProc prs i with
      | Plain rows => exists before after, toldPlain (md_cf md) rows ys ds before after /\ r = rateS ds before after (pr_rate p) (pr_number p) g
      | Bucket rows => exists before after, toldBucket (md_cf md) rows ys ds before after /\ r = rateB ds before after (pr_rate p) (pr_number p) g
      end).
    { destruct (cc_cache _ _ _ _ _ _ _ _ _ CC) as [HN|HN].
      - apply (C59_environment ranks hash L basis cf it (specOfProc prs) md i p (cp_basis pr) x r rateS rateB UI GI (pc_wild _ _ _ _ _ _ _ CH) (cc_custom _ _ _ _ _ _ _ _ _ CC) (cc_calculator _ _ _ _ _ _ _ _ _ CC)); auto.
        intros j q Eq. apply HN. eapply zget_In; eauto.
      - assert (HN' : cacheInput (canComeUp ranks hash L cf it) hash cf it).
        { eapply cacheInput_sub; [|exact HN]. intros d (us & b & a & m & _ & Em & Hd). apply (environment_comes m); [apply CC| |exact Hd]. unfold simulate in Em. ob Em as m0 E0. exists m0, b. auto. }
        apply (C30_cached_environment ranks hash L basis cf it (specOfProc prs) md i p (cp_basis pr) x r rateS rateB UI HN' GI (pc_wild _ _ _ _ _ _ _ CH) (cc_custom _ _ _ _ _ _ _ _ _ CC) (cc_calculator _ _ _ _ _ _ _ _ _ CC)); auto. }
    destruct ENV as (ys & ds & g & SU & Eg & TL). destruct (reach_static _ _ _ _ _ _ HR) as (EC & _). rewrite (gi_coords _ _ _ _ _ GI) in EC. rewrite EC in SU, Eg. rewrite En in TL.
    assert (YR : forall j y, zget ys j = Some y -> 0 <= y < nsites L).
    { intros j y Ey. destruct (zget_lt ds j) as [d Ed]; [rewrite <- (su_len _ _ _ _ _ _ SU); eapply zget_range; eauto|]. destruct (su_at _ _ _ _ _ _ SU j y d Ey Ed) as ((a & b & Ea & Eb' & _) & _).
      apply zget_range in Eb'. rewrite (lattice_sites_len L (pc_wf _ _ _ _ _ _ _ CH) basis (proj1 (pc_wb _ _ _ _ _ _ _ CH))) in Eb'. exact Eb'. }
    assert (HC : canHappen L basis names pr x (now md) = true).
    { apply (canHappen_spec _ hash _ _ _ _ _ _ CH md i pr x HR Ei); [|eexists; exact He]. apply In_sites. apply zget_range in Eg. rewrite (lattice_sites_len L (pc_wf _ _ _ _ _ _ _ CH) basis (proj1 (pc_wb _ _ _ _ _ _ _ CH))) in Eg. exact Eg. }
    destruct (cc_rates _ _ _ _ _ _ _ _ _ CC (now md) i pr p x g (comes_reach md HR) Ei Ep Eg HC) as [_ RT]. specialize (RT ys ds SU). rewrite (spec_of prs i pr Ei) in TL. destruct (cp_spec pr) as [rows|rows].
    + destruct TL as (before & after & [T1 T2 T3 T4] & ->). apply RT. constructor; auto. intros j y t Ey Et. destruct (T2 j y t Ey Et) as [more Ee].
      destruct (lists_known md HR y _ t Ee (or_introl eq_refl)) as [k Hk]. destruct (reach_static _ _ _ _ _ _ HR) as (_ & _ & EP). rewrite EP in Hk. assert (Hn : In t names) by (apply IN; eauto). split; [exact Hn|].
      rewrite (numberAt_get names (md_cf md) y t _ ND Hn Ee). unfold howMany. cbn [filter]. rewrite String.eqb_refl, zlen_cons. match goal with |- context [zlen ?l] => pose proof (zlen_nonneg l) end. lia.
    + destruct TL as (before & after & [T1 T2 T3 T4 T5] & ->). apply RT. constructor; auto.
      * intros j y l Ey El. split; [apply (T5 j); left; exact El|]. intros n t. rewrite (T2 j y l n t Ey El). rewrite (amount_number md y t n HR (YR j y Ey)). tauto.
      * intros j y d l rw Ey Ed El Hr Hc. split; [apply (T5 j); right; exact El|]. intros n t. rewrite (T3 j y d l rw n t Ey Ed El Hr Hc). split.
        -- intros (A & B & m & Hm & ->). apply (amount_number md y t m HR (YR j y Ey)) in Hm. destruct Hm as [Hm ->]. auto.
        -- intros (A & B & C & ->). split; [exact A|]. split; [exact C|]. eexists. split; [|reflexivity]. apply (amount_number md y t _ HR (YR j y Ey)). auto.
  - intros md i pr x HR Ei Hx HC. destruct (cproc_of _ _ _ _ _ _ _ CH i pr Ei) as [p Ep]. destruct (XG x Hx) as [g Eg].
    exact (proj1 (cc_rates _ _ _ _ _ _ _ _ _ CC (now md) i pr p x g (comes_reach md HR) Ei Ep Eg HC)).
Qed.
Lemma given_follow : ratesGiven hash L basis names cf it prs -> ratesFollow ranks hash L basis names cf it prs.
Proof using CH. intros [H|rateS rateB H]; [apply constant_follow; exact H|eapply calculator_follow; eauto]. Qed.
End Chain.
