(** Processes built by the constructors are regular: the range they report covers their positions. *)
From Verif Require Import PBase SModel SGeo SEvent SBuild SPlain SStep SBucket SPossible PLattice PProcess PMatcher PStep PGeo PPossible PEvent PBuild PPlain PRow PStepInv PBucket XCheck TStep.
From Coq Require Import Sorted.
Open Scope string_scope.
Open Scope list_scope.
Open Scope Z_scope.

Lemma cmpRange_covers S x i delta : 0 < S < 100000 -> x = delta + i * S -> - S < delta < S -> cellsSeen false i delta -> Z.abs i <= Z.max 1 (cmpRange S x).
Proof.
  intros HS -> HD [H1 _]. unfold cmpRange. destruct (Z.ltb_spec (delta + i * S) 0) as [Hl|Hg].
  - destruct (Z.lt_trichotomy i 0) as [Hi|[->|Hi]]; [|lia|nia].
    rewrite Z.abs_neq by lia. apply Z.le_trans with (2 := Z.le_max_r _ _). rewrite Z.quot_div_nonneg by nia. apply Z.div_le_lower_bound; nia.
  - destruct (Z.lt_trichotomy i 0) as [Hi|[->|Hi]]; [nia|lia|]. destruct (Z.eq_dec i 1) as [->|H']; [lia|]. specialize (H1 ltac:(lia)).
    rewrite Z.abs_eq by lia. apply Z.le_trans with (2 := Z.le_max_r _ _). rewrite Z.quot_div_nonneg by nia. apply Z.div_le_lower_bound; nia.
Qed.
Lemma sqrt_covers S x i delta d2 : 0 < S -> x = delta + i * S -> cellsSeen true i delta -> x * x <= d2 -> Z.abs i <= Z.max 1 (Z.sqrt d2 / S).
Proof.
  intros HS -> [H1 H2] HD. destruct (Z_le_dec (Z.abs i) 1) as [|H']; [lia|]. apply Z.le_trans with (2 := Z.le_max_r _ _). apply Z.div_le_lower_bound; [lia|]. apply Z.sqrt_le_square; [nia|nia|].
  destruct (Z.lt_trichotomy i 0) as [Hi|[->|Hi]]; [specialize (H2 ltac:(lia) eq_refl); rewrite Z.abs_neq by lia; nia|nia|]. specialize (H1 ltac:(lia)). rewrite Z.abs_eq by lia. nia.
Qed.

(** the number of cells reported by the constructor *)
Definition covers (S : Z) (p : process) (c : coord) : Prop :=
  if pr_custom p then cnorm2 c <= pr_cut2 p /\ pr_range p = Z.sqrt (pr_cut2 p) / S
  else cmpRange S (cx c) <= pr_range p /\ cmpRange S (cy c) <= pr_range p /\ cmpRange S (cz c) <= pr_range p.

Lemma mkProcess_covers S first second rate basis origins vectors number p : zget (cf_coords first) 0 = Some czero -> zlen (cf_elements first) = zlen (cf_coords first) ->
  mkProcess S first second rate basis origins vectors number = Some p ->
  pr_custom p = false /\ forall c, In c (cf_coords first) -> covers S p c /\ cnorm2 c <= pr_cut2 p.
Proof.
  intros E0 HL H. unfold mkProcess in H. ob H as acc Eacc. ob H as l El. inversion H; subst p; clear H. cbn [pr_custom]. split; [reflexivity|].
  unfold configurationsToMatchList in Eacc. ob Eacc as upd Eupd. rewrite E0 in Eacc. cbn [obind] in Eacc.
  destruct (mlFold_spec _ _ _ _ _ _ _ _ Eacc) as (es & M1 & M2 & M3 & _ & M5 & M6 & M7 & M8). cbn [ml_range ml_cut2] in *.
  intros c Hc. unfold covers. cbn [pr_custom pr_range pr_cut2]. apply In_zget in Hc. destruct Hc as [i Ei]. apply zget_range in Ei as Hr.
  pose proof (M3 i) as Z1. rewrite zget_zrange in Z1 by lia. rewrite Z.add_0_l in Z1. cbn [obind] in Z1. rewrite Ei in Z1. cbn [obind] in Z1.
  destruct (zget_lt es i) as [e Ee]; [rewrite M2, zlen_zrange; lia|]. rewrite Ee in Z1. symmetry in Z1. ob Z1 as t Et. ob Z1 as u Eu. inversion Z1; subst e.
  apply zget_In in Ee. pose proof (M6 _ Ee) as Q. pose proof (M8 _ Ee) as Q'. cbn [pe_c pe_d2] in Q, Q'. split; [exact Q|].
  replace (csub c czero) with c in Q' by (unfold csub, czero; cbn; rewrite !Z.sub_0_r; destruct c; reflexivity). exact Q'.
Qed.
Lemma mkCustom_covers S first second rate basis cutoff origins vectors number cache p : zget (cf_coords first) 0 = Some czero -> zlen (cf_elements first) = zlen (cf_coords first) ->
  mkCustomProcess S first second rate basis cutoff origins vectors number cache = Some p -> forall c, In c (cf_coords first) -> covers S p c.
Proof.
  intros E0 HL H c Hc. unfold mkCustomProcess in H. ob H as p0 Ep0. destruct (mkProcess_covers _ _ _ _ _ _ _ _ _ E0 HL Ep0) as [_ Q]. destruct (Q c Hc) as [_ Q2].
  inversion H; subst p; clear H. unfold covers. cbn [pr_custom pr_cut2 pr_range]. split; [|reflexivity].
  destruct ((0 <=? cutoff) && (pr_cut2 p0 <? cutoff * cutoff)) eqn:E; [|exact Q2]. apply andb_true_iff in E. destruct E as [_ E]. apply Z.ltb_lt in E. lia.
Qed.
Lemma built_covers S pt sp p : builtFrom S pt sp p -> zget (positions sp) 0 = Some czero -> forall c, In c (positions sp) -> covers S p c.
Proof.
  intros B E0 c Hc. destruct sp as [rows|rows]; cbn [builtFrom positions] in *.
  - destruct B as [_ (basis & first & second & origins & vectors & rate & number & E1 & E2 & MG & H)].
    apply mkConfiguration_info in E1. destruct E1 as [A1 A2 _ _ _ _ _ _ _ _ _].
    assert (HL : zlen (cf_elements first) = zlen (cf_coords first)) by (rewrite A1, A2, !zlen_map; reflexivity). rewrite <- A1 in E0, Hc.
    destruct H as [H|(cutoff & cache & H)]; [apply (mkProcess_covers _ _ _ _ _ _ _ _ _ E0 HL H); exact Hc|eapply mkCustom_covers; eauto].
  - destruct B as [_ (basis & first & rate & number & E1 & H)].
    apply mkConfiguration_info in E1. destruct E1 as [A1 A2 _ _ _ _ _ _ _ _ _].
    assert (HL : zlen (cf_elements first) = zlen (cf_coords first)) by (rewrite A1, A2, !zlen_map; reflexivity). rewrite <- A1 in E0, Hc.
    destruct H as [H|(cutoff & cache & H)]; [apply (mkProcess_covers _ _ _ _ _ _ _ _ _ E0 HL H); exact Hc|eapply mkCustom_covers; eauto].
Qed.

Lemma unit_diff L basis b b' beta beta' : wf_basis L basis -> zget basis b = Some beta -> zget basis b' = Some beta' ->
  (- lt_unit L < cx beta' - cx beta < lt_unit L) /\ (- lt_unit L < cy beta' - cy beta < lt_unit L) /\ (- lt_unit L < cz beta' - cz beta < lt_unit L).
Proof.
  intros (_ & F & _) E1 E2. rewrite Forall_forall in F. apply zget_In in E1, E2. apply F in E1, E2. unfold inUnitCell in *. lia.
Qed.
Lemma covers_reach L basis R b p c : wf_lattice L -> wf_basis L basis -> lt_unit L < 100000 -> 1 <= R -> pr_range p <= R ->
  covers (lt_unit L) p c -> leadsOn L basis (pr_custom p) b c -> inReach L basis R b c.
Proof.
  intros WF WB HS HR1 HR HC (b' & beta & beta' & i & j & k & E1 & E2 & (X1 & X2 & X3 & X4) & (Y1 & Y2 & Y3 & Y4) & (Z1 & Z2 & Z3 & Z4)).
  destruct (unit_diff _ _ _ _ _ _ WB E1 E2) as (D1 & D2 & D3). assert (HU : 0 < lt_unit L) by (destruct WF; lia).
  assert (HB : Z.abs i <= R /\ Z.abs j <= R /\ Z.abs k <= R).
  { unfold covers in HC. destruct (pr_custom p) eqn:Ec.
    - destruct HC as [C1 C2]. unfold cnorm2 in C1.
      pose proof (sqrt_covers _ _ _ _ (pr_cut2 p) HU X1 X2 ltac:(nia)). pose proof (sqrt_covers _ _ _ _ (pr_cut2 p) HU Y1 Y2 ltac:(nia)). pose proof (sqrt_covers _ _ _ _ (pr_cut2 p) HU Z1 Z2 ltac:(nia)). lia.
    - destruct HC as (C1 & C2 & C3). pose proof (cmpRange_covers _ _ _ _ (conj HU HS) X1 D1 X2). pose proof (cmpRange_covers _ _ _ _ (conj HU HS) Y1 D2 Y2). pose proof (cmpRange_covers _ _ _ _ (conj HU HS) Z1 D3 Z2). lia. }
  assert (HX : forall pp rep n, (pp = false -> n = 0) -> Z.abs n <= R -> reach1 pp rep R n) by (intros [] rep n H1 H2; unfold reach1; [exists 0; rewrite Z.mul_0_l, Z.add_0_r; exact H2|auto]).
  exists b', beta, beta', i, j, k. split; [exact E1|]. split; [exact E2|].
  split; [apply HX; tauto|]. split; [apply HX; tauto|]. split; [apply HX; tauto|]. split; [|split; [exact X4|split; [exact Y4|exact Z4]]].
  rewrite <- X1, <- Y1, <- Z1. destruct c; reflexivity.
Qed.

Lemma isort_idem L basis R b es : wf_lattice L -> lt_unit L < 100000 -> cleanPts (lt_unit L) (inReach L basis R b) ->
  (forall e, In e es -> goodP (inReach L basis R b) e) -> isort (peLt (lt_unit L)) (isort (peLt (lt_unit L)) es) = isort (peLt (lt_unit L)) es.
Proof.
  intros WF HS HC HG. assert (HL : forall a c, goodP (inReach L basis R b) a -> goodP (inReach L basis R b) c -> peLt (lt_unit L) a c = clt (pe_c a) (pe_c c)).
  { intros a c [A1 A2] [B1 B2]. unfold peLt. rewrite A1, B1. apply (pointLt_clean (lt_unit L) ltac:(destruct WF; lia) _ HC); auto. }
  assert (HSt : StronglySorted (nlt (peLt (lt_unit L))) (isort (peLt (lt_unit L)) es)).
  { apply isort_sorted with (D := goodP (inReach L basis R b)).
    - intros x y Hx Hy. rewrite !HL by auto. apply clt_asym.
    - intros x y z Hx Hy Hz. unfold nlt. rewrite !HL by auto. intros H1 H2. eapply cltn_trans; eauto.
    - apply Forall_forall. exact HG. }
  apply isort_of_sorted. intros a c l1 l2 E. rewrite E in HSt. clear -HSt. induction l1 as [|x l1 IH]; cbn [app] in HSt; inversion HSt; subst; [|apply IH; assumption].
  inversion H2; subst. assumption.
Qed.

Section Regular.
Context (ranks : Z) (L : lattice) (basis : list coord) (W : Z) (cf : config) (it : interactions) (spec : Z -> pspec).
Context (UI : userInput ranks L cf it spec) (GI : geoInput L basis (maxRange it) W cf).
Context (i : Z) (p : process) (b : Z) (Ep : zget (in_procs it) i = Some p) (Eb : pr_basis p = [b]) (PL : placed L basis (pr_custom p) b (positions (spec i))).

Lemma positions_reach c : In c (positions (spec i)) -> inReach L basis (maxRange it) b c.
Proof using UI GI Ep PL.
  intros Hc. destruct UI, GI, PL. eapply covers_reach with (p := p); eauto; [apply (wi_lat _ _ _ _ ui_wf)|apply maxRange_pos|apply maxRange_ge; eapply zget_In; eauto|].
  eapply built_covers; eauto.
Qed.
Lemma basis_range : 0 <= b < lt_nb L.
Proof using PL GI. destruct PL as [F _ LD]. destruct (LD czero (zget_In _ _ _ F)) as (b' & beta & beta' & ? & ? & ? & E1 & _). destruct GI as [(HB & _) _ _ _ _ _ _]. rewrite <- HB. eapply zget_range; eauto. Qed.
Lemma width_eq : nsites L > 0 -> W = zlen (cf_ptypes cf).
Proof using UI GI.
  intros HN. destruct UI, GI. destruct (zget_lt (cf_types cf) 0) as [t Et]; [rewrite (wi_types _ _ _ _ ui_wf); lia|].
  rewrite <- (gi_width t (zget_In _ _ _ Et)). eapply std_width; [eapply user_std; exact UI|]. eapply zget_In; eauto.
Qed.
Lemma nsites_pos : 0 < nsites L.
Proof using UI. destruct UI. destruct (wi_lat _ _ _ _ ui_wf). unfold nsites. nia. Qed.

Theorem user_regular : regular L basis (maxRange it) W p.
Proof using UI GI Ep Eb PL.
  pose proof (ui_procs _ _ _ _ _ UI i p Ep) as B. pose proof (ui_pt _ _ _ _ _ UI) as WP. pose proof (wi_lat _ _ _ _ (ui_wf _ _ _ _ _ UI)) as WF.
  pose proof (gi_unit _ _ _ _ _ GI) as HS. pose proof (gi_clean _ _ _ _ _ GI b basis_range) as HC. pose proof positions_reach as PR. pose proof basis_range as BR. destruct PL as [F ND LD].
  pose proof (width_eq ltac:(pose proof nsites_pos; lia)) as EW.
  assert (Sub0 : forall c, csub c czero = c) by (intros c; unfold csub, czero; cbn; rewrite !Z.sub_0_r; destruct c; reflexivity).
  destruct (spec i) as [rows|rows]; cbn [builtFrom positions] in *.
  - destruct B as [WR [bas B]]. destruct (builtPlain_spec _ _ _ _ _ WP B) as [es PO]. pose proof PO as PO'.
    assert (HG : forall e, In e (pr_ml p) -> goodP (inReach L basis (maxRange it) b) e).
    { intros e He. destruct (In_zget _ _ He) as [j Ej]. destruct (ml_row _ _ _ _ _ _ PO j e Ej) as (k & r & Er & Ee & EF). split.
      - destruct (po_d2 _ _ _ _ _ _ PO) as (r0 & E0 & D). rewrite zget_map, E0 in F. cbn in F. injection F as F. rewrite (D e (zget_In _ _ _ Ee)), F, Sub0. reflexivity.
      - rewrite (en_c _ _ _ EF). apply PR. apply in_map. eapply zget_In; eauto. }
    constructor.
    + exists b. split; [exact Eb|]. split; [exact BR|]. intros e He. apply HG. exact He.
    + intros e He. apply HG. exact He.
    + rewrite EW. intros e He. eapply plain_width; eauto.
    + intros e He. eapply sn_upd0; [|exact He]. eapply plain_sane; eauto. destruct WF; lia.
    + eapply ml_nodup; eauto.
    + rewrite (po_ml _ _ _ _ _ _ PO). symmetry. eapply isort_idem; eauto. intros e He. apply HG. rewrite (po_ml _ _ _ _ _ _ PO). apply isort_In. exact He.
  - destruct B as [WR [bas B]]. destruct (builtBucket_spec _ _ _ _ _ WP WR B) as [es PO].
    assert (HG : forall e, In e (pr_ml p) -> goodP (inReach L basis (maxRange it) b) e).
    { intros e He. destruct (bml_row _ _ _ _ _ _ PO e He) as (r & Hr & EF). split.
      - destruct (bo_d2 _ _ _ _ _ _ PO) as (r0 & E0 & D). rewrite zget_map, E0 in F. cbn in F. injection F as F. rewrite (bo_ml _ _ _ _ _ _ PO), isort_In in He. rewrite (D e He), F, Sub0. reflexivity.
      - rewrite (eb_c _ _ _ EF). apply PR. apply in_map. exact Hr. }
    constructor.
    + exists b. split; [exact Eb|]. split; [exact BR|]. intros e He. apply HG. exact He.
    + intros e He. apply HG. exact He.
    + rewrite EW. intros e He. eapply bucket_width; eauto.
    + intros e He. eapply sn_upd0; [|exact He]. eapply bucket_sane; eauto.
    + rewrite (bo_ml _ _ _ _ _ _ PO). eapply Permutation_NoDup; [apply Permutation_sym; apply Permutation_map; apply isort_perm|].
      assert (EQ : map pe_c es = map br_c rows); [|rewrite EQ; exact ND]. apply zget_ext. intros j. rewrite !zget_map. destruct (zget rows j) as [r|] eqn:Er.
      * destruct (bo_rows _ _ _ _ _ _ PO j r Er) as (e & Ee & EF). rewrite Ee. cbn. f_equal. apply EF.
      * apply zget_None in Er. rewrite (proj2 (zget_None es j)); [reflexivity|]. rewrite (bo_len _ _ _ _ _ _ PO). exact Er.
    + rewrite (bo_ml _ _ _ _ _ _ PO). symmetry. eapply isort_idem; eauto. intros e He. apply HG. rewrite (bo_ml _ _ _ _ _ _ PO). apply isort_In. exact He.
Qed.

(** what the stored entries ask for is what the rows ask for *)
Lemma possible_rows cf' x : cf_ptypes cf' = cf_ptypes cf -> cf_coords cf' = cf_coords cf -> (forall t, In t (cf_types cf') -> zlen t = zlen (cf_ptypes cf)) ->
  nonNegative cf' ->
  (possible L (cf_coords cf') (cf_types cf') p x <-> basisSiteFromIndex L x = b /\ rowsMatch L cf' (spec i) x).
Proof using UI Ep Eb.
  clear PL. intros HP HCo HW HN. pose proof (ui_procs _ _ _ _ _ UI i p Ep) as B. pose proof (ui_pt _ _ _ _ _ UI) as WP.
  unfold possible. rewrite Eb. assert (HI : In (basisSiteFromIndex L x) [b] <-> basisSiteFromIndex L x = b) by (cbn; intuition). rewrite HI.
  destruct (spec i) as [rows|rows]; cbn [builtFrom rowsMatch] in *.
  - destruct B as [WR [bas B]]. destruct (builtPlain_spec _ _ _ _ _ WP B) as [es PO].
    assert (HE : forall r e y, entryFor (cf_ptypes cf) r e -> ((exists t, zget (cf_types cf') y = Some t /\ contains t (pe_match e)) <-> hasAtLeast cf' y (rw_before r) 1)).
    { intros r e y EF. destruct (en_kinds _ _ _ EF) as (kb & ka & K1 & K2 & [UL UU] & _). unfold hasAtLeast. rewrite HP. pose proof (tfind_range _ _ _ WP K1) as Rk. split.
      - intros (t & Et & CL & CC). destruct (zget_lt t kb) as [m Em]; [rewrite CL, UL; lia|]. exists kb, t, m. split; [exact K1|]. split; [exact Et|]. split; [exact Em|].
        destruct (zget_lt (pe_match e) kb) as [n En]; [rewrite UL; lia|]. pose proof (CC _ _ _ En Em). apply UU in En. rewrite Z.eqb_refl in En. lia.
      - intros (k & t & m & Hk & Et & Em & Hm). assert (k = kb) by congruence. subst k. exists t. split; [exact Et|]. split; [rewrite UL; apply HW; eapply zget_In; eauto|].
        intros j n m' En Em'. apply UU in En. subst n. destruct (Z.eqb_spec j kb) as [->|]; [assert (m' = m) by congruence; lia|exact (HN _ _ _ _ Et Em')]. }
    split; intros [A H]; (split; [exact A|]).
    + intros r Hr. destruct (In_zget _ _ Hr) as [j Er]. destruct (row_ml _ _ _ _ _ _ PO j r Er) as (j' & e & Ej & _ & EF).
      destruct (H e (zget_In _ _ _ Ej)) as [Hw|(y & t & H1 & H2 & H3)]; [left; eapply entry_wild; eauto|right]. exists y. rewrite <- (en_c _ _ _ EF). split; [exact H1|]. eapply HE; eauto.
    + intros e He. destruct (In_zget _ _ He) as [j Ej]. destruct (ml_row _ _ _ _ _ _ PO j e Ej) as (k & r & Er & Ee & EF).
      destruct (H r (zget_In _ _ _ Er)) as [Hw|(y & H1 & H2)]; [left; eapply entry_wild; eauto|right]. apply (HE r e y EF) in H2. destruct H2 as (t & H2 & H3). exists y, t. rewrite (en_c _ _ _ EF). auto.
  - destruct B as [WR [bas B]]. destruct (builtBucket_spec _ _ _ _ _ WP WR B) as [es PO].
    assert (HWl : forall r e, entryForB (cf_ptypes cf) r e -> (wildEntry e <-> howMany "*" (br_before r) = 1)).
    { intros r e EF. unfold wildEntry. rewrite (eb_match _ _ _ EF "*" 0) by apply WP. split; [intros X; injection X; auto|intros ->; reflexivity]. }
    assert (HE : forall r e y, 0 <= y < zlen (cf_types cf') -> entryForB (cf_ptypes cf) r e -> ((exists t, zget (cf_types cf') y = Some t /\ contains t (pe_match e)) <->
        forall s, tfind (cf_ptypes cf') s <> None -> hasAtLeast cf' y s (howMany s (br_before r)))).
    { intros r e y Hy EF. unfold hasAtLeast. rewrite HP. split.
      - intros (t & Et & CL & CC) s Hs. destruct (tfind (cf_ptypes cf) s) as [k|] eqn:Ek; [|congruence]. pose proof (tfind_range _ _ _ WP Ek) as Rk.
        pose proof (eb_match _ _ _ EF s k Ek) as Em. destruct (zget_lt t k) as [m Et']; [rewrite CL, (eb_lmatch _ _ _ EF); lia|].
        exists k, t, m. split; [reflexivity|]. split; [exact Et|]. split; [exact Et'|]. exact (CC _ _ _ Em Et').
      - intros H. destruct (zget_lt _ _ Hy) as [t Et]. exists t. split; [exact Et|]. split; [rewrite (eb_lmatch _ _ _ EF); apply HW; eapply zget_In; eauto|].
        intros k n m En Em. apply zget_range in En as Rk. rewrite (eb_lmatch _ _ _ EF) in Rk. destruct (kind_name _ WP k Rk) as [s Es].
        destruct (H s ltac:(congruence)) as (k' & t' & m' & E1 & E2 & E3 & Hle). assert (k' = k) by congruence. subst k'. assert (t' = t) by congruence. subst t'. assert (m' = m) by congruence. subst m'.
        rewrite (eb_match _ _ _ EF s k Es) in En. congruence. }
    split; intros [A H]; (split; [exact A|]).
    + intros r Hr. destruct (In_zget _ _ Hr) as [j Er]. destruct (bo_rows _ _ _ _ _ _ PO j r Er) as (e & Ee & EF).
      assert (He : In e (pr_ml p)) by (rewrite (bo_ml _ _ _ _ _ _ PO); apply isort_In; eapply zget_In; eauto).
      destruct (H e He) as [Hw|(y & t & H1 & H2 & H3)]; [left; eapply HWl; eauto|right]. exists y. rewrite <- (eb_c _ _ _ EF). split; [exact H1|]. eapply HE; eauto. eapply zget_range; eauto.
    + intros e He. destruct (bml_row _ _ _ _ _ _ PO e He) as (r & Hr & EF).
      destruct (H r Hr) as [Hw|(y & H1 & H2)]; [left; eapply HWl; eauto|right].
      assert (Hy : 0 <= y < zlen (cf_types cf')). { pose proof (H2 "*") as X. rewrite HP in X. destruct X as (? & ? & ? & _ & X & _); [destruct WP as (_ & _ & ->); discriminate|]. eapply zget_range; eauto. }
      apply (HE r e y Hy EF) in H2. destruct H2 as (t & H2 & H3). exists y, t. rewrite (eb_c _ _ _ EF). auto.
Qed.
End Regular.
