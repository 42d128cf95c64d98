(** Every step of a simulation stays within the bounds of its arrays: the start and whole runs. *)
From Verif Require Import PBase SModel SGeo SEvent SBuild SPlain SStep SBucket SPossible SNoUB PLattice PProcess PMpi PRateTable PMatcher PPerform PStep PRun PGeo PPossible PRematch PEffect PEvent
  PBuild PPlain PStepInv PRow PBucket PRegular TSelect TStep PRates PEnv PCache PNoUB PNoUB2.
Open Scope string_scope.
Open Scope list_scope.
Open Scope Z_scope.

Section Start.
Context (ranks : Z) (hash : list Z -> Z) (L : lattice) (cf : config) (it : interactions) (spec : Z -> pspec).
Context (UI : userInput ranks L cf it spec).
Notation W := (zlen (cf_ptypes cf)).
Notation N := (nsites L).
Notation WI := (ui_wf _ _ _ _ _ UI).
Notation ST := (user_std _ _ _ _ _ UI).

Lemma init_total : exists cf1, initMatchLists L (maxRange it) cf = Some cf1.
Proof using UI.
  unfold initMatchLists. destruct (omap_total (fun i => configMatchList L cf i (neighbourIndices L i (maxRange it))) (zrange 0 (zlen (cf_types cf) - 1))) as [mls E].
  { intros x Hx. apply In_zrange in Hx. rewrite (wi_types _ _ _ _ WI) in Hx. pose proof (maxRange_pos it).
    destruct (scratch_eq L (maxRange it) cf x (wi_lat _ _ _ _ WI)) as (g & A1 & A2 & A3 & A4); [lia|apply WI|apply WI|lia|]. unfold scratchML in A3. rewrite A3, A4. eauto. }
  rewrite E. cbn [Base.obind]. eauto.
Qed.

Lemma central b : 0 <= b < lt_nb L -> let x0 := globalIndex L (Z.quot (lt_ra L) 2) (Z.quot (lt_rb L) 2) (Z.quot (lt_rc L) 2) b in
  0 <= x0 < N /\ basisSiteFromIndex L x0 = b.
Proof using UI.
  intros Hb x0. pose proof (wi_lat _ _ _ _ WI) as WF.
  assert (Hs0 : isSite L (Z.quot (lt_ra L) 2) (Z.quot (lt_rb L) 2) (Z.quot (lt_rc L) 2) b).
  { clear -WF Hb. destruct WF. unfold isSite. rewrite !Z.quot_div_nonneg by lia.
    repeat split; try lia; try (apply Z.div_pos; lia); apply Z.div_lt_upper_bound; lia. }
  split; [apply globalIndex_range; auto|apply basis_global; auto].
Qed.

(** the list of surroundings of a site at the start *)
Lemma init_at cf1 x : initMatchLists L (maxRange it) cf = Some cf1 -> 0 <= x < N ->
  exists g, scratchGeo L (maxRange it) (cf_coords cf) x = Some g /\ zget (cf_mlists cf1) x = Some (map (withTypes (cf_types cf)) g) /\ (forall e, In e g -> 0 <= ce_index e < N).
Proof using UI.
  intros E Hx. destruct (initMatchLists_fields _ _ _ _ E) as (mls & n & Emls & _ & ->). cbn [set_moved set_mlists cf_mlists].
  pose proof (maxRange_pos it). destruct (scratch_eq L (maxRange it) cf x (wi_lat _ _ _ _ WI)) as (g & A1 & A2 & A3 & A4); [lia|apply WI|apply WI|exact Hx|].
  exists g. split; [exact A1|]. split; [|exact A2]. rewrite (omap_zget _ _ _ x Emls), zget_zrange by (rewrite (wi_types _ _ _ _ WI); lia). cbn [Base.obind]. rewrite Z.add_0_l.
  unfold scratchML in A3. rewrite A3, A4. reflexivity.
Qed.

(** padding a process succeeds if its positions lead to sites *)
Lemma expand_total basis cf1 i p b : geoInput L basis (maxRange it) W cf -> initMatchLists L (maxRange it) cf = Some cf1 ->
  zget (in_procs it) i = Some p -> pr_basis p = [b] -> placed L basis (pr_custom p) b (positions (spec i)) -> exists q, expandProcess L cf1 (clearSites p) = Some q.
Proof using UI.
  intros GI E1 Ep Eb PL. pose proof (user_regular _ _ _ _ _ _ _ UI GI _ _ _ Ep Eb PL) as RG. destruct (rg_basis _ _ _ _ _ RG) as (b' & Eb' & Hb & _).
  assert (b' = b) by congruence. subst b'. pose proof (wi_lat _ _ _ _ WI) as WF. pose proof (maxRange_pos it).
  unfold expandProcess. change (pr_basis (clearSites p)) with (pr_basis p). change (pr_ml (clearSites p)) with (pr_ml p). change (pr_idmoves (clearSites p)) with (pr_idmoves p).
  rewrite Eb. cbv zeta. rewrite indicesFromCell_get by exact Hb. cbn [Base.obind]. destruct (central b Hb) as [Hx0 Hb0].
  set (x0 := globalIndex L (Z.quot (lt_ra L) 2) (Z.quot (lt_rb L) 2) (Z.quot (lt_rc L) 2) b) in *. clearbody x0.
  destruct (init_at cf1 x0 E1 Hx0) as (g0 & A1 & A2 & A3). rewrite A2. cbn [Base.obind]. rewrite (gi_coords _ _ _ _ _ GI) in A1.
  assert (SG0 : sortedGeo L basis (maxRange it) x0 g0).
  { apply scratchGeo_sorted; auto; [apply GI|lia|apply GI|apply GI|]. rewrite Hb0. unfold cleanAt. apply GI. exact Hb. }
  set (cl0 := map (withTypes (cf_types cf)) g0) in *.
  assert (AL : alignedAt (pr_ml p) (fst (insertWildcards (lt_unit L) (pr_ml p) cl0 0)) (snd (insertWildcards (lt_unit L) (pr_ml p) cl0 0)) cl0).
  { eapply aligned_at with (b := b) (x0 := x0) (g0 := g0) (x := x0) (g := g0) (basis := basis) (R := maxRange it) (W := W); eauto; try apply withTypes_geom.
    - apply GI.
    - lia.
    - apply GI.
    - apply GI.
    - unfold cleanAt. apply GI. exact Hb.
    - intros c Hc. apply in_map_iff in Hc. destruct Hc as (c' & <- & Hc').
      cbn [withTypes ce_types]. specialize (A3 c' Hc'). rewrite <- (wi_types _ _ _ _ WI) in A3.
      destruct (zget_lt _ _ A3) as [t Et]. rewrite Et. apply zget_In in Et. apply (gi_width _ _ _ _ _ GI) in Et.
      pose proof (gi_pos _ _ _ _ _ GI). intros Ht. rewrite Ht in Et. change (zlen (@nil Z)) with 0 in Et. lia. }
  destruct (insertWildcards (lt_unit L) (pr_ml p) cl0 0) as [l m]. cbn [fst snd] in AL.
  destruct (builtFrom_facts _ _ _ _ _ _ _ UI Ep) as (SN & _ & _).
  destruct (omap_total (fun ab : Z * Z => a <- zget m (fst ab) ;; b <- zget m (snd ab) ;; Some (a, b)) (pr_idmoves p)) as [idm Eid].
  { intros [u v] Huv. destruct (sn_idrange _ SN u v Huv) as [Hu Hv]. cbn [fst snd]. assert (LM : zlen m = zlen (pr_ml p)) by (unfold zlen; rewrite (al_mlen _ _ _ _ AL); reflexivity).
    destruct (zget_lt m u) as [a Ea]; [rewrite LM; exact Hu|]. destruct (zget_lt m v) as [c Ec]; [rewrite LM; exact Hv|]. rewrite Ea. cbn [Base.obind]. rewrite Ec. cbn [Base.obind]. eauto. }
  rewrite Eid. cbn [Base.obind]. eauto.
Qed.

Lemma updateML_total cf1 : fitsGrid L cf it spec -> initMatchLists L (maxRange it) cf = Some cf1 -> exists it2, updateProcessMatchLists L cf1 (clearMatching it) = Some it2.
Proof using UI.
  intros EX E1. unfold updateProcessMatchLists. change (in_wild (clearMatching it)) with (in_wild it). destruct (in_wild it) eqn:HW; [|eauto]. destruct (EX HW) as (basis & GI & HP).
  unfold clearMatching. cbn [set_procs in_procs]. destruct (omap_total (expandProcess L cf1) (map clearSites (in_procs it))) as [ps E]; [|rewrite E; cbn [Base.obind]; eauto].
  intros q Hq. apply in_map_iff in Hq. destruct Hq as (p & <- & Hp). apply In_zget in Hp. destruct Hp as [i Ep].
  destruct (pr_basis p) as [|b [|b' l]] eqn:Eb.
  - unfold expandProcess. change (pr_basis (clearSites p)) with (pr_basis p). rewrite Eb. eauto.
  - eapply expand_total; eauto.
  - unfold expandProcess. change (pr_basis (clearSites p)) with (pr_basis p). rewrite Eb. eauto.
Qed.

Lemma start_width cf1 it2 i p' e : initMatchLists L (maxRange it) cf = Some cf1 -> updateProcessMatchLists L cf1 (clearMatching it) = Some it2 ->
  zget (in_procs it2) i = Some p' -> In e (pr_ml p') -> zlen (pe_match e) = W /\ zlen (pe_upd e) = W.
Proof using UI.
  intros E1 E2 Ep' He. unfold updateProcessMatchLists in E2. change (in_wild (clearMatching it)) with (in_wild it) in E2.
  assert (HB : forall p, zget (in_procs it) i = Some p -> In e (pr_ml p) -> zlen (pe_match e) = W /\ zlen (pe_upd e) = W).
  { intros p Ep H. destruct (builtFrom_facts _ _ _ _ _ _ _ UI Ep) as (_ & _ & HW). apply HW. exact H. }
  destruct (in_wild it).
  2:{ injection E2 as <-. unfold clearMatching in Ep'. cbn [set_procs in_procs] in Ep'. rewrite zget_map in Ep'. destruct (zget (in_procs it) i) as [p|] eqn:Ep; [|discriminate]. cbn [option_map] in Ep'. injection Ep' as <-. eapply HB; eauto. }
  ob E2 as ps Eps. injection E2 as <-. unfold clearMatching in Eps, Ep'. cbn [set_procs in_procs] in Eps, Ep'. rewrite (omap_zget _ _ _ i Eps), zget_map in Ep'.
  destruct (zget (in_procs it) i) as [p|] eqn:Ep; [|discriminate]. cbn [option_map Base.obind] in Ep'.
  unfold expandProcess in Ep'. change (pr_ml (clearSites p)) with (pr_ml p) in Ep'.
  destruct (pr_basis (clearSites p)) as [|b [|b' l]]; try (injection Ep' as <-; eapply HB; eauto; fail).
  ob Ep' as index Ei. ob Ep' as cl Ecl. destruct (insertWildcards (lt_unit L) (pr_ml p) cl 0) as [l mapping] eqn:EI. ob Ep' as idm Eid. injection Ep' as <-. cbn [set_ml pr_ml] in He.
  pose proof (insert_padded (lt_unit L) cl (pr_ml p) 0) as HP. rewrite EI in HP. destruct (padded_In_inv _ _ _ _ _ HP e He) as [H|(c & Hc & ->)]; [eapply HB; eauto|].
  assert (E : zlen (ce_types c) = W); [|rewrite <- E; apply initWildcard_width].
  assert (HX : 0 <= index < N).
  { destruct (initMatchLists_fields _ _ _ _ E1) as (mls & n & Emls & _ & F). pose proof (omap_zlen _ _ _ Emls) as LM. rewrite zlen_zrange, (wi_types _ _ _ _ WI) in LM.
    pose proof (zget_range _ _ _ Ecl) as R0. rewrite F in R0. cbn [set_moved set_mlists cf_mlists] in R0. lia. }
  destruct (init_at cf1 index E1 HX) as (g & A1 & A2 & A3). assert (cl = map (withTypes (cf_types cf)) g) by congruence. subst cl.
  apply in_map_iff in Hc. destruct Hc as (c' & <- & Hc'). cbn [withTypes ce_types]. specialize (A3 c' Hc'). rewrite <- (wi_types _ _ _ _ WI) in A3. destruct (zget_lt _ _ A3) as [t Et]. rewrite Et.
  eapply std_width; [eapply user_std; exact UI|]. eapply zget_In; eauto.
Qed.

(** the rates of custom processes are defined if the surroundings are roomy *)
Lemma roomy_rates cfa ita mt idx cf1 : PreInv L cfa ita mt idx -> cfgOK W N cfa -> numbered ita -> roomy L cfa ita ->
  (forall j p e, zget (in_procs ita) j = Some p -> In e (pr_ml p) -> zlen (pe_match e) = W /\ zlen (pe_upd e) = W) ->
  ofold (refreshUsed L (in_procs ita)) idx cfa = Some cf1 -> ratesDefined L mt ita cf1 idx.
Proof using UI.
  intros PV CO HN RM HWp ECf Hcu upd add HT. apply custom_total; [apply PV|apply PV|exact HN|]. intros t Ht. destruct (HT t Ht) as (T1 & T2 & T3). destruct T2 as (p & Ep & Hb).
  destruct (refresh_fold _ _ _ _ _ (pv_nodup _ _ _ _ _ PV) ECf) as (mls & Ecf1 & HlenM & HmlM).
  assert (Hx : 0 <= rt_index t < nsites L) by (apply (pv_idx _ _ _ _ _ PV); exact T1).
  destruct (pv_geom _ _ _ _ _ PV _ Hx) as (cl & g & G1 & G2 & G3).
  assert (HCL : exists cl', zget (cf_mlists cf1) (rt_index t) = Some cl' /\ geom cl' = geom g).
  { rewrite Ecf1. cbn [set_mlists cf_mlists]. destruct (HmlM (rt_index t)) as [(_ & _ & (ml & ml' & A & B & C))|[_ A]].
    - exists ml'. split; [exact C|]. assert (ml = cl) by congruence. subst ml. rewrite (refresh_geom _ _ _ B). exact G3.
    - exists cl. split; [congruence|exact G3]. }
  destruct HCL as (cl' & G4 & G5).
  assert (HPi : pairIn L ita (rt_index t) (rt_process t)) by (exists p; split; [exact Ep|exact Hb]).
  destruct (RM _ _ p Hx HPi Ep) as (near & far & rest & R1 & R2 & R3 & R4 & R5).
  destruct (scratch_eq L (maxRange ita) cfa (rt_index t) (wi_lat _ _ _ _ WI)) as (g' & A1 & A2 & A3 & A4);
    [pose proof (maxRange_pos ita); lia|apply PV|apply PV|exact Hx|].
  assert (g' = g) by congruence. subst g'.
  assert (GN : geom cl' = geom (near ++ far :: rest)). { rewrite G5, <- (withTypes_geom (cf_types cfa) g). f_equal. congruence. }
  destruct (usr_total W N cf1 (in_rc ita) p (rt_index t) cl' near far rest) as (env & r & U1 & U2); auto.
  - rewrite Ecf1. apply cfgOK_mlists. exact CO.
  - apply (pt_pos _ _ _ _ ST).
  - rewrite Ecf1. cbn [set_mlists cf_coords]. apply PV.
  - intros c Hc2. destruct (geom_d2 _ _ _ G5 Hc2) as (e' & B1 & _ & B2). rewrite <- B2. apply A2. exact B1.
  - intros e He. apply (HWp _ _ _ Ep He).
  - unfold rateTask, hashData. rewrite Ep. cbn [Base.obind]. rewrite G4. cbn [Base.obind]. rewrite U1. cbn [Base.obind]. rewrite U2. cbn [Base.obind]. eauto.
Qed.

Theorem start_total : fitsGrid L cf it spec -> roomyStart L cf it ->
  exists md0, mkLatticeModel ranks hash L cf it = Some md0.
Proof using UI.
  intros EX HCu. destruct init_total as [cf1 E1]. destruct (updateML_total cf1 EX E1) as [it2 E2]. destruct (start_pre ranks hash L cf it cf1 it2 WI E1 E2) as [HR PV].
  destruct (initMatchLists_fields _ _ _ _ E1) as (mls & n & Emls & _ & F).
  assert (CO : cfgOK W N cf1). { assert (C0 : cfgOK W N cf) by (apply (start_cfgOK ranks L cf it); apply UI). rewrite F. destruct C0. constructor; assumption. }
  destruct (calc_total L cf1 it2 (mkMatcher ranks hash (length (cf_coords cf)) (length (in_procs it))) (zrange 0 (zlen (cf_elements cf1) - 1)) W PV) as [[[mt' it'] cf'] ER].
  - apply (pt_pos _ _ _ _ ST).
  - apply CO.
  - intros p Hp e He. apply In_zget in Hp. destruct Hp as [j Ej]. apply (start_width cf1 it2 j p e E1 E2 Ej He).
  - intros cf2 ECf Hcu. destruct (updateML_get _ _ _ _ E2) as (_ & _ & SP5 & _ & HP). destruct HCu as [HN RM]; [change (in_custom (clearMatching it)) with (in_custom it) in SP5; congruence|].
    refine (roomy_rates cf1 it2 _ _ cf2 PV CO _ (RM _ _ E1 E2) (fun j p e => start_width cf1 it2 j p e E1 E2) ECf Hcu).
    intros j q Ej. destruct (HP j q Ej) as (p & Ep & HX). unfold clearMatching in Ep. cbn [set_procs in_procs] in Ep. rewrite zget_map in Ep.
    destruct (zget (in_procs it) j) as [p0|] eqn:Ep0; [|discriminate]. cbn [option_map] in Ep. injection Ep as <-. change (pr_number (clearSites p0)) with (pr_number p0) in *.
    destruct HX as [->|[_ HX]]; [exact (HN _ _ Ep0)|]. apply expand_fields in HX. destruct HX as (_ & _ & -> & _). exact (HN _ _ Ep0).
  - unfold mkLatticeModel, calculateInitialMatching. cbn [md_lat md_cf md_in md_mt]. rewrite E1. cbn [Base.obind]. rewrite E2. cbn [Base.obind]. rewrite ER. cbn [Base.obind]. eauto.
Qed.

(** ** whole runs *)
Context (NE : forall i p, zget (in_procs it) i = Some p -> neverEmpties (cf_ptypes cf) (spec i)).

Theorem run_total us : forall md0, mkLatticeModel ranks hash L cf it = Some md0 ->
  (in_custom it = true -> numbered it /\ roomy L (md_cf md0) (md_in md0)) ->
  Forall (fun u => unitDeviate (fst u) /\ unitDeviate (snd u)) us -> alive md0 us -> exists md, runSteps md0 us = Some md.
Proof using UI NE.
  induction us as [|u us IH] using rev_ind; intros md0 E0 HCu HU HO; [exists md0; reflexivity|].
  apply Forall_app in HU. destruct HU as [HU HU1]. inversion HU1 as [|? ? Hu _]; subst.
  destruct (IH md0 E0 HCu HU) as [md Hmd].
  { intros vs w md -> Hw E. apply (HO vs (w ++ [u]) md); [rewrite app_assoc; reflexivity|destruct w; discriminate|exact E]. }
  assert (HR : reachable ranks hash L cf it md) by (exists md0, us; auto).
  destruct (step_total ranks hash L cf it spec UI NE md (fst u) (snd u) HR) as [md' E']; try apply Hu.
  - apply (HO us [u] md); [reflexivity|discriminate|exact Hmd].
  - intros Hc. destruct (HCu Hc) as [HN RM]. split; [exact HN|].
    assert (HR0 : reachable ranks hash L cf it md0) by (exists md0, []; auto).
    destruct (reachable_info _ _ _ _ _ _ WI HR0) as (a0 & b0 & R0). destruct (reachable_info _ _ _ _ _ _ WI HR) as (a1 & b1 & R1).
    pose proof (ri_init _ _ _ _ _ _ _ _ R0) as I0. pose proof (ri_init _ _ _ _ _ _ _ _ R1) as I1. assert (a1 = a0) by congruence. subst a1.
    pose proof (ri_expand _ _ _ _ _ _ _ _ R0) as J0. pose proof (ri_expand _ _ _ _ _ _ _ _ R1) as J1. assert (b1 = b0) by congruence. subst b1.
    apply (roomy_static ranks L cf it spec UI md0 md); auto.
    + pose proof (ri_same _ _ _ _ _ _ _ _ R0) as S0. pose proof (ri_same _ _ _ _ _ _ _ _ R1) as S1. eapply sameP_trans; [apply sameP_sym; exact S0|exact S1].
    + rewrite (ri_coords _ _ _ _ _ _ _ _ R1), (ri_coords _ _ _ _ _ _ _ _ R0). reflexivity.
    + rewrite <- (ri_lat _ _ _ _ _ _ _ _ R1). apply (ri_inv _ _ _ _ _ _ _ _ R1).
    + rewrite <- (ri_lat _ _ _ _ _ _ _ _ R0). apply (ri_inv _ _ _ _ _ _ _ _ R0).
    + rewrite (ri_coords _ _ _ _ _ _ _ _ R0). apply WI.
  - exists md'. unfold runSteps in *. rewrite ofold_app, Hmd. cbn [Base.obind ofold]. rewrite E'. reflexivity.
Qed.

Lemma roomy_start md0 : mkLatticeModel ranks hash L cf it = Some md0 -> roomyStart L cf it -> in_custom it = true -> numbered it /\ roomy L (md_cf md0) (md_in md0).
Proof using UI.
  intros E0 RS Hc. destruct (RS Hc) as [HN RM]. split; [exact HN|]. assert (HR0 : reachable ranks hash L cf it md0) by (exists md0, []; auto).
  destruct (reachable_info _ _ _ _ _ _ WI HR0) as (cf1 & it2 & R0). pose proof (ri_init _ _ _ _ _ _ _ _ R0) as I0. pose proof (ri_expand _ _ _ _ _ _ _ _ R0) as J0.
  specialize (RM _ _ I0 J0). destruct (initMatchLists_fields _ _ _ _ I0) as (mls & n & _ & _ & F).
  apply (roomy_static ranks L cf it spec UI (mkMD L cf1 it2 (md_mt md0)) md0); cbn [md_cf md_in].
  - apply (ri_same _ _ _ _ _ _ _ _ R0).
  - rewrite (ri_coords _ _ _ _ _ _ _ _ R0), F. reflexivity.
  - rewrite <- (ri_lat _ _ _ _ _ _ _ _ R0). apply (ri_inv _ _ _ _ _ _ _ _ R0).
  - rewrite F. apply WI.
  - rewrite F. apply WI.
  - exact RM.
Qed.
End Start.
