(** What a step of the model does to the configuration; what never changes in a run. *)
From Coq Require Import Sorted.
From Verif Require Import PBase SModel SGeo PLattice PProcess PMpi PRateTable PMatcher PPerform PStep PGeo PPossible.
Open Scope Z_scope.
Open Scope list_scope.

Lemma refreshUsed_shape L ps idx : forall cf cf', ofold (refreshUsed L ps) idx cf = Some cf' -> exists mls, cf' = set_mlists cf mls.
Proof.
  induction idx as [|x idx IH]; intros cf cf' H; cbn [ofold] in H.
  - inversion H; subst. exists (cf_mlists cf'). rewrite set_mlists_self. reflexivity.
  - ob H as cf1 E. destruct (IH _ _ H) as [mls ->].
    unfold refreshUsed in E. destruct (pairsOf L ps x); [inversion E; eauto|].
    unfold updateMatchList in E. ob E as ml E1. ob E as ml' E2. ob E as mls' E3. inversion E; subst. exists mls. apply set_mlists_twice.
Qed.
Lemma calculateMatching_cf L m it cf idx m' it' cf' : calculateMatching L m it cf idx = Some (m', it', cf') ->
  exists mls, cf' = set_mlists cf mls.
Proof.
  unfold calculateMatching. cbv zeta. intros H. ob H as cf1 E. ob H as ts E1. destruct ts as [[rem upd] add].
  ob H as r E2. destruct r as [[m1 u1] a1]. ob H as mi E3. inversion H; subst. eapply refreshUsed_shape; eauto.
Qed.

Lemma applyUpdate_len t u t' : applyUpdate t u = Some t' -> zlen t' = zlen t.
Proof.
  unfold applyUpdate. intros H. rewrite (omap_zlen _ _ _ H). rewrite zlen_zrange. pose proof (zlen_nonneg t). lia.
Qed.
Lemma applyUpdate_get t u t' k a b : applyUpdate t u = Some t' -> zget t k = Some a -> zget u k = Some b -> zget t' k = Some (a + b).
Proof.
  unfold applyUpdate, bget. intros H Ea Eb. rewrite (omap_zget _ _ _ k H). apply zget_range in Ea as Hr.
  rewrite zget_zrange by lia. cbn [obind]. rewrite Z.add_0_l, Ea, Eb. reflexivity.
Qed.
Lemma applyUpdate_needs t u t' k a : applyUpdate t u = Some t' -> zget t k = Some a -> exists b, zget u k = Some b.
Proof.
  unfold applyUpdate, bget. intros H Ea. apply zget_range in Ea as Hr.
  assert (HH : exists v, zget t' k = Some v) by (apply zget_lt; rewrite (omap_zlen _ _ _ H), zlen_zrange; lia).
  destruct HH as [v Ev]. rewrite (omap_zget _ _ _ k H), zget_zrange in Ev by lia. cbn [obind] in Ev. rewrite Z.add_0_l, Ea in Ev. cbn [obind] in Ev.
  ob Ev as b Eb. eauto.
Qed.
Lemma applyUpdates_len us : forall t t', ofold applyUpdate us t = Some t' -> zlen t' = zlen t.
Proof.
  induction us as [|u us IH]; intros t t' H; cbn [ofold] in H; [congruence|]. ob H as t1 E.
  rewrite (IH _ _ H). eapply applyUpdate_len; eauto.
Qed.

(** ** what a run never changes *)
Record cframe (cf cf' : config) : Prop := {
  cfr_coords : cf_coords cf' = cf_coords cf;
  cfr_names : cf_names cf' = cf_names cf;
  cfr_ptypes : cf_ptypes cf' = cf_ptypes cf;
  cfr_width : map zlen (cf_types cf') = map zlen (cf_types cf);
  cfr_le : zlen (cf_elements cf') = zlen (cf_elements cf);
  cfr_la : zlen (cf_aid cf') = zlen (cf_aid cf);
  cfr_lac : zlen (cf_aidcoords cf') = zlen (cf_aidcoords cf);
  cfr_lae : zlen (cf_aidelements cf') = zlen (cf_aidelements cf);
  cfr_lm : zlen (cf_moved cf') = zlen (cf_moved cf);
  cfr_lr : zlen (cf_recent cf') = zlen (cf_recent cf) }.
Lemma cframe_refl cf : cframe cf cf. Proof. constructor; reflexivity. Qed.
Lemma cframe_trans a b c : cframe a b -> cframe b c -> cframe a c.
Proof. intros [] []; constructor; congruence. Qed.
Lemma cframe_mlists cf mls : cframe cf (set_mlists cf mls).
Proof. constructor; reflexivity. Qed.

Lemma perform_cframe cf p site cf' p' : performBucketProcess cf p site = Some (cf', p') -> cframe cf cf'.
Proof.
  intros H. destruct (perform_spec _ _ _ _ _ H) as (sl & cf1 & aff & ups & PX).
  pose proof (px_frame _ _ _ _ _ _ _ _ _ PX) as []. constructor; auto.
  apply zget_ext. intros y. rewrite !zget_map. rewrite (px_types _ _ _ _ _ _ _ _ _ PX).
  pose proof (lx_types _ _ _ _ _ _ _ (px_loop _ _ _ _ _ _ _ _ _ PX) y) as E. cbn [set_event cf_types] in E.
  destruct (zget (cf_types cf) y) as [t|] eqn:Et; cbn [obind] in E.
  - destruct (ofold applyUpdate _ t) as [t'|] eqn:Eu.
    + unfold bucket in *. rewrite E, Et. simpl. f_equal. eapply applyUpdates_len; eauto.
    + exfalso. apply zget_range in Et. rewrite (px_types _ _ _ _ _ _ _ _ _ PX) in pf_lt. rewrite <- pf_lt in Et. destruct (zget_lt _ _ Et). congruence.
  - unfold bucket in *. rewrite E, Et. reflexivity.
Qed.
Lemma step_cframe md u1 u2 md' : singleStep md u1 u2 = Some md' -> cframe (md_cf md) (md_cf md').
Proof.
  intros H. destruct (singleStep_info _ _ _ _ H) as (i & p & site & cf1 & p1 & SI & it1 & _ & _ & _ & _ & mt' & it' & cf' & CM & ->).
  destruct SI as (_ & _ & q & _ & _ & Eperf & _). cbn [md_cf].
  destruct (calculateMatching_cf _ _ _ _ _ _ _ _ CM) as [mls ->].
  eapply cframe_trans; [eapply perform_cframe; eauto|apply cframe_mlists].
Qed.
Lemma run_cframe us : forall md md', runSteps md us = Some md' -> cframe (md_cf md) (md_cf md').
Proof.
  induction us as [|u us IH]; intros md md' H; unfold runSteps in H; cbn [ofold] in H.
  - inversion H; apply cframe_refl.
  - ob H as md1 E. eapply cframe_trans; [eapply step_cframe; eauto|apply IH; exact H].
Qed.

(** ** what a reachable model looks like *)
Record reachInfo (ranks : Z) (hash : list Z -> Z) (L : lattice) (cf : config) (it : interactions) (md : model)
                 (cf1 : config) (it2 : interactions) : Prop := {
  ri_inv : Inv md;
  ri_lat : md_lat md = L;
  ri_init : initMatchLists L (maxRange it) cf = Some cf1;
  ri_expand : updateProcessMatchLists L cf1 (clearMatching it) = Some it2;
  ri_range : maxRange (md_in md) = maxRange it;
  ri_same : sameP it2 (md_in md);
  ri_frame : cframe cf1 (md_cf md);
  ri_coords : cf_coords (md_cf md) = cf_coords cf;
  ri_names : cf_names (md_cf md) = cf_names cf;
  ri_width : map zlen (cf_types (md_cf md)) = map zlen (cf_types cf) }.

Lemma initMatchLists_fields L R cf cf1 : initMatchLists L R cf = Some cf1 ->
  exists mls n, omap (fun i => configMatchList L cf i (neighbourIndices L i R)) (zrange 0 (zlen (cf_types cf) - 1)) = Some mls /\
   n = fold_left (fun m l => Nat.max m (length l)) mls 0%nat /\
   cf1 = set_moved (set_mlists cf mls) (cf_nmoved cf) (vresize 0 (cf_moved cf) n) (vresize czero (cf_recent cf) n).
Proof. unfold initMatchLists. intros H. ob H as mls E. inversion H; subst. exists mls. eexists. split; [exact E|]. split; reflexivity. Qed.

Lemma reachable_info ranks hash L cf it md : wfInput ranks L cf it -> reachable ranks hash L cf it md ->
  exists cf1 it2, reachInfo ranks hash L cf it md cf1 it2.
Proof.
  intros WI (md0 & us & H0 & H1).
  destruct (mkLatticeModel_inv _ _ _ _ _ _ WI H0) as (IV & EL & cf1 & it2 & it' & mt' & mls & E1 & E2 & E3 & E4 & E5 & E6 & _ & _).
  destruct (run_inv _ _ _ IV H1) as (IV' & SP & EL'). pose proof (run_cframe _ _ _ H1) as CF.
  assert (SP2 : sameP it2 (md_in md)).
  { eapply sameP_trans; [exact E5|]. eapply sameP_trans; [|exact SP]. rewrite E4. apply set_table_sameP. }
  exists cf1, it2. rewrite E6 in CF.
  destruct (initMatchLists_fields _ _ _ _ E1) as (ml0 & n & _ & _ & Ecf1).
  constructor; auto.
  - congruence.
  - rewrite (sameP_maxRange _ _ SP2). exact E3.
  - eapply cframe_trans; [apply cframe_mlists|exact CF].
  - rewrite (cfr_coords _ _ CF), Ecf1. reflexivity.
  - rewrite (cfr_names _ _ CF), Ecf1. reflexivity.
  - rewrite (cfr_width _ _ CF), Ecf1. reflexivity.
Qed.

(** process i of a reachable model is process i of the input with the padded match list *)
Lemma reachable_proc ranks hash L cf it md cf1 it2 i p' : reachInfo ranks hash L cf it md cf1 it2 ->
  zget (in_procs (md_in md)) i = Some p' ->
  exists p q, zget (in_procs it) i = Some p /\ zget (in_procs it2) i = Some q /\ pstatic p' = pstatic q /\
    (q = clearSites p \/ (in_wild it = true /\ expandProcess L cf1 (clearSites p) = Some q)).
Proof.
  intros RI Ep. destruct (sameP_get _ _ _ _ (ri_same _ _ _ _ _ _ _ _ RI) Ep) as (q & Eq & Hs).
  destruct (updateML_get _ _ _ _ (ri_expand _ _ _ _ _ _ _ _ RI)) as (_ & _ & _ & _ & HG).
  destruct (HG i q Eq) as (p0 & E0 & H0). unfold clearMatching in E0. cbn [set_procs in_procs] in E0. rewrite zget_map in E0.
  destruct (zget (in_procs it) i) as [p|] eqn:E; [|discriminate]. simpl in E0. inversion E0; subst p0. exists p, q. auto.
Qed.
Lemma reachable_proc_conv ranks hash L cf it md cf1 it2 i p : reachInfo ranks hash L cf it md cf1 it2 ->
  zget (in_procs it) i = Some p -> exists p', zget (in_procs (md_in md)) i = Some p'.
Proof.
  intros RI Ep. apply zget_lt. rewrite (sameP_len _ _ (ri_same _ _ _ _ _ _ _ _ RI)).
  destruct (updateML_get _ _ _ _ (ri_expand _ _ _ _ _ _ _ _ RI)) as (Hl & _). rewrite Hl.
  unfold clearMatching. cbn [set_procs in_procs]. rewrite zlen_map. eapply zget_range; eauto.
Qed.

(** ** the padded list of a regular process is aligned at every site *)
Lemma withTypes_geom types g : geom (map (withTypes types) g) = geom g.
Proof. unfold geom. rewrite map_map. reflexivity. Qed.

Lemma basis_range L x : wf_lattice L -> 0 <= x < nsites L -> 0 <= basisSiteFromIndex L x < lt_nb L.
Proof.
  intros WF Hx. destruct (site_of_index L WF x Hx) as (i & j & k & b & Hs & ->). rewrite (basis_global L WF _ _ _ _ Hs). apply Hs.
Qed.

Lemma reachable_aligned ranks hash L basis W cf it md cf1 it2 i p p' x cl g :
  wfInput ranks L cf it -> geoInput L basis (maxRange it) W cf -> in_wild it = true ->
  reachInfo ranks hash L cf it md cf1 it2 ->
  zget (in_procs it) i = Some p -> regular L basis (maxRange it) W p -> zget (in_procs (md_in md)) i = Some p' ->
  0 <= x < nsites L -> In (basisSiteFromIndex L x) (pr_basis p) ->
  scratchGeo L (maxRange it) (generateLatticeSites L basis) x = Some g -> geom cl = geom g ->
  sortedGeo L basis (maxRange it) x g /\
  exists m, alignedAt (pr_ml p) (pr_ml p') m cl /\
   omap (fun ab : Z * Z => a <- zget m (fst ab) ;; b <- zget m (snd ab) ;; Some (a, b)) (pr_idmoves p) = Some (pr_idmoves p').
Proof.
  intros WI GI HWild RI Ep RG Ep' Hx Hbx Eg Hcl.
  destruct (reachable_proc _ _ _ _ _ _ _ _ _ _ RI Ep') as (p2 & q & Ep2 & Eq & Hs & HQ). assert (p2 = p) by congruence. subst p2.
  pose proof (wi_lat _ _ _ _ WI) as WF. pose proof (gi_basis _ _ _ _ _ GI) as WB. pose proof (maxRange_pos it) as HRp.
  assert (HR0 : 0 <= maxRange it) by lia. set (R := maxRange it) in *.
  destruct (rg_basis _ _ _ _ _ RG) as (b & Hb & Hbr & _). rewrite Hb in Hbx. destruct Hbx as [Hbx|[]]. symmetry in Hbx.
  assert (SG : sortedGeo L basis R x g).
  { apply scratchGeo_sorted; auto; [apply GI|apply GI|]. rewrite Hbx. unfold cleanAt. apply GI. exact Hbr. }
  split; [exact SG|].
  assert (HE : expandProcess L cf1 (clearSites p) = Some q).
  { pose proof (ri_expand _ _ _ _ _ _ _ _ RI) as HX. unfold updateProcessMatchLists in HX.
    unfold clearMatching in HX. cbn [set_procs in_wild in_procs] in HX. rewrite HWild in HX. ob HX as ps Eps. inversion HX; subst it2.
    cbn [set_procs in_procs] in Eq. rewrite (omap_zget _ _ _ i Eps), zget_map, Ep in Eq. exact Eq. }
  clear HQ. unfold expandProcess in HE.
  change (pr_basis (clearSites p)) with (pr_basis p) in HE. change (pr_ml (clearSites p)) with (pr_ml p) in HE.
  change (pr_idmoves (clearSites p)) with (pr_idmoves p) in HE. rewrite Hb in HE. cbv zeta in HE.
  rewrite indicesFromCell_get in HE by exact Hbr. cbn [obind] in HE.
  set (x0 := globalIndex L (Z.quot (lt_ra L) 2) (Z.quot (lt_rb L) 2) (Z.quot (lt_rc L) 2) b) in *.
  assert (Hs0 : isSite L (Z.quot (lt_ra L) 2) (Z.quot (lt_rb L) 2) (Z.quot (lt_rc L) 2) b).
  { clear -WF Hbr. destruct WF. unfold isSite. rewrite !Z.quot_div_nonneg by lia.
    repeat split; try lia; try (apply Z.div_pos; lia); apply Z.div_lt_upper_bound; lia. }
  assert (Hx0 : 0 <= x0 < nsites L) by (apply globalIndex_range; auto).
  assert (Hb0 : basisSiteFromIndex L x0 = b) by (apply basis_global; auto). clearbody x0.
  ob HE as cl0 Ecl0.
  destruct (initMatchLists_fields _ _ _ _ (ri_init _ _ _ _ _ _ _ _ RI)) as (mls & n & Emls & _ & Ecf1). fold R in Emls.
  assert (Ecl : zget mls x0 = Some cl0) by (rewrite Ecf1 in Ecl0; exact Ecl0).
  rewrite (omap_zget _ _ _ x0 Emls), zget_zrange in Ecl by (rewrite (wi_types _ _ _ _ WI); lia). cbn [obind] in Ecl. rewrite Z.add_0_l in Ecl.
  change (scratchML L R cf x0 = Some cl0) in Ecl.
  destruct (scratch_eq L R cf x0) as (g0 & G1 & G2 & G3 & G4); auto; [apply WI|apply WI|].
  rewrite G3, G4 in Ecl. inversion Ecl as [Ecl1]. rewrite (gi_coords _ _ _ _ _ GI) in G1.
  assert (SG0 : sortedGeo L basis R x0 g0).
  { apply scratchGeo_sorted; auto; [apply GI|apply GI|]. rewrite Hb0. unfold cleanAt. apply GI. exact Hbr. }
  assert (AL : alignedAt (pr_ml p) (fst (insertWildcards (lt_unit L) (pr_ml p) cl0 0)) (snd (insertWildcards (lt_unit L) (pr_ml p) cl0 0)) cl).
  { eapply aligned_at with (b := b) (x0 := x0) (g0 := g0) (x := x) (g := g); eauto.
    - apply GI.
    - apply GI.
    - unfold cleanAt. apply GI. exact Hbr.
    - rewrite <- Ecl1. apply withTypes_geom.
    - intros c Hc. rewrite <- Ecl1 in Hc. apply in_map_iff in Hc. destruct Hc as (c' & <- & Hc').
      cbn [withTypes ce_types]. specialize (G2 c' Hc'). rewrite <- (wi_types _ _ _ _ WI) in G2.
      destruct (zget_lt _ _ G2) as [t Et]. rewrite Et. apply zget_In in Et. apply (gi_width _ _ _ _ _ GI) in Et.
      pose proof (gi_pos _ _ _ _ _ GI). intros Ht. rewrite Ht in Et. change (zlen (@nil Z)) with 0 in Et. lia. }
  destruct (insertWildcards (lt_unit L) (pr_ml p) cl0 0) as [l m]. cbn [fst snd] in AL.
  ob HE as idm Eid. inversion HE; subst q.
  apply pstatic_fields in Hs. cbn [set_ml pr_ml pr_idmoves] in Hs. exists m.
  destruct Hs as (_ & _ & _ & _ & _ & _ & Hml & _ & Hid & _). rewrite Hml, Hid. split; [exact AL|exact Eid].
Qed.

(** ** listed exactly when possible *)
Lemma reachable_widths ranks hash L cf it md cf1 it2 W : reachInfo ranks hash L cf it md cf1 it2 ->
  (forall t, In t (cf_types cf) -> zlen t = W) -> forall t, In t (cf_types (md_cf md)) -> zlen t = W.
Proof.
  intros RI H t Ht. apply In_zget in Ht. destruct Ht as [y Ey].
  destruct (map_eq_zget _ _ _ _ _ (ri_width _ _ _ _ _ _ _ _ RI) Ey) as (t0 & E0 & E1).
  rewrite <- E1. apply H. eapply zget_In; eauto.
Qed.

Lemma scratch_at ranks hash L cf it md cf1 it2 x : wfInput ranks L cf it -> reachInfo ranks hash L cf it md cf1 it2 -> 0 <= x < nsites L ->
  usedBy L (md_in md) x ->
  exists cl g, zget (cf_mlists (md_cf md)) x = Some cl /\ scratchGeo L (maxRange it) (cf_coords cf) x = Some g /\ geom cl = geom g /\
    (forall c, In c cl -> 0 <= ce_index c < nsites L /\ zget (cf_types (md_cf md)) (ce_index c) = Some (ce_types c)) /\
    scratchML L (maxRange it) (md_cf md) x = Some cl.
Proof.
  intros WI RI Hx HU. pose proof (ri_inv _ _ _ _ _ _ _ _ RI) as IV. destruct IV.
  pose proof (ri_lat _ _ _ _ _ _ _ _ RI) as EL. rewrite EL in *.
  destruct (scratch_eq L (maxRange it) (md_cf md) x) as (g & G1 & G2 & G3 & G4); auto; [pose proof (maxRange_pos it); lia|].
  specialize (iv_fresh x Hx HU). rewrite (ri_range _ _ _ _ _ _ _ _ RI), G3, G4 in iv_fresh.
  exists (map (withTypes (cf_types (md_cf md))) g), g. split; [exact iv_fresh|].
  split; [rewrite <- (ri_coords _ _ _ _ _ _ _ _ RI); exact G1|]. split; [apply withTypes_geom|].
  split; [|rewrite G3; exact G4]. intros c Hc. apply in_map_iff in Hc. destruct Hc as (c' & <- & Hc'). cbn [withTypes ce_index ce_types].
  specialize (G2 c' Hc'). split; [exact G2|]. rewrite <- iv_lt in G2. destruct (zget_lt _ _ G2) as [t Et]. rewrite Et. reflexivity.
Qed.

Theorem listed_possible ranks hash L basis W cf it md i p x :
  wfInput ranks L cf it -> geoInput L basis (maxRange it) W cf -> in_wild it = true ->
  reachable ranks hash L cf it md ->
  zget (in_procs it) i = Some p -> regular L basis (maxRange it) W p -> 0 <= x < nsites L ->
  (listed md i x <-> possible L (cf_coords (md_cf md)) (cf_types (md_cf md)) p x).
Proof.
  intros WI GI HWild HRe Ep RG Hx. destruct (reachable_info _ _ _ _ _ _ WI HRe) as (cf1 & it2 & RI).
  destruct (reachable_proc_conv _ _ _ _ _ _ _ _ _ _ RI Ep) as [p' Ep'].
  destruct (reachable_proc _ _ _ _ _ _ _ _ _ _ RI Ep') as (p2 & q & Ep2 & Eq & Hs & HQ). assert (p2 = p) by congruence. subst p2.
  assert (Hbas : pr_basis p' = pr_basis p).
  { apply pstatic_fields in Hs. destruct Hs as (_ & _ & _ & _ & _ & _ & _ & -> & _).
    destruct HQ as [->|[_ HQ]]; [reflexivity|]. apply expand_fields in HQ. destruct HQ as (_ & _ & _ & _ & _ & _ & _ & _ & _ & _ & _ & -> & _). reflexivity. }
  pose proof (ri_inv _ _ _ _ _ _ _ _ RI) as IV. pose proof (ri_lat _ _ _ _ _ _ _ _ RI) as EL.
  rewrite (ri_coords _ _ _ _ _ _ _ _ RI), (gi_coords _ _ _ _ _ GI).
  assert (HPI : pairIn L (md_in md) x i <-> In (basisSiteFromIndex L x) (pr_basis p)).
  { unfold pairIn. split; [intros (p3 & E3 & H3); congruence|]. intros H. exists p'. split; [exact Ep'|congruence]. }
  assert (Hdec : In (basisSiteFromIndex L x) (pr_basis p) \/ ~ In (basisSiteFromIndex L x) (pr_basis p)) by (destruct (in_dec Z.eq_dec (basisSiteFromIndex L x) (pr_basis p)); auto).
  destruct Hdec as [Hin|Hnin].
  - assert (HU : usedBy L (md_in md) x) by (exists i; apply HPI; exact Hin).
    destruct (scratch_at _ _ _ _ _ _ _ _ _ WI RI Hx HU) as (cl & g & M1 & M2 & M3 & M4 & _).
    rewrite (gi_coords _ _ _ _ _ GI) in M2.
    destruct (reachable_aligned _ _ _ _ _ _ _ _ _ _ _ _ _ _ _ _ WI GI HWild RI Ep RG Ep' Hx Hin M2 M3) as (SG & m & AL & _).
    destruct (rg_basis _ _ _ _ _ RG) as (b & Hb & _).
    rewrite <- (aligned_match L basis (maxRange it) W p b (pr_ml p') m cl x g); auto.
    + unfold listed. rewrite (iv_listed _ IV); rewrite ?EL; auto; [|apply HPI; exact Hin].
      unfold matchAt. split.
      * intros (p3 & cl3 & E3 & E4 & E5). congruence.
      * intros H. exists p', cl. auto.
    + apply WI.
    + apply GI.
    + apply GI.
    + rewrite Hb in Hin. destruct Hin as [E|[]]. auto.
    + intros c Hc. apply M4; auto.
  - split.
    + intros (r & Hr). apply (iv_evt _ IV) in Hr. rewrite EL in Hr. destruct Hr as [_ Hr]. apply HPI in Hr. contradiction.
    + intros [H _]. contradiction.
Qed.
