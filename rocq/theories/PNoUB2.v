(** Every step of a simulation stays within the bounds of its arrays: reachable states. *)
From Verif Require Import PBase SModel SGeo SEvent SBuild SPlain SStep SBucket SNoUB PLattice PProcess PMpi PRateTable PMatcher PPerform PStep PRun PGeo PPossible PRematch PEffect PEvent
  PBuild PPlain PStepInv PRow PBucket TSelect TStep PRates PEnv PCache PNoUB.
Open Scope string_scope.
Open Scope list_scope.
Open Scope Z_scope.

(** ** custom rates *)
Lemma fill_total m it cf ts : forall xs rs rest, omap (lookupTask m it cf) ts = Some xs -> omap (taskRate it cf) (filter isMiss xs) = Some rs ->
  exists fs, fillRates xs (rs ++ rest) = Some (fs, rest).
Proof.
  induction ts as [|t ts IH]; intros xs rs rest Ex Er.
  - inversion Ex; subst. inversion Er; subst. exists []. reflexivity.
  - cbn [omap] in Ex. ob Ex as x Ex1. ob Ex as xs' Ex2. inversion Ex; subst xs; clear Ex. destruct (lookup_inv _ _ _ _ _ Ex1) as (p & d & Ep & Ed & ->).
    cbn [filter isMiss] in Er. destruct (rtRetrieve (mt_rt m) (mt_hash m d)) as [r|] eqn:E.
    + destruct (IH _ _ rest Ex2 Er) as (fs & F2). exists (set_rate t r :: fs). cbn [fillRates]. rewrite F2. reflexivity.
    + cbn [omap] in Er. ob Er as r Er1. ob Er as rs' Er2. inversion Er; subst rs; clear Er.
      destruct (IH _ _ rest Ex2 Er2) as (fs & F2). exists (set_rate t r :: fs). cbn [app fillRates]. rewrite F2. reflexivity.
Qed.
Lemma custom_total m it cf upd add : 1 <= mt_ranks m -> rtInv (mt_rt m) -> numbered it ->
  (forall t, In t upd \/ In t add -> exists f, rateTask it cf t = Some f) -> customRates m it cf upd add <> None.
Proof.
  intros Hr HI HN HT. destruct (omap_total (rateTask it cf) upd) as [fu Gu]; [intros t Ht; apply HT; auto|]. destruct (omap_total (rateTask it cf) add) as [fa Ga]; [intros t Ht; apply HT; auto|].
  destruct (fill_bwd m _ _ _ _ Gu) as (xu & ru & Eu & Eru). destruct (fill_bwd m _ _ _ _ Ga) as (xa & ra & Ea & Era).
  unfold customRates. rewrite Ea. cbn [Base.obind]. rewrite Eu. cbn [Base.obind]. cbv zeta. rewrite mpiMap_omap by exact Hr.
  change (fun x : ratetask * Z * option Z * Z => let '(t, _, _, _) := x in p <- zget (in_procs it) (rt_process t) ;; updateSingleRate cf (in_rc it) p (rt_index t)) with (taskRate it cf).
  rewrite omap_app, Era. cbn [Base.obind]. rewrite Eru. cbn [Base.obind].
  destruct (fill_total _ _ _ _ _ _ ru Ea Era) as (fs & F2). rewrite F2. cbn [Base.obind snd].
  destruct (fill_total _ _ _ _ _ _ [] Eu Eru) as (fs' & F4). rewrite app_nil_r in F4. rewrite F4. cbn [Base.obind fst snd].
  destruct (store_total it (combine (filter isMiss xa ++ filter isMiss xu) (ra ++ ru)) HN) with (rt := mt_rt m) as [rt Ert]; [|exact HI|].
  - intros [x r] Hx. apply in_combine_l in Hx. cbn [fst].
    assert (Hl : exists t, lookupTask m it cf t = Some x).
    { apply in_app_or in Hx. destruct Hx as [Hx|Hx]; apply filter_In in Hx; destruct Hx as [Hx _]; [destruct (omap_In _ _ _ _ Ea Hx) as (t & _ & E)|destruct (omap_In _ _ _ _ Eu Hx) as (t & _ & E)]; eauto. }
    destruct Hl as [t Hl]. destruct (lookup_inv _ _ _ _ _ Hl) as (p & d & Ep & _ & ->). cbn [snd]. exists p. rewrite (HN _ _ Ep). exact Ep.
  - rewrite Ert. cbn [Base.obind]. discriminate.
Qed.
Lemma within_split cut near : forall far rest, (forall e, In e near -> ce_d2 e <= cut) -> cut < ce_d2 far -> withinCutoff cut (near ++ far :: rest) = Some near.
Proof.
  induction near as [|e near IH]; intros far rest H1 H2; cbn [app withinCutoff].
  - destruct (Z.leb_spec (ce_d2 far) cut); [lia|reflexivity].
  - destruct (Z.leb_spec (ce_d2 e) cut) as [_|H]; [|specialize (H1 e (or_introl eq_refl)); lia]. rewrite IH; [reflexivity|intros e' He; apply H1; right; exact He|exact H2].
Qed.
Lemma geom_split a : forall b c, geom c = geom (a ++ b) -> exists a' b', c = a' ++ b' /\ geom a' = geom a /\ geom b' = geom b.
Proof.
  induction a as [|e a IH]; intros b c H; cbn [app] in H; [exists [], c; auto|]. destruct c as [|e' c]; [discriminate|]. cbn [geom map] in H. injection H as H1 H2 H3 H4.
  destruct (IH b c H4) as (a' & b' & -> & A & B). exists (e' :: a'), b'. split; [reflexivity|]. split; [|exact B]. cbn [geom map]. unfold geom in A. rewrite A. congruence.
Qed.
Lemma geom_d2 a : forall b e, geom a = geom b -> In e a -> exists e', In e' b /\ ce_d2 e' = ce_d2 e /\ ce_index e' = ce_index e.
Proof.
  induction a as [|x a IH]; intros [|y b] e H He; try discriminate; [destruct He|]. cbn [geom map] in H. injection H as H1 H2 H3 H4. destruct He as [<-|He]; [exists y; repeat split; [left; reflexivity|congruence|congruence]|].
  destruct (IH b e H4 He) as (e' & A & B & C). exists e'. split; [right; exact A|auto].
Qed.
Lemma afterStep_total W cf l : zlen (cf_names cf) = W -> (forall e, In e l -> zlen (pe_upd e) = W) -> 1 <= W ->
  forall k tb up, 0 <= k -> k + zlen l <= zlen tb -> k + zlen l <= zlen up -> exists r, ofold (afterStep cf) (combine (zrange k (k + zlen l - 1)) l) (tb, up) = Some r.
Proof.
  intros HN HE HW. induction l as [|e l IH]; intros k tb up Hk Ht Hu.
  - destruct (zrange k (k + zlen (@nil pentry) - 1)); cbn; eauto.
  - rewrite zlen_cons in *. pose proof (zlen_nonneg l). rewrite zrange_cons by lia. cbn [combine ofold afterStep fst snd].
    destruct (zset_lt up k (pe_upd e)) as [up' Eup]; [lia|]. rewrite Eup. cbn [Base.obind]. pose proof (zset_len _ _ _ _ Eup) as LU.
    replace (k + (zlen l + 1) - 1) with ((k + 1) + zlen l - 1) by lia.
    assert (HE' : forall e', In e' l -> zlen (pe_upd e') = W) by (intros e' He'; apply HE; right; exact He').
    destruct (zsum (map Z.abs (pe_upd e)) =? 0); [cbn [Base.obind]; apply IH; auto; lia|].
    unfold beqi. pose proof (HE e (or_introl eq_refl)) as WE. unfold bucket in *. destruct (Z.leb_spec (zlen (pe_upd e)) 0); [lia|]. cbn [Base.obind].
    destruct (list_eqb _ _); [cbn [Base.obind]; apply IH; auto; lia|]. destruct (firstOne (pe_upd e) 0) as [j|] eqn:Ej; [|cbn [Base.obind]; apply IH; auto; lia].
    apply firstOne_spec in Ej. destruct Ej as [Ej Hj]. apply zget_range in Ej. destruct (zget_lt (cf_names cf) j) as [s Es]; [lia|]. rewrite Es. cbn [Base.obind].
    destruct (zset_lt tb k s) as [tb' Etb]; [lia|]. rewrite Etb. cbn [Base.obind]. pose proof (zset_len _ _ _ _ Etb). apply IH; auto; lia.
Qed.
Lemma usr_total W N cf rc p x cl near far rest : cfgOK W N cf -> 1 <= W -> zlen (cf_coords cf) = N -> 0 <= x < N -> zget (cf_mlists cf) x = Some cl -> (forall c, In c cl -> 0 <= ce_index c < N) ->
  geom cl = geom (near ++ far :: rest) -> near <> [] -> zlen (pr_ml p) <= zlen near -> (forall e, In e near -> ce_d2 e <= pr_cut2 p) -> pr_cut2 p < ce_d2 far ->
  (forall e, In e (pr_ml p) -> zlen (pe_upd e) = W) ->
  exists env r, withinCutoff (pr_cut2 p) cl = Some env /\ updateSingleRate cf rc p x = Some r.
Proof.
  intros CO HW HC Hx Ecl HI HG HN HL H1 H2 HE. destruct (geom_split _ _ _ HG) as (near' & b' & -> & GA & GB). destruct b' as [|far' rest']; [discriminate|].
  assert (Hn : forall e, In e near' -> ce_d2 e <= pr_cut2 p) by (intros e He; destruct (geom_d2 _ _ _ GA He) as (e' & A & B & _); rewrite <- B; auto).
  assert (Hf : pr_cut2 p < ce_d2 far') by (cbn [geom map] in GB; injection GB as _ B _ _; lia).
  assert (LN : zlen near' = zlen near) by (apply (f_equal zlen) in GA; unfold geom in GA; rewrite !zlen_map in GA; exact GA).
  pose proof (within_split _ _ far' rest' Hn Hf) as EW. exists near'. unfold updateSingleRate. rewrite Ecl. cbn [Base.obind]. rewrite EW. cbn [Base.obind].
  assert (HI' : forall c, In c near' -> 0 <= ce_index c < N) by (intros c Hc; apply HI; apply in_or_app; left; exact Hc).
  destruct (omap_total (fun e => els <- zget (cf_elements cf) (ce_index e) ;; zget els 0) near') as [tb Etb].
  { intros e He. destruct (zget_lt (cf_elements cf) (ce_index e)) as [els Eels]; [rewrite (co_elements _ _ _ CO); auto|]. rewrite Eels. cbn [Base.obind]. apply zget_lt.
    pose proof (co_some _ _ _ CO els (zget_In _ _ _ Eels)) as NE. destruct els as [|a l]; [congruence|]. rewrite zlen_cons. pose proof (zlen_nonneg l). lia. }
  rewrite Etb. cbn [Base.obind]. destruct (omap_total (fun e => zget (cf_types cf) (ce_index e)) near') as [oc Eoc].
  { intros e He. apply zget_lt. rewrite (co_types _ _ _ CO). auto. }
  rewrite Eoc. cbn [Base.obind]. pose proof (omap_zlen _ _ _ Etb) as L1. pose proof (omap_zlen _ _ _ Eoc) as L2.
  assert (LP : 1 <= zlen near) by (destruct near; [congruence|]; rewrite zlen_cons; pose proof (zlen_nonneg near); lia).
  destruct (zget_lt oc 0) as [o0 E0]; [lia|]. rewrite E0. cbn [Base.obind].
  destruct (afterStep_total W cf (pr_ml p) (co_names _ _ _ CO) HE HW 0 tb (repeat (repeat 0 (length o0)) (length near'))) as [r Er]; [lia|lia|unfold zlen in *; rewrite repeat_length; lia|].
  match goal with |- context [ofold ?f ?l ?a] => assert (Er' : ofold f l a = Some r) by exact Er; rewrite Er' end. cbn [Base.obind]. destruct (zget_lt (cf_coords cf) x) as [g Eg]; [lia|]. rewrite Eg. cbn [Base.obind]. destruct (pr_bucket p); eexists; (split; [reflexivity|reflexivity]).
Qed.

(** ** entries *)
Definition keepsOne (p : process) : Prop := forall e, In e (pr_ml p) -> changes e ->
  ~ wildEntry e /\ exists k n u, zget (pe_match e) k = Some n /\ zget (pe_upd e) k = Some u /\ 0 < n + u.
Lemma user_keepsOne ranks L cf it spec i p : userInput ranks L cf it spec -> zget (in_procs it) i = Some p -> neverEmpties (cf_ptypes cf) (spec i) -> keepsOne p.
Proof.
  intros UI Ep NE e He HC. pose proof (ui_procs _ _ _ _ _ UI i p Ep) as B. pose proof (ui_pt _ _ _ _ _ UI) as WP. unfold builtFrom, neverEmpties in *. destruct (spec i) as [rows|rows]; destruct B as (WR & basis & B).
  - destruct (builtPlain_spec _ _ _ _ _ WP B) as [es PO]. apply In_zget in He. destruct He as [j Ej]. destruct (ml_row _ _ _ _ _ _ PO j e Ej) as (i0 & r & Er & _ & F). apply zget_In in Er.
    pose proof (entry_upd0 _ _ WP WR r e Er F) as U0. pose proof (entry_changes _ WP r e F) as EC. pose proof (entry_wild _ WP r e F) as EWd.
    destruct (en_kinds _ _ _ F) as (kb & ka & K1 & K2 & [LM UM] & LU & UU). pose proof (proj1 EC HC) as Hne. pose proof (tfind_range _ _ _ WP K1) as R1. pose proof (tfind_range _ _ _ WP K2) as R2.
    assert (Hk : ka <> kb) by (intros ->; apply Hne; eapply tfind_inj; eauto). split.
    + intros HWd. pose proof HWd as HWd'. apply EWd in HWd'. destruct WP as (_ & _ & W0). rewrite HWd' in K1. assert (kb = 0) by congruence. subst kb. rewrite (UU _ _ U0) in U0.
      destruct (Z.eqb_spec 0 ka); [congruence|]. rewrite Z.eqb_refl in U0. discriminate.
    + destruct (zget_lt (pe_match e) ka) as [n En]; [unfold bucket in *; lia|]. destruct (zget_lt (pe_upd e) ka) as [u Eu]; [unfold bucket in *; lia|]. exists ka, n, u. split; [exact En|]. split; [exact Eu|].
      rewrite (UM _ _ En), (UU _ _ Eu), Z.eqb_refl. destruct (Z.eqb_spec ka kb); [congruence|]. lia.
  - destruct (builtBucket_spec _ _ _ _ _ WP WR B) as [es BO]. destruct (bml_row _ _ _ _ _ _ BO e He) as (r & Hr & F).
    assert (HX : exists s, change (br_upd r) s <> 0).
    { destruct HC as (k & n & Ek & Hn). apply zget_range in Ek as Hk. rewrite (eb_lupd _ _ _ F) in Hk. destruct (kind_name _ WP k Hk) as [s Hs]. exists s. rewrite (eb_upd _ _ _ F s k Hs) in Ek. congruence. }
    destruct (NE r Hr HX) as [N1 (s & k & Hs & Hp)]. split.
    + intros HW. apply N1. destruct WP as (_ & _ & W0). unfold wildEntry in HW. rewrite (eb_match _ _ _ F "*" 0 W0) in HW. injection HW as HW. unfold SBucket.howMany in HW.
      destruct (filter (String.eqb "*") (br_before r)) as [|a l] eqn:EF; [discriminate|]. assert (Hin : In a (filter (String.eqb "*") (br_before r))) by (rewrite EF; left; reflexivity).
      apply filter_In in Hin. destruct Hin as [Hin Ea]. apply String.eqb_eq in Ea. subst a. exact Hin.
    + exists k, (SBucket.howMany s (br_before r)), (change (br_upd r) s). split; [apply (eb_match _ _ _ F); exact Hs|]. split; [apply (eb_upd _ _ _ F); exact Hs|exact Hp].
Qed.

(** ** configurations of reachable states *)
Lemma start_cfgOK ranks L cf it : wfInput ranks L cf it -> wfPT (cf_ptypes cf) -> (exists coords els, mkConfiguration coords els (cf_ptypes cf) = Some cf) -> cfgOK (zlen (cf_ptypes cf)) (nsites L) cf.
Proof.
  intros WI WP (coords & els & E). apply mkConfiguration_info in E. destruct E as [A1 A2 A3 A4 A5 A6 A7 A8 A9 A10 A11]. destruct (names_wf _ _ WP A7) as [NL _].
  pose proof (wi_coords _ _ _ _ WI) as LC. rewrite A1 in LC. pose proof (wi_elements _ _ _ _ WI) as LE. rewrite A2 in LE. constructor.
  - apply WI.
  - rewrite A2. exact LE.
  - rewrite A4, zlen_zrange. pose proof (zlen_nonneg coords). lia.
  - rewrite A3. exact LC.
  - rewrite A10. exact LE.
  - exact NL.
  - intros t Ht. destruct (omap_In _ _ _ _ A8 Ht) as (e & He & Eb). rewrite (bucketOf_len _ _ _ _ Eb), NL. apply Z.max_r, zlen_nonneg.
  - rewrite A2. intros e He. apply In_zget in He. destruct He as [i Ei]. apply zget_range in Ei as Hi. destruct (A9 i) as (e' & s & B1 & B2 & _); [lia|]. assert (e' = e) by congruence. subst e'. intros ->. discriminate.
  - rewrite A4. intros id Hid. apply In_zrange in Hid. lia.
Qed.
Lemma cfgOK_same W N a b : sameCfg a b -> cfgOK W N a -> cfgOK W N b.
Proof. intros [] []. constructor; congruence || (intros; eauto; rewrite ?sc_types, ?sc_elements, ?sc_aid in *; eauto). Qed.
Lemma pick_listed md i p q u2 site : Inv md -> zget (in_procs (md_in md)) i = Some p -> updateRateTable p = Some q -> pickSite q u2 = Some site -> listed md i site.
Proof.
  intros IV Ep Eq Es. destruct (updateRateTable_spec _ _ Eq) as (inc & ->). unfold pickSite in Es. ob Es as tot E1. ob Es as pos E2. apply zget_In in Es. cbn [set_inc pr_sites] in Es.
  destruct (sites_in_events p site (bi_proc _ _ (iv_binv _ IV) i p Ep) Es) as [r Hr]. exists r, p. auto.
Qed.

Section Reach.
Context (ranks : Z) (hash : list Z -> Z) (L : lattice) (cf : config) (it : interactions) (spec : Z -> pspec).
Context (UI : userInput ranks L cf it spec) (NE : forall i p, zget (in_procs it) i = Some p -> neverEmpties (cf_ptypes cf) (spec i)).
Let W := zlen (cf_ptypes cf).
Let N := nsites L.
Let ST : stdInput ranks L cf it := user_std _ _ _ _ _ UI.
Let WI : wfInput ranks L cf it := ui_wf _ _ _ _ _ UI.

Lemma W_pos : 1 <= W.
Proof using UI. apply (pt_pos _ _ _ _ ST). Qed.

(** the lists of surroundings are never longer than the buffers for moved atoms *)
Lemma buffers md x sl : reachable ranks hash L cf it md -> 0 <= x < N -> zget (cf_mlists (md_cf md)) x = Some sl -> zlen sl <= zlen (cf_moved (md_cf md)) /\ zlen sl <= zlen (cf_recent (md_cf md)).
Proof using UI.
  intros HR Hx Esl. destruct (reachable_info _ _ _ _ _ _ WI HR) as (cf1 & it2 & RI). pose proof (ri_inv _ _ _ _ _ _ _ _ RI) as IV. pose proof (ri_lat _ _ _ _ _ _ _ _ RI) as EL.
  destruct (iv_geom _ IV x) as (cl & g & G1 & G2 & G3); [rewrite EL; exact Hx|]. rewrite EL, (ri_range _ _ _ _ _ _ _ _ RI), (ri_coords _ _ _ _ _ _ _ _ RI) in G2. assert (cl = sl) by congruence. subst cl.
  pose proof (maxRange_pos it) as HP. pose proof (wi_types _ _ _ _ WI) as LT.
  destruct (scratch_eq L (maxRange it) cf x (wi_lat _ _ _ _ WI)) as (g' & F1 & F2 & F3 & F4); [lia|apply WI|exact LT|exact Hx|]. assert (g' = g) by congruence. subst g'.
  destruct (initMatchLists_fields _ _ _ _ (ri_init _ _ _ _ _ _ _ _ RI)) as (mls & n & E & En & E1).
  assert (HM : zget mls x = Some (map (withTypes (cf_types cf)) g)).
  { rewrite (omap_zget _ _ _ x E), zget_zrange by (rewrite LT; lia). cbn [Base.obind]. rewrite Z.add_0_l. rewrite <- F4, <- F3. reflexivity. }
  assert (HL : (length sl <= n)%nat).
  { assert (length sl = length (map (withTypes (cf_types cf)) g)) as ->. { rewrite map_length. apply (f_equal (@length _)) in G3. unfold geom in G3. rewrite !map_length in G3. exact G3. }
    rewrite En. apply zget_In in HM. revert HM. generalize (map (withTypes (cf_types cf)) g). generalize 0%nat. clear. induction mls as [|a mls IH]; intros m l Hin; [destruct Hin|]. cbn [fold_left].
    assert (G : forall ls m, (m <= fold_left (fun m l => Nat.max m (length l)) ls m)%nat) by (induction ls as [|b ls IHl]; intros k; cbn [fold_left]; [lia|]; specialize (IHl (Nat.max k (@length centry b))); lia).
    destruct Hin as [->|Hin]; [specialize (G mls (Nat.max m (length l))); lia|apply IH; exact Hin]. }
  pose proof (ri_frame _ _ _ _ _ _ _ _ RI) as CF. rewrite (cfr_lm _ _ CF), (cfr_lr _ _ CF), E1. cbn [set_moved cf_moved cf_recent]. unfold vresize, zlen. rewrite !app_length, !firstn_length, !repeat_length. lia.
Qed.

Lemma perform_reach md i p' q x : reachable ranks hash L cf it md -> cfgOK W N (md_cf md) -> zget (in_procs (md_in md)) i = Some p' ->
  pr_ml q = pr_ml p' -> pr_idmoves q = pr_idmoves p' -> zlen (pr_aff q) = zlen (pr_aff p') -> listed md i x ->
  exists cf' q', performBucketProcess (md_cf md) q x = Some (cf', q') /\ cfgOK W N cf'.
Proof using UI NE.
  intros HRe CO Ep' Eml Eidm Eaff HL. destruct (reachable_info _ _ _ _ _ _ WI HRe) as (cf0 & it2 & RI). pose proof (wi_lat _ _ _ _ WI) as WF.
  destruct (reachable_proc _ _ _ _ _ _ _ _ _ _ RI Ep') as (p & q0 & Ep & _). destruct (builtFrom_facts _ _ _ _ _ _ _ UI Ep) as (SN & SL & HW).
  destruct (reachable_padded _ _ _ _ _ _ _ _ _ WI HRe (fun t Ht => std_nonempty _ _ _ _ ST t Ht) Ep Ep') as (pos & PD & PI).
  pose proof (ri_inv _ _ _ _ _ _ _ _ RI) as IV. pose proof (ri_lat _ _ _ _ _ _ _ _ RI) as EL.
  assert (HPI : 0 <= x < nsites L /\ pairIn L (md_in md) x i) by (destruct HL as [r Hr]; apply (iv_evt _ IV) in Hr; rewrite EL in Hr; exact Hr).
  destruct HPI as [Hx HP0]. assert (HU : usedBy L (md_in md) x) by (exists i; exact HP0).
  destruct (scratch_at _ _ _ _ _ _ _ _ _ WI RI Hx HU) as (sl & g & M1 & M2 & M3 & M4 & M5). pose proof (maxRange_pos it) as HRp.
  apply (listed_scratch _ _ _ _ _ _ i x WI HRe Hx) in HL. destruct HL as (p3 & cl & Ep3 & Hb & Ecl & HMa). assert (p3 = p') by congruence. subst p3.
  rewrite (ri_range _ _ _ _ _ _ _ _ RI) in Ecl. assert (cl = sl) by congruence. subst cl. apply (proj1 (padded_match _ _ _ _ _ PD)) in HMa. destruct HMa as [HLn HMa].
  destruct (buffers md x sl HRe Hx M1) as [B1 B2]. pose proof (user_keepsOne _ _ _ _ _ _ _ UI Ep (NE i p Ep)) as KO.
  assert (HLn' : (length (pr_ml q) <= length sl)%nat) by (rewrite Eml; unfold zlen in HLn; lia).
  pose proof W_pos as HW1.
  apply (perform_total W N (md_cf md) q x sl); auto.
  - intros c Hc. apply M4. exact Hc.
  - rewrite (geom_eq_index _ _ M3). eapply Permutation_NoDup; [apply Permutation_sym; eapply scratchGeo_index; eauto|].
    destruct (ui_fits _ _ _ _ _ UI) as (F1 & F2 & F3). apply neighbour_NoDup; auto; lia.
  - intros e He. rewrite Eml in He. destruct (reach_entry_width _ _ _ _ _ _ _ _ _ _ UI HRe Ep' He) as [_ ->]. exact HW1.
  - intros [e c] Hz. apply activeList_In in Hz. destruct Hz as (k & Z1 & Z2 & Z3). cbn [fst snd] in *. rewrite Eml in Z1.
    destruct PD as (PD1 & PD2 & PD3). destruct (PD3 k e Z1) as [(j & Hj & Hp)|HI]; [|apply inert_inactive in HI; congruence].
    destruct (zget_lt (pr_ml p) j Hj) as [e' Ej]. assert (e' = e) by (pose proof (PD1 j e' Ej) as E'; rewrite Hp in E'; congruence). subst e'. pose proof (zget_In _ _ _ Ej) as Hin.
    assert (HC : changes e) by (apply changes_active; [apply (sn_upd0 _ SN); exact Hin|exact Z3]).
    destruct (KO e Hin HC) as [NW (k0 & n & u & K1 & K2 & K3)]. rewrite <- Hp in Z2. pose proof (HMa j e c Ej Z2) as HM. apply peMatch_true in HM. destruct HM as [HM|(_ & _ & (HCl & HC0) & _)]; [contradiction|].
    destruct (M4 c (zget_In _ _ _ Z2)) as [Rc Tc]. destruct (HW e Hin) as [W1 W2]. split; [exact W2|]. cbn [fst snd]. destruct (zget_lt (ce_types c) k0) as [m Em]; [apply zget_range in K1; unfold bucket in *; lia|].
    exists (ce_types c), k0, m, u. split; [exact Tc|]. split; [exact Em|]. split; [exact K2|]. specialize (HC0 _ _ _ K1 Em). lia.
  - rewrite Eaff, (reachable_aff _ _ _ _ _ _ _ _ _ _ _ RI Ep Ep'). unfold slots in SL. rewrite SL. unfold zlen. apply Nat2Z.inj_le.
    rewrite activeList_length by exact HLn'. rewrite Eml, (padded_active _ _ _ PD). apply Nat.eq_le_incl. f_equal. apply filter_ext_in. intros e He.
    apply eq_true_iff_eq. rewrite <- changes_bool. symmetry. apply changes_active. apply (sn_upd0 _ SN); exact He.
  - rewrite Eidm, PI. intros a b Hab. apply in_map_iff in Hab. destruct Hab as ([a0 b0] & E & Hab). cbn [fst snd] in E. inversion E; subst. destruct (sn_idrange _ SN a0 b0 Hab) as [Ra Rb].
    assert (G : forall j, 0 <= j < zlen (pr_ml p) -> 0 <= pos j < zlen sl).
    { intros j Hj. destruct (zget_lt (pr_ml p) j Hj) as [e Ej]. destruct PD as (PD1 & _). pose proof (PD1 j e Ej) as E'. apply zget_range in E'. lia. }
    split; apply G; assumption.
Qed.

Lemma reach_cfgOK md : reachable ranks hash L cf it md -> cfgOK W N (md_cf md).
Proof using UI NE.
  revert md. apply (reach_ind ranks hash L cf it (fun md => cfgOK W N (md_cf md))).
  - intros md0 E0. eapply cfgOK_same; [eapply mkLatticeModel_cfg; eauto|]. unfold W, N. apply (start_cfgOK ranks L cf it); apply UI.
  - intros md u1 u2 md' HR IH H. destruct (reachable_info _ _ _ _ _ _ WI HR) as (cf0 & it2 & RI). pose proof (ri_inv _ _ _ _ _ _ _ _ RI) as IV.
    destruct (std_step _ hash _ _ _ ST _ _ _ _ HR H) as (i & p & x & ys & Ep & Epk & HL & _).
    rewrite singleStep_split in H. ob H as e Ee. destruct e as [[it1 cf1] idx]. ob H as r Er. destruct r as [[mt' it'] cf']. inversion H; subst; clear H. cbn [fst snd md_cf] in *.
    destruct (event_info _ _ _ _ _ _ Ee) as (i' & p' & q & site & p1 & A1 & A2 & A3 & A4 & A5 & _). assert (i' = i) by congruence. subst i'.
    destruct (updateRateTable_spec _ _ A3) as (inc & Einc).
    destruct (calculateMatching_cf _ _ _ _ _ _ _ _ Er) as [mls ->]. apply cfgOK_mlists.
    assert (HL' : listed md i site). { exact (pick_listed _ _ _ _ _ _ IV A2 A3 A4). }
    destruct (perform_reach md i p' q site HR IH A2) as (cf2 & q2 & E2 & C2); [rewrite Einc; reflexivity|rewrite Einc; reflexivity|rewrite Einc; reflexivity|exact HL'|]. congruence.
Qed.

Lemma roomy_static md md' : sameP (md_in md) (md_in md') -> cf_coords (md_cf md') = cf_coords (md_cf md) -> zlen (cf_types (md_cf md')) = nsites L -> zlen (cf_types (md_cf md)) = nsites L ->
  zlen (cf_coords (md_cf md)) = nsites L -> roomy L (md_cf md) (md_in md) -> roomy L (md_cf md') (md_in md').
Proof using UI.
  intros SP EC T1 T2 LC RM x i p Hx HP Ep. destruct (sameP_get _ _ _ _ SP Ep) as (q & Eq & Hs). apply pstatic_fields in Hs. destruct Hs as (_ & _ & _ & _ & _ & S6 & S7 & _).
  apply (sameP_pairIn L (md_in md) (md_in md')) in HP; [|exact SP]. destruct (RM x i q Hx HP Eq) as (near & far & rest & R1 & R2 & R3 & R4 & R5).
  rewrite (sameP_maxRange _ _ SP). pose proof (maxRange_pos (md_in md)) as HM. pose proof (wi_lat _ _ _ _ WI) as WF.
  destruct (scratch_eq L (maxRange (md_in md)) (md_cf md) x WF) as (g & A1 & A2 & A3 & A4); [lia|exact LC|exact T2|exact Hx|].
  destruct (scratch_eq L (maxRange (md_in md)) (md_cf md') x WF) as (g' & B1 & B2 & B3 & B4); [lia|rewrite EC; exact LC|exact T1|exact Hx|].
  rewrite EC in B1. assert (g' = g) by congruence. subst g'. rewrite B3, B4.
  assert (G : geom (map (withTypes (cf_types (md_cf md'))) g) = geom (near ++ far :: rest)).
  { rewrite withTypes_geom, <- (withTypes_geom (cf_types (md_cf md)) g). f_equal. congruence. }
  destruct (geom_split _ _ _ G) as (near' & b' & E & GA & GB). destruct b' as [|far' rest']; [discriminate|].
  exists near', far', rest'. split; [rewrite E; reflexivity|]. rewrite S6, S7. split; [|split; [|split]].
  - intros ->. apply R2. destruct near; [reflexivity|discriminate].
  - apply (f_equal zlen) in GA. unfold geom in GA. rewrite !zlen_map in GA. lia.
  - intros e He. destruct (geom_d2 _ _ _ GA He) as (e' & C1 & C2 & _). rewrite <- C2. auto.
  - cbn [geom map] in GB. injection GB as _ C _ _. lia.
Qed.

Theorem step_total md u1 u2 : reachable ranks hash L cf it md -> ratesOK md -> 0 < dv_num u1 <= dv_den u1 -> 0 < dv_num u2 <= dv_den u2 ->
  (in_custom it = true -> numbered it /\ roomy L (md_cf md) (md_in md)) -> exists md', singleStep md u1 u2 = Some md'.
Proof using UI NE.
  intros HR OK Hu1 Hu2 HCu. destruct (reachable_info _ _ _ _ _ _ WI HR) as (cf0 & it2 & RI). pose proof (ri_inv _ _ _ _ _ _ _ _ RI) as IV. pose proof (ri_lat _ _ _ _ _ _ _ _ RI) as EL.
  pose proof (reach_cfgOK md HR) as CO. pose proof W_pos as HW1.
  destruct (C14_selection_succeeds _ _ _ _ _ _ _ _ WI HR OK Hu1 Hu2) as (i & it1 & q & x & E1 & E2 & E3).
  assert (EE : exists e, eventPart md u1 u2 = Some e /\ cfgOK W N (snd (fst e))).
  { unfold eventPart. rewrite E1. cbn [Base.obind fst snd]. rewrite E2. cbn [Base.obind]. rewrite E3. cbn [Base.obind].
    unfold pickProcess in E1. ob E1 as i' Ei. ob E1 as p' Ep'. ob E1 as p2 E4. ob E1 as ps Eps. injection E1 as -> <-. cbn [set_procs in_procs] in *.
    rewrite (zset_get _ _ _ _ i Eps), Z.eqb_refl in E2. inversion E2; subst p2; clear E2. destruct (updateRateTable_spec _ _ E4) as (inc & Einc).
    pose proof (pick_listed _ _ _ _ _ _ IV Ep' E4 E3) as HL.
    destruct (perform_reach md i p' q x HR CO Ep') as (cf' & q' & E5 & C5); [rewrite Einc; reflexivity|rewrite Einc; reflexivity|rewrite Einc; reflexivity|exact HL|].
    rewrite E5. cbn [Base.obind fst snd]. destruct (zset_lt ps i q') as [ps' E6]; [rewrite (zset_len _ _ _ _ Eps); eapply zget_range; eauto|]. rewrite E6. cbn [Base.obind]. eexists. split; [reflexivity|]. exact C5. }
  destruct EE as ([[ita cfa] idx] & EE & COa). cbn [fst snd] in COa. destruct (event_parts _ _ _ _ _ _ IV EE) as [SP EV PV PF _]. rewrite EL in PV.
  assert (HWp : forall j p e, zget (in_procs ita) j = Some p -> In e (pr_ml p) -> zlen (pe_match e) = W /\ zlen (pe_upd e) = W).
  { intros j p e Ej He. destruct (sameP_get _ _ _ _ SP Ej) as (q1 & Eq1 & Hs). apply pstatic_fields in Hs. destruct Hs as (_ & _ & _ & _ & _ & _ & Hml & _). rewrite Hml in He.
    exact (reach_entry_width _ _ _ _ _ _ _ _ _ _ UI HR Eq1 He). }
  destruct (calc_total L cfa ita (md_mt md) idx W PV HW1) as [[[mt' it'] cf'] ER].
  - apply COa.
  - intros p Hp e He. apply In_zget in Hp. destruct Hp as [j Ej]. apply (HWp j p e Ej He).
  - intros cf1 ECf Hcu upd add HT. pose proof SP as (_ & _ & SP3 & _). pose proof (ri_same _ _ _ _ _ _ _ _ RI) as SP0. pose proof SP0 as (_ & _ & SP4 & _).
    destruct (updateML_get _ _ _ _ (ri_expand _ _ _ _ _ _ _ _ RI)) as (_ & _ & SP5 & _). 
    assert (Hc : in_custom it = true) by (change (in_custom (clearMatching it)) with (in_custom it) in SP5; congruence). destruct (HCu Hc) as [HN RM].
    assert (HNa : numbered ita).
    { apply (sameP_numbered _ _ SP). intros j p Ej. destruct (reachable_proc _ _ _ _ _ _ _ _ _ _ RI Ej) as (p0 & q0 & X1 & X2 & X3 & X4). apply pstatic_fields in X3. destruct X3 as (_ & _ & -> & _).
      destruct X4 as [->|[_ X4]]; [exact (HN _ _ X1)|]. apply expand_fields in X4. destruct X4 as (_ & _ & -> & _). exact (HN _ _ X1). }
    apply custom_total; [apply PV|apply PV|exact HNa|]. intros t Ht. destruct (HT t Ht) as (T1 & T2 & T3). destruct T2 as (p & Ep & Hb).
    destruct (refresh_fold _ _ _ _ _ (pv_nodup _ _ _ _ _ PV) ECf) as (mls & Ecf1 & HlenM & HmlM).
    assert (Hx : 0 <= rt_index t < nsites L) by (apply (pv_idx _ _ _ _ _ PV); exact T1).
    destruct (pv_geom _ _ _ _ _ PV _ Hx) as (cl & g & G1 & G2 & G3).
    assert (HCL : exists cl', zget (cf_mlists cf1) (rt_index t) = Some cl' /\ geom cl' = geom g).
    { rewrite Ecf1. cbn [set_mlists cf_mlists]. destruct (HmlM (rt_index t)) as [(_ & _ & (ml & ml' & A & B & C))|[_ A]].
      - exists ml'. split; [exact C|]. assert (ml = cl) by congruence. subst ml. rewrite (refresh_geom _ _ _ B). exact G3.
      - exists cl. split; [congruence|exact G3]. }
    destruct HCL as (cl' & G4 & G5).
    destruct (sameP_get _ _ _ _ SP Ep) as (q1 & Eq1 & Hs). apply pstatic_fields in Hs. destruct Hs as (_ & _ & _ & _ & _ & S6 & S7 & S8 & _).
    assert (HPi : pairIn L (md_in md) (rt_index t) (rt_process t)) by (exists q1; split; [exact Eq1|congruence]).
    destruct (RM _ _ q1 Hx HPi Eq1) as (near & far & rest & R1 & R2 & R3 & R4 & R5).
    destruct (scratch_eq L (maxRange (md_in md)) (md_cf md) (rt_index t) (wi_lat _ _ _ _ WI)) as (g' & A1 & A2 & A3 & A4);
      [pose proof (maxRange_pos (md_in md)); lia|rewrite <- EL; apply IV|rewrite <- EL; apply IV|exact Hx|].
    rewrite (sameP_maxRange _ _ SP), (pf_coords _ _ PF) in G2. assert (g' = g) by congruence. subst g'.
    assert (GN : geom cl' = geom (near ++ far :: rest)). { rewrite G5, <- (withTypes_geom (cf_types (md_cf md)) g). f_equal. congruence. }
    destruct (usr_total W N cf1 (in_rc ita) p (rt_index t) cl' near far rest) as (env & r & U1 & U2); auto.
    + rewrite Ecf1. apply cfgOK_mlists. exact COa.
    + rewrite Ecf1. cbn [set_mlists cf_coords]. apply PV.
    + intros c Hc2. destruct (geom_d2 _ _ _ G5 Hc2) as (e' & B1 & _ & B2). rewrite <- B2. apply A2. exact B1.
    + rewrite S7. exact R3.
    + rewrite S6. exact R4.
    + rewrite S6. exact R5.
    + intros e He. apply (HWp _ _ _ Ep He).
    + unfold rateTask, hashData. rewrite Ep. cbn [Base.obind]. rewrite G4. cbn [Base.obind]. rewrite U1. cbn [Base.obind]. rewrite U2. cbn [Base.obind]. eauto.
  - exists (mkMD (md_lat md) cf' (updateProbabilityTable it') mt'). rewrite singleStep_split, EE. cbn [Base.obind fst snd]. rewrite EL, ER. reflexivity.
Qed.
End Reach.
