(** When nothing goes out of bounds: the backend operations succeed. *)
From Verif Require Import PBase SModel SGeo SEvent SBuild SPlain SStep SBucket PLattice PProcess PMpi PRateTable PMatcher PPerform PStep PRun.
Open Scope Z_scope.
Open Scope list_scope.

(** ** matching two lists of equal widths *)
Definition ofWidth (W : Z) (cl : list centry) : Prop := forall c, In c cl -> zlen (ce_types c) = W.
Definition asksWidth (W : Z) (pl : list pentry) : Prop := forall e, In e pl -> zlen (pe_match e) = W.

Lemma peMatch_total S W e c : 1 <= W -> zlen (pe_match e) = W -> zlen (ce_types c) = W -> exists b, peMatch S e c = Some b.
Proof.
  intros HW He Hc. unfold peMatch, bget. destruct (zget_lt (pe_match e) 0) as [w Ew]; [lia|]. rewrite Ew. cbn [Base.obind].
  destruct (w =? 1); [eauto|]. unfold bmatch. unfold bucket in *. destruct (Z.eqb_spec (zlen (pe_match e)) (zlen (ce_types c))); [|lia].
  cbn [Base.obind]. destruct (bmatch_loop _ _); eauto.
Qed.
Lemma match_loop_total S W pl : 1 <= W -> forall cl, asksWidth W pl -> ofWidth W cl -> (length pl <= length cl)%nat -> exists b, match_loop S pl cl = Some b.
Proof.
  intros HW. induction pl as [|e pl IH]; intros cl HA HO HL; cbn [match_loop]; [eauto|]. destruct cl as [|c cl]; [cbn [length] in HL; lia|].
  destruct (peMatch_total S W e c HW) as [b Eb]; [apply HA; left; reflexivity|apply HO; left; reflexivity|]. rewrite Eb. cbn [Base.obind].
  destruct b; [|eauto]. apply IH; [intros e' H; apply HA; right; exact H|intros c' H; apply HO; right; exact H|cbn [length] in HL; lia].
Qed.
Lemma whateverMatch_total S W pl cl : 1 <= W -> asksWidth W pl -> ofWidth W cl -> exists b, whateverMatch S pl cl = Some b.
Proof.
  intros HW HA HO. unfold whateverMatch. destruct (Z.ltb_spec (zlen cl) (zlen pl)); [eauto|]. eapply match_loop_total; eauto. unfold zlen in *. lia.
Qed.
Lemma whateverMatch_len S pl cl : whateverMatch S pl cl = Some true -> (length pl <= length cl)%nat.
Proof. unfold whateverMatch. destruct (Z.ltb_spec (zlen cl) (zlen pl)); [discriminate|]. intros _. unfold zlen in *. lia. Qed.

Lemma mult_types_total t1 : forall m t2, (length t1 <= length t2)%nat -> exists r, mult_types m t1 t2 = Some r.
Proof.
  induction t1 as [|r t1 IH]; intros m t2 H; cbn [mult_types]; [eauto|]. destruct t2 as [|n t2]; [cbn [length] in H; lia|]. apply IH. cbn [length] in H. lia.
Qed.
Lemma mult_loop_total W pl : 1 <= W -> forall m cl, asksWidth W pl -> ofWidth W cl -> (length pl <= length cl)%nat -> exists r, mult_loop m pl cl = Some r.
Proof.
  intros HW. induction pl as [|e pl IH]; intros m cl HA HO HL; cbn [mult_loop]; [eauto|]. destruct cl as [|c cl]; [cbn [length] in HL; lia|].
  assert (We : zlen (pe_match e) = W) by (apply HA; left; reflexivity). assert (Wc : zlen (ce_types c) = W) by (apply HO; left; reflexivity).
  unfold bget. destruct (zget_lt (pe_match e) 0) as [w Ew]; [lia|]. rewrite Ew. cbn [Base.obind].
  assert (exists m', (if w =? 0 then mult_types m (tl (pe_match e)) (tl (ce_types c)) else Some m) = Some m') as [m' Em].
  { destruct (w =? 0); [|eauto]. apply mult_types_total. unfold bucket, zlen in *. destruct (pe_match e), (ce_types c); cbn [tl length] in *; lia. }
  rewrite Em. cbn [Base.obind]. apply IH; [intros e' H; apply HA; right; exact H|intros c' H; apply HO; right; exact H|cbn [length] in HL; lia].
Qed.

(** ** bookkeeping *)
Lemma setInv_total inv x i b : invAt inv x i <> None -> exists inv', setInv inv x i b = Some inv'.
Proof.
  unfold invAt, setInv. destruct (zget inv x) as [row|] eqn:Er; cbn [Base.obind]; [|congruence]. intros H. destruct (zget row i) as [v|] eqn:Ev; [|congruence].
  apply zget_range in Ev. apply zget_range in Er as Rr. destruct (zset_lt row i b Ev) as [row' E]. rewrite E. cbn [Base.obind]. apply zset_lt. exact Rr.
Qed.
Lemma evt_site it i x r p : evt it i x r -> zget (in_procs it) i = Some p -> In x (pr_sites p).
Proof. intros (q & Eq & H) E. assert (q = p) by congruence. subst. eapply in_events_sites; eauto. Qed.

Lemma doRemove_total it inv x i : Binv it inv -> (exists r, evt it i x r) -> exists st, doRemove (it, inv) (x, i) = Some st.
Proof.
  intros HB (r & Hev). destruct (bi_has _ _ HB _ _ _ Hev) as [b Eb]. unfold doRemove, modifyProc. destruct Hev as (p & Ep & Hin). rewrite Ep. cbn [Base.obind].
  destruct (removeSite_spec p x (bi_proc _ _ HB _ _ Ep) (in_events_sites _ _ _ Hin)) as (p' & r' & E & _). rewrite E. cbn [Base.obind].
  apply zget_range in Ep. destruct (zset_lt _ _ p' Ep) as [ps Es]. rewrite Es. cbn [Base.obind].
  destruct (setInv_total inv x i false) as [inv' Ei]; [congruence|]. rewrite Ei. cbn [Base.obind]. eauto.
Qed.
Lemma fold_remove_total rem : forall it inv, Binv it inv -> NoDup rem -> (forall x i, In (x, i) rem -> exists r, evt it i x r) -> exists st, ofold doRemove rem (it, inv) = Some st.
Proof.
  induction rem as [|[x i] rem IH]; intros it inv HB ND H; cbn [ofold]; [eauto|].
  destruct (doRemove_total it inv x i HB) as [[it1 inv1] E]; [apply H; left; reflexivity|]. rewrite E. cbn [Base.obind].
  destruct (doRemove_spec _ _ _ _ _ _ HB E) as (HB1 & _ & V & _). inversion ND; subst. apply IH; auto.
  intros y j Hin. destruct (H y j (or_intror Hin)) as [r Hr]. exists r. apply V. split; [exact Hr|]. intros Heq. congruence.
Qed.
Lemma doUpdate_total it inv t : Binv it inv -> (exists r, evt it (rt_process t) (rt_index t) r) -> exists it', doUpdate it t = Some it'.
Proof.
  intros HB (r & (p & Ep & Hin)). unfold doUpdate, modifyProc. rewrite Ep. cbn [Base.obind].
  destruct (removeSite_spec p (rt_index t) (bi_proc _ _ HB _ _ Ep) (in_events_sites _ _ _ Hin)) as (p' & r' & E & _). rewrite E. cbn [Base.obind].
  apply zget_range in Ep. destruct (zset_lt _ _ (addSite p' (rt_index t) (rt_rate t) 1) Ep) as [ps Es]. rewrite Es. cbn [Base.obind]. eauto.
Qed.
Lemma fold_update_total upd : forall it inv, Binv it inv -> NoDup (map tkey upd) -> (forall t, In t upd -> exists r, evt it (rt_process t) (rt_index t) r) ->
  exists it', ofold doUpdate upd it = Some it'.
Proof.
  induction upd as [|t upd IH]; intros it inv HB ND H; cbn [ofold]; [eauto|].
  destruct (doUpdate_total it inv t HB) as [it1 E]; [apply H; left; reflexivity|]. rewrite E. cbn [Base.obind].
  destruct (doUpdate_spec _ _ _ _ HB E) as (HB1 & _ & _ & V). cbn [map] in ND. inversion ND; subst. apply (IH it1 inv); auto.
  intros t' Ht. destruct (H t' (or_intror Ht)) as [r Hr]. exists r. apply V. left. split; [exact Hr|]. intros Heq. apply H2. rewrite <- Heq. change (rt_index t', rt_process t') with (tkey t'). apply in_map. exact Ht.
Qed.
Lemma doAdd_total it inv t : 0 <= rt_process t < zlen (in_procs it) -> invAt inv (rt_index t) (rt_process t) <> None -> exists st, doAdd (it, inv) t = Some st.
Proof.
  intros Hp Hi. unfold doAdd, modifyProc. destruct (zget_lt _ _ Hp) as [p Ep]. rewrite Ep. cbn [Base.obind].
  destruct (zset_lt _ _ (addSite p (rt_index t) (rt_rate t) 1) Hp) as [ps Es]. rewrite Es. cbn [Base.obind].
  destruct (setInv_total inv _ _ true Hi) as [inv' Ei]. rewrite Ei. cbn [Base.obind]. eauto.
Qed.
Lemma setInv_shape inv x i b inv' y j : setInv inv x i b = Some inv' -> (invAt inv' y j = None <-> invAt inv y j = None).
Proof.
  intros H. rewrite (setInv_spec _ _ _ _ _ H y j). destruct (Z.eqb_spec y x), (Z.eqb_spec j i); cbn [andb]; try tauto. subst.
  split; [discriminate|]. intros E. exfalso. unfold setInv in H. ob H as row Er. ob H as row' Er'. unfold invAt in E. rewrite Er in E. cbn [Base.obind] in E.
  apply zget_None in E. unfold zset in Er'. destruct ((0 <=? i) && (i <? zlen row)) eqn:EE; [|discriminate]. lia.
Qed.
Lemma fold_add_total add : forall it inv, (forall t, In t add -> 0 <= rt_process t < zlen (in_procs it) /\ invAt inv (rt_index t) (rt_process t) <> None) ->
  exists st, ofold doAdd add (it, inv) = Some st.
Proof.
  induction add as [|t add IH]; intros it inv H; cbn [ofold]; [eauto|].
  destruct (H t (or_introl eq_refl)) as [H1 H2]. destruct (doAdd_total it inv t H1 H2) as [[it1 inv1] E]. rewrite E. cbn [Base.obind].
  apply IH. intros t' Ht. destruct (H t' (or_intror Ht)) as [A B]. unfold doAdd in E. ob E as it2 E2. ob E as inv2 E3. inversion E; subst.
  apply modifyProc_spec in E2. destruct E2 as (p & p' & ps & _ & _ & -> & Es). cbn [set_procs in_procs]. rewrite (zset_len _ _ _ _ Es). split; [exact A|].
  intros X. apply B. apply (proj1 (setInv_shape _ _ _ _ _ _ _ E3)). exact X.
Qed.

(** ** a matching round *)
Lemma collect_total it cf W xs : 1 <= W -> (forall x i ty, In ((x, i), ty) xs -> ty = 2 \/ ty = 3 ->
    exists p cl, zget (in_procs it) i = Some p /\ zget (cf_mlists cf) x = Some cl /\ asksWidth W (pr_ml p) /\ ofWidth W cl /\ (length (pr_ml p) <= length cl)%nat) ->
  forall acc, exists acc', ofold (collectTask it cf) xs acc = Some acc'.
Proof.
  intros HW. induction xs as [|[[x i] ty] xs IH]; intros H acc; cbn [ofold]; [eauto|].
  assert (exists acc1, collectTask it cf acc (x, i, ty) = Some acc1) as [acc1 E].
  { unfold collectTask. destruct acc as [[r u] a]. destruct (ty =? 1); [eauto|]. destruct ((ty =? 2) || (ty =? 3)) eqn:E23; [|eauto].
    destruct (H x i ty (or_introl eq_refl)) as (p & cl & E1 & E2 & HA & HO & HL); [apply Bool.orb_true_iff in E23; rewrite !Z.eqb_eq in E23; exact E23|].
    rewrite E1. cbn [Base.obind]. rewrite E2. cbn [Base.obind]. destruct (mult_loop_total W (pr_ml p) HW 1 cl HA HO HL) as [m Em]. unfold multiplicity. rewrite Em. cbn [Base.obind].
    destruct (ty =? 2); eauto. }
  rewrite E. cbn [Base.obind]. apply IH. intros y j ty' Hin. apply H. right. exact Hin.
Qed.

Lemma rem_nodup S m it cf pairs rem upd add : 1 <= mt_ranks m -> NoDup pairs ->
  matchIndicesWithProcesses S m pairs it cf = Some (rem, upd, add) -> NoDup rem.
Proof.
  intros Hr ND H. unfold matchIndicesWithProcesses in H. rewrite mpiMap_omap in H by exact Hr. ob H as types ET. apply collect_spec in H.
  destruct H as (-> & _). apply NoDup_map_filter. rewrite map_fst_combine; [exact ND|]. symmetry. eapply omap_length; eauto.
Qed.

Lemma refresh_fold_total L it idx cf : (forall x, In x idx -> 0 <= x < zlen (cf_mlists cf)) ->
  (forall x cl e, zget (cf_mlists cf) x = Some cl -> In e cl -> 0 <= ce_index e < zlen (cf_types cf)) ->
  exists cf', ofold (refreshUsed L (in_procs it)) idx cf = Some cf'.
Proof.
  intros HI HG.
  destruct (ofold_total (fun c => cf_types c = cf_types cf /\ zlen (cf_mlists c) = zlen (cf_mlists cf) /\
     forall x cl e, zget (cf_mlists c) x = Some cl -> In e cl -> 0 <= ce_index e < zlen (cf_types cf)) (refreshUsed L (in_procs it)) idx cf) as (cf' & E & _); [|auto|eauto].
  intros c x Hx (A & B & C). unfold refreshUsed. destruct (pairsOf L (in_procs it) x); [eauto|]. unfold updateMatchList.
  destruct (zget_lt (cf_mlists c) x) as [ml Eml]; [rewrite B; auto|]. rewrite Eml. cbn [Base.obind].
  rewrite refresh_total by (intros e He; rewrite A; eapply C; eauto). cbn [Base.obind].
  destruct (zset_lt (cf_mlists c) x (map (withTypes (cf_types c)) ml)) as [mls Em]; [rewrite B; auto|]. rewrite Em. cbn [Base.obind].
  exists (set_mlists c mls). split; [reflexivity|]. cbn [set_mlists cf_types cf_mlists]. split; [exact A|]. split; [rewrite (zset_len _ _ _ _ Em); exact B|].
  intros y cl e Ey He. rewrite (zset_get _ _ _ _ y Em) in Ey. destruct (Z.eqb_spec y x) as [->|N]; [|eapply C; eauto].
  inversion Ey; subst cl. apply in_map_iff in He. destruct He as (e0 & <- & He0). cbn [withTypes ce_index]. eapply C; eauto.
Qed.

(** the lists after the refresh *)
Lemma refreshed_width L cf it mt idx cf1 W x cl : PreInv L cf it mt idx -> (forall t, In t (cf_types cf) -> zlen t = W) ->
  ofold (refreshUsed L (in_procs it)) idx cf = Some cf1 -> In x idx -> usedBy L it x -> zget (cf_mlists cf1) x = Some cl -> ofWidth W cl.
Proof.
  intros PV HW E Hx Hu Ecl c Hc. destruct (refresh_fold _ _ _ _ _ (pv_nodup _ _ _ _ _ PV) E) as (mls & -> & _ & HX).
  cbn [set_mlists cf_mlists] in Ecl. destruct (HX x) as [(_ & _ & ml & ml' & _ & B & C)|[A _]]; [|tauto].
  assert (ml' = cl) by congruence. subst ml'. destruct (omap_In _ _ _ _ B Hc) as (c0 & _ & Er). unfold refreshEntry in Er. ob Er as t Et. inversion Er. cbn [ce_types].
  apply HW. eapply zget_In; eauto.
Qed.

(** the calculator is asked about the tasks of the round only *)
Definition ratesDefined (L : lattice) (m : matcher) (it : interactions) (cf1 : config) (idx : list Z) : Prop :=
  in_custom it = true -> forall upd add, (forall t, In t upd \/ In t add -> In (rt_index t) idx /\ pairIn L it (rt_index t) (rt_process t) /\
     matchAt (lt_unit L) it cf1 (rt_process t) (rt_index t)) -> customRates m it cf1 upd add <> None.

Theorem calc_total L cf it mt idx W : PreInv L cf it mt idx -> 1 <= W -> (forall t, In t (cf_types cf) -> zlen t = W) ->
  (forall p, In p (in_procs it) -> asksWidth W (pr_ml p)) ->
  (forall cf1, ofold (refreshUsed L (in_procs it)) idx cf = Some cf1 -> ratesDefined L mt it cf1 idx) ->
  exists r, calculateMatching L mt it cf idx = Some r.
Proof.
  intros PV HW HT HP HRD. unfold calculateMatching. cbv zeta.
  pose proof (pv_ranks _ _ _ _ _ PV) as Hr. pose proof (pv_nodup _ _ _ _ _ PV) as ND.
  destruct (refresh_fold_total L it idx cf) as [cf1 E1].
  { intros x Hx. rewrite (pv_lm _ _ _ _ _ PV). apply (pv_idx _ _ _ _ _ PV x Hx). }
  { intros x cl e Ecl He. rewrite (pv_lt _ _ _ _ _ PV). apply zget_range in Ecl as Rx. rewrite (pv_lm _ _ _ _ _ PV) in Rx.
    destruct (pv_geom _ _ _ _ _ PV x Rx) as (cl' & g & A & B & C). assert (cl' = cl) by congruence. subst cl'.
    assert (Hin : In (ce_index e) (map ce_index cl)) by (apply in_map; exact He). rewrite (geom_eq_index _ _ C) in Hin.
    apply (Permutation_in _ (scratchGeo_index _ _ _ _ _ B)) in Hin. pose proof (maxRange_pos it). eapply neighbour_range; [apply PV|exact Rx| |exact Hin]. lia. }
  rewrite E1. cbn [Base.obind].
  assert (HLS : forall x, In x idx -> exists cl, zget (cf_mlists cf1) x = Some cl).
  { intros x Hx. destruct (refresh_fold _ _ _ _ _ ND E1) as (mls & -> & Hl & _). cbn [set_mlists cf_mlists]. apply zget_lt. rewrite Hl, (pv_lm _ _ _ _ _ PV). apply PV. exact Hx. }
  set (pairs := flat_map (pairsOf L (in_procs it)) idx).
  assert (HPairs : forall x i, In (x, i) pairs -> exists p cl inl b, In x idx /\ pairIn L it x i /\ zget (in_procs it) i = Some p /\ zget (cf_mlists cf1) x = Some cl /\
      invAt (mt_inv mt) x i = Some inl /\ whateverMatch (lt_unit L) (pr_ml p) cl = Some b /\ asksWidth W (pr_ml p) /\ ofWidth W cl).
  { intros x i Hin. apply In_pairs in Hin. destruct Hin as [Hx Hpi]. pose proof Hpi as (p & Ep & _). destruct (HLS x Hx) as [cl Ecl].
    assert (HO : ofWidth W cl) by (eapply refreshed_width; eauto; exists i; exact Hpi).
    assert (HA : asksWidth W (pr_ml p)) by (apply HP; eapply zget_In; eauto).
    destruct (whateverMatch_total (lt_unit L) W (pr_ml p) cl HW HA HO) as [b Eb].
    destruct (invAt (mt_inv mt) x i) as [inl|] eqn:Ei; [|exfalso; apply (proj2 (pv_shape _ _ _ _ _ PV x i)); [split; [apply PV; exact Hx|eapply zget_range; eauto]|exact Ei]].
    exists p, cl, inl, b. auto 12. }
  assert (NDP : NoDup pairs) by (apply NoDup_pairs; exact ND).
  assert (exists tasks, matchIndicesWithProcesses (lt_unit L) mt pairs it cf1 = Some tasks) as [tasks Et].
  { unfold matchIndicesWithProcesses. rewrite mpiMap_omap by exact Hr.
    destruct (omap_total (taskType (lt_unit L) mt it cf1) pairs) as [types ET].
    { intros [x i] Hin. destruct (HPairs x i Hin) as (p & cl & inl & b & _ & _ & E2 & E3 & E4 & E5 & _). unfold taskType, invAt in *. rewrite E2. cbn [Base.obind].
      destruct (zget (mt_inv mt) x) as [row|]; [|discriminate]. cbn [Base.obind] in *. rewrite E4. cbn [Base.obind]. rewrite E3. cbn [Base.obind]. rewrite E5. cbn [Base.obind]. eauto. }
    rewrite ET. cbn [Base.obind]. apply (collect_total it cf1 W); [exact HW|]. intros x i ty Hin Hty.
    destruct (combine_omap_In _ _ _ _ _ ET Hin) as [Hin2 Ety]. destruct (HPairs x i Hin2) as (p & cl & inl & b & _ & _ & E2 & E3 & E4 & E5 & HA & HO).
    apply taskType_spec in Ety. destruct Ety as (p' & inl' & cl' & b' & F1 & F2 & F3 & F4 & F5). assert (p' = p) by congruence. assert (cl' = cl) by congruence. subst p' cl'.
    exists p, cl. repeat (split; [assumption|]). apply (whateverMatch_len (lt_unit L)). rewrite F4. destruct b', inl'; destruct Hty; congruence. }
  rewrite Et. cbn [Base.obind]. destruct tasks as [[rem upd] add].
  pose proof (rem_nodup _ _ _ _ _ _ _ _ Hr NDP Et) as NR. apply matchTasks_spec in Et; [|exact Hr|exact NDP]. destruct Et as [TT TR TU TA NU NA RU RA].
  assert (HIn : forall t, In t upd \/ In t add -> In (tkey t) pairs /\ matchAt (lt_unit L) it cf1 (rt_process t) (rt_index t)).
  { intros t [Ht|Ht]; apply (in_map tkey) in Ht; unfold tkey in Ht at 1; [apply TU in Ht|apply TA in Ht]; unfold tkey; tauto. }
  assert (exists r, (if in_custom it then customRates mt it cf1 upd add else Some (mt, upd, add)) = Some r /\
     map tkey (snd (fst r)) = map tkey upd /\ map tkey (snd r) = map tkey add /\ mt_inv (fst (fst r)) = mt_inv mt) as (r & Er & K1 & K2 & K3).
  { destruct (in_custom it) eqn:EC.
    - destruct (customRates mt it cf1 upd add) as [[[m1 u1] a1]|] eqn:ECR.
      + destruct (customRates_spec _ _ _ _ _ _ _ _ Hr (pv_rt _ _ _ _ _ PV) ECR) as (A & B & _ & _ & _ & C & _). exists (m1, u1, a1). auto.
      + exfalso. apply (HRD cf1 E1 EC upd add); [|exact ECR]. intros t Ht. destruct (HIn t Ht) as [H1 H2]. unfold tkey in H1. apply In_pairs in H1. tauto.
    - exists (mt, upd, add). auto. }
  rewrite Er. cbn [Base.obind]. destruct r as [[m1 upd'] add']. cbn [fst snd] in K1, K2, K3. clear Er.
  pose proof (pv_binv _ _ _ _ _ PV) as HB.
  assert (HTr : forall x i, invAt (mt_inv mt) x i = Some true -> exists r, evt it i x r) by (intros x i E; apply (proj1 (bi_inv _ _ HB _ _ _ E)); reflexivity).
  assert (exists mi, updateProcesses m1 rem upd' add' it = Some mi) as [mi Emi]; [|rewrite Emi; cbn [Base.obind]; eauto].
  unfold updateProcesses. rewrite K3.
  destruct (fold_remove_total rem it (mt_inv mt) HB NR) as [[it1 inv1] F1]; [intros x i Hin; apply TR in Hin; apply HTr; tauto|]. rewrite F1. cbn [Base.obind].
  destruct (fold_remove _ _ _ _ _ HB F1) as (HB1 & S1 & V1 & _).
  destruct (fold_update_total upd' it1 inv1 HB1) as [it2 F2]; [rewrite K1; exact NU| |].
  { intros t Ht. apply (in_map tkey) in Ht. rewrite K1 in Ht. unfold tkey in Ht at 1. apply TU in Ht as Ht2. destruct Ht2 as (_ & HM & Ei). destruct (HTr _ _ Ei) as [r Hev].
    exists r. apply V1. split; [exact Hev|]. intros Hrem. apply TR in Hrem. tauto. }
  rewrite F2. cbn [Base.obind].
  destruct (fold_update _ _ inv1 _ HB1 ltac:(rewrite K1; exact NU) F2) as (HB2 & S2 & _).
  destruct (fold_add_total add' it2 inv1) as [[it3 inv3] F3].
  { intros t Ht. apply (in_map tkey) in Ht. rewrite K2 in Ht. unfold tkey in Ht at 1. apply TA in Ht. destruct Ht as (Hin & _ & Ei).
    rewrite (sameStatic_len _ _ S2), (sameStatic_len _ _ S1). apply In_pairs in Hin. destruct Hin as [_ (p & Ep & _)]. split; [eapply zget_range; eauto|].
    rewrite <- (fold_remove_shape _ _ _ _ _ F1). congruence. }
  rewrite F3. cbn [Base.obind]. eauto.
Qed.

(** ** performing an event *)
Record cfgOK (W N : Z) (cf : config) : Prop := {
  co_types : zlen (cf_types cf) = N;
  co_elements : zlen (cf_elements cf) = N;
  co_aid : zlen (cf_aid cf) = N;
  co_aidcoords : zlen (cf_aidcoords cf) = N;
  co_aidel : zlen (cf_aidelements cf) = N;
  co_names : zlen (cf_names cf) = W;
  co_width : forall t, In t (cf_types cf) -> zlen t = W;
  co_some : forall els, In els (cf_elements cf) -> els <> [];
  co_ids : forall id, In id (cf_aid cf) -> 0 <= id < N }.
Lemma zset_In {A} (l : list A) i a l' b : zset l i a = Some l' -> In b l' -> b = a \/ In b l.
Proof.
  intros H Hin. apply In_zget in Hin. destruct Hin as [j Ej]. rewrite (zset_get _ _ _ _ j H) in Ej. destruct (j =? i); [left; congruence|right; eapply zget_In; eauto].
Qed.
Lemma cfgOK_mlists W N cf mls : cfgOK W N cf -> cfgOK W N (set_mlists cf mls).
Proof. intros []. constructor; assumption. Qed.
Lemma cfgOK_event W N cf a b : cfgOK W N cf -> cfgOK W N (set_event cf a b).
Proof. intros []. constructor; assumption. Qed.

Lemma elementsOf_total names t : zlen names = zlen t -> exists els, elementsOf names t = Some els.
Proof.
  intros H. unfold elementsOf.
  destruct (omap_total (fun i => n <- bget t i ;; if 0 <? n then (s <- zget names i ;; Some (repeat s (Z.to_nat n))) else Some []) (zrange 0 (zlen t - 1))) as [ns E].
  - intros i Hi. apply In_zrange in Hi. unfold bget. destruct (zget_lt t i ltac:(lia)) as [n En]. rewrite En. cbn [Base.obind]. destruct (0 <? n); [|eauto].
    destruct (zget_lt names i ltac:(lia)) as [s Es]. rewrite Es. cbn [Base.obind]. eauto.
  - rewrite E. cbn [Base.obind]. eauto.
Qed.
Lemma elementsOf_some names t els k n : elementsOf names t = Some els -> zget t k = Some n -> 0 < n -> els <> [].
Proof.
  unfold elementsOf. intros H Ek Hn. ob H as ns E. inversion H; subst; clear H. apply zget_range in Ek as Hk.
  pose proof (omap_zget _ _ _ k E) as X. rewrite zget_zrange in X by lia. cbn [Base.obind] in X. rewrite Z.add_0_l in X. unfold bget in X. rewrite Ek in X. cbn [Base.obind] in X.
  destruct (Z.ltb_spec 0 n); [|lia]. destruct (zget names k) as [s|] eqn:Es; cbn [Base.obind] in X.
  - apply zget_In in X. intros Hc. assert (Hin : In s (concat ns)).
    { apply in_concat. exists (repeat s (Z.to_nat n)). split; [exact X|]. destruct (Z.to_nat n) eqn:En; [lia|]. left. reflexivity. }
    rewrite Hc in Hin. exact Hin.
  - apply zget_None in X. rewrite (omap_zlen _ _ _ E), zlen_zrange in X. lia.
Qed.

(** what an active entry needs *)
Definition entryOK (W : Z) (types : list bucket) (x : pentry * centry) : Prop :=
  zlen (pe_upd (fst x)) = W /\ exists t k n u, zget types (ce_index (snd x)) = Some t /\ zget t k = Some n /\ zget (pe_upd (fst x)) k = Some u /\ 0 < n + u.

Lemma applyUpdate_total t u : zlen t = zlen u -> exists t', applyUpdate t u = Some t'.
Proof.
  intros H. unfold applyUpdate. apply omap_total. intros i Hi. apply In_zrange in Hi. unfold bget. destruct (zget_lt t i ltac:(lia)) as [a Ea]. rewrite Ea. cbn [Base.obind].
  destruct (zget_lt u i ltac:(lia)) as [b Eb]. rewrite Eb. cbn [Base.obind]. eauto.
Qed.
Lemma applyActive_total W N cf aff pos pe ce : cfgOK W N cf -> 0 <= ce_index ce < N -> entryOK W (cf_types cf) (pe, ce) -> 0 <= pos < zlen aff ->
  0 <= cf_nmoved cf < zlen (cf_moved cf) -> cf_nmoved cf < zlen (cf_recent cf) ->
  exists cf' aff', applyActive (cf, aff, pos) (pe, ce) = Some (cf', aff', pos + 1) /\ cfgOK W N cf'.
Proof.
  intros CO Hi (HU & t & k & n & u & Et & Ek & Eu & Hpos) Hp Hm Hr. cbn [fst snd] in *. destruct CO as [C1 C2 C3 C4 C5 C6 C7 C8 C9].
  unfold applyActive. cbv zeta. destruct (zget_lt (cf_aid cf) (ce_index ce)) as [id Eid]; [lia|]. rewrite Eid. cbn [Base.obind].
  assert (Hid : 0 <= id < N) by (apply C9; eapply zget_In; eauto).
  destruct (zget_lt (cf_aidcoords cf) id) as [c Ec]; [lia|]. rewrite Ec. cbn [Base.obind].
  destruct (zset_lt (cf_aidcoords cf) id (cadd c (pe_move pe))) as [ac Eac]; [lia|]. rewrite Eac. cbn [Base.obind]. rewrite Et. cbn [Base.obind].
  assert (Wt : zlen t = W) by (apply C7; eapply zget_In; eauto).
  destruct (applyUpdate_total t (pe_upd pe)) as [t' Et']; [unfold bucket in *; lia|]. rewrite Et'. cbn [Base.obind].
  assert (Wt' : zlen t' = W) by (rewrite (PRun.applyUpdate_len _ _ _ Et'); exact Wt).
  destruct (zset_lt (cf_types cf) (ce_index ce) t') as [ty Ety]; [unfold bucket in *; lia|]. rewrite Ety. cbn [Base.obind].
  destruct (elementsOf_total (cf_names cf) t') as [els Eels]; [unfold bucket in *; lia|]. rewrite Eels. cbn [Base.obind].
  assert (Hels : els <> []) by (eapply elementsOf_some; [exact Eels|eapply PRun.applyUpdate_get; eauto|exact Hpos]).
  destruct (zset_lt (cf_elements cf) (ce_index ce) els) as [el Eel]; [lia|]. rewrite Eel. cbn [Base.obind].
  assert (exists ae, (if pe_hasmove pe then Some (cf_aidelements cf) else e <- zget els 0 ;; zset (cf_aidelements cf) id e) = Some ae /\ zlen ae = N) as (ae & Eae & Lae).
  { destruct (pe_hasmove pe); [eauto|]. destruct els as [|e els]; [congruence|]. rewrite zget_0. cbn [Base.obind].
    destruct (zset_lt (cf_aidelements cf) id e) as [ae E]; [lia|]. exists ae. split; [exact E|]. rewrite (zset_len _ _ _ _ E). exact C5. }
  rewrite Eae. cbn [Base.obind]. destruct (zset_lt aff pos (ce_index ce) Hp) as [aff' Eaff]. rewrite Eaff. cbn [Base.obind].
  destruct (zset_lt (cf_moved cf) (cf_nmoved cf) id Hm) as [mv Emv]. rewrite Emv. cbn [Base.obind].
  destruct (zset_lt (cf_recent cf) (cf_nmoved cf) (pe_move pe)) as [rc Erc]; [lia|]. rewrite Erc. cbn [Base.obind].
  eexists. exists aff'. split; [reflexivity|]. constructor; cbn [cf_types cf_elements cf_aid cf_aidcoords cf_aidelements cf_names]; auto.
  - rewrite (zset_len _ _ _ _ Ety). exact C1.
  - rewrite (zset_len _ _ _ _ Eel). exact C2.
  - rewrite (zset_len _ _ _ _ Eac). exact C4.
  - intros t0 Ht0. destruct (zset_In _ _ _ _ _ Ety Ht0) as [->|H0]; [exact Wt'|auto].
  - intros l0 Hl0. destruct (zset_In _ _ _ _ _ Eel Hl0) as [->|H0]; [exact Hels|auto].
Qed.
Lemma loop_total W N l : forall cf aff pos, cfgOK W N cf -> NoDup (map (fun x => ce_index (snd x)) l) ->
  (forall x, In x l -> 0 <= ce_index (snd x) < N /\ entryOK W (cf_types cf) x) -> 0 <= pos -> pos + zlen l <= zlen aff -> 0 <= cf_nmoved cf ->
  cf_nmoved cf + zlen l <= zlen (cf_moved cf) -> cf_nmoved cf + zlen l <= zlen (cf_recent cf) ->
  exists cf' aff' pos', ofold applyActive l (cf, aff, pos) = Some (cf', aff', pos') /\ cfgOK W N cf'.
Proof.
  induction l as [|[pe ce] l IH]; intros cf aff pos CO ND HX Hp Ha Hn Hm Hr; cbn [ofold]; [eauto|]. rewrite zlen_cons in *. pose proof (zlen_nonneg l) as HL.
  destruct (HX (pe, ce) (or_introl eq_refl)) as [Hi HE]. cbn [snd] in Hi.
  destruct (applyActive_total W N cf aff pos pe ce CO Hi HE) as (cf1 & aff1 & E & CO1); try lia. rewrite E. cbn [Base.obind].
  destruct (applyActive_spec _ _ _ _ _ _ _ _ E) as (id & c & t & t' & els & AX). destruct (activeFx_frame _ _ _ _ _ _ _ _ _ _ _ _ _ AX) as [PF LA].
  cbn [map snd] in ND. inversion ND; subst. apply IH; auto; try lia.
  - intros x Hx. destruct (HX x (or_intror Hx)) as [A (B & t0 & k & n & u & C1 & C2 & C3 & C4)]. split; [exact A|]. split; [exact B|]. exists t0, k, n, u. split; [|auto].
    rewrite (zset_get _ _ _ _ _ (ax_types _ _ _ _ _ _ _ _ _ _ _ _ _ AX)). destruct (Z.eqb_spec (ce_index (snd x)) (ce_index ce)) as [Eq|]; [|exact C1].
    exfalso. apply H1. rewrite <- Eq. apply (in_map (fun x => ce_index (snd x))). exact Hx.
  - rewrite (ax_nmoved _ _ _ _ _ _ _ _ _ _ _ _ _ AX). lia.
  - rewrite (ax_nmoved _ _ _ _ _ _ _ _ _ _ _ _ _ AX), (pf_lm _ _ PF). lia.
  - rewrite (ax_nmoved _ _ _ _ _ _ _ _ _ _ _ _ _ AX), (pf_lr _ _ PF). lia.
Qed.
Lemma applyIdUpdate_total W N cf id y : cfgOK W N cf -> 0 <= id < N -> 0 <= y < N -> exists cf', applyIdUpdate cf (id, y) = Some cf' /\ cfgOK W N cf'.
Proof.
  intros [C1 C2 C3 C4 C5 C6 C7 C8 C9] Hid Hy. unfold applyIdUpdate. destruct (zset_lt (cf_aid cf) y id) as [aid Ea]; [lia|]. rewrite Ea. cbn [Base.obind].
  destruct (zget_lt (cf_elements cf) y) as [els Ee]; [lia|]. rewrite Ee. cbn [Base.obind]. assert (Hels : els <> []) by (apply C8; eapply zget_In; eauto).
  destruct els as [|e els]; [congruence|]. rewrite zget_0. cbn [Base.obind]. destruct (zset_lt (cf_aidelements cf) id e) as [ae Eae]; [lia|]. rewrite Eae. cbn [Base.obind].
  eexists. split; [reflexivity|]. constructor; cbn [set_ids cf_types cf_elements cf_aid cf_aidcoords cf_aidelements cf_names]; auto.
  - rewrite (zset_len _ _ _ _ Ea). exact C3.
  - rewrite (zset_len _ _ _ _ Eae). exact C5.
  - intros i Hi. destruct (zset_In _ _ _ _ _ Ea Hi) as [->|H]; auto.
Qed.

Lemma filter_shorter {A} (f : A -> bool) l : (length (filter f l) <= length l)%nat.
Proof. induction l as [|a l IH]; cbn [filter length]; [lia|]. destruct (f a); cbn [length]; lia. Qed.
Lemma firstn_nodup {A} n (l : list A) : NoDup l -> NoDup (firstn n l).
Proof.
  revert n. induction l as [|a l IH]; intros [|n] H; cbn [firstn]; try constructor; inversion H; subst; [|auto].
  intros Hin. apply H2. rewrite <- (firstn_skipn n l). apply in_or_app. left. exact Hin.
Qed.
Theorem perform_total W N cf q x sl : cfgOK W N cf -> 1 <= W -> zget (cf_mlists cf) x = Some sl -> (forall c, In c sl -> 0 <= ce_index c < N) -> NoDup (map ce_index sl) ->
  (length (pr_ml q) <= length sl)%nat -> (forall e, In e (pr_ml q) -> 1 <= zlen (pe_upd e)) -> (forall z, In z (activeList (pr_ml q) sl) -> entryOK W (cf_types cf) z) ->
  zlen (activeList (pr_ml q) sl) <= zlen (pr_aff q) -> zlen sl <= zlen (cf_moved cf) -> zlen sl <= zlen (cf_recent cf) ->
  (forall a b, In (a, b) (pr_idmoves q) -> 0 <= a < zlen sl /\ 0 <= b < zlen sl) ->
  exists cf' q', performBucketProcess cf q x = Some (cf', q') /\ cfgOK W N cf'.
Proof.
  intros CO HW Esl HSL ND HL HE HA Haff Hmv Hrc Hidm. unfold performBucketProcess. cbv zeta. cbn [set_event cf_mlists]. rewrite Esl. cbn [Base.obind].
  assert (HAL : zlen (activeList (pr_ml q) sl) <= zlen sl).
  { unfold activeList. unfold zlen. pose proof (filter_shorter (fun x => isActive (pe_upd (fst x))) (combine (pr_ml q) sl)). rewrite combine_length in H. lia. }
  destruct (loop_total W N (activeList (pr_ml q) sl) (set_event cf (pr_number q) x) (pr_aff q) 0) as (cf1 & aff & pos & E & CO1).
  - apply cfgOK_event; exact CO.
  - unfold activeList. apply NoDup_map_filter. replace (map (fun x0 : pentry * centry => ce_index (snd x0)) (combine (pr_ml q) sl)) with (firstn (length (pr_ml q)) (map ce_index sl)).
    + apply firstn_nodup. exact ND.
    + clear. revert sl. induction (pr_ml q) as [|e l IH]; intros [|c sl]; cbn [length firstn map combine]; try reflexivity. cbn [snd]. f_equal. apply IH.
  - intros z Hz. split; [|apply HA; exact Hz]. unfold activeList in Hz. apply filter_In in Hz. destruct Hz as [Hz _]. destruct z as [e c]. apply in_combine_r in Hz. apply HSL. exact Hz.
  - lia.
  - lia.
  - cbn. lia.
  - cbn [set_event cf_nmoved cf_moved]. lia.
  - cbn [set_event cf_nmoved cf_recent]. lia.
  - assert (HAct : forall e, In e (pr_ml q) -> activeEntry (pe_upd e) <> None).
    { intros e He. unfold activeEntry, bget. destruct (0 <? _); [|discriminate]. destruct (zget_lt (pe_upd e) 0) as [w Ew]; [specialize (HE e He); lia|]. rewrite Ew. discriminate. }
    rewrite (performLoop_active_conv _ _ _ _ HL HAct E). cbn [Base.obind].
    destruct (omap_total (fun m : Z * Z => f <- zget sl (fst m) ;; t <- zget sl (snd m) ;; id <- zget (cf_aid cf1) (ce_index f) ;; Some (id, ce_index t)) (pr_idmoves q)) as [ups EU].
    { intros [a b] Hab. destruct (Hidm a b Hab) as [Ra Rb]. cbn [fst snd]. destruct (zget_lt sl a Ra) as [f Ef]. rewrite Ef. cbn [Base.obind]. destruct (zget_lt sl b Rb) as [t Et]. rewrite Et. cbn [Base.obind].
      destruct (zget_lt (cf_aid cf1) (ce_index f)) as [id Eid]; [rewrite (co_aid _ _ _ CO1); apply HSL; eapply zget_In; eauto|]. rewrite Eid. cbn [Base.obind]. eauto. }
    unfold idUpdates. rewrite EU. cbn [Base.obind].
    destruct (ofold_total (cfgOK W N) applyIdUpdate ups cf1) as (cf2 & E2 & CO2); [|exact CO1|].
    + intros c [id y] Hin CC. destruct (omap_In _ _ _ _ EU Hin) as ([a b] & _ & X). cbn [fst snd] in X. ob X as f Ef. ob X as t Et. ob X as i Ei. inversion X; subst.
      apply applyIdUpdate_total; [exact CC|apply (co_ids _ _ _ CO1); eapply zget_In; eauto|apply HSL; eapply zget_In; eauto].
    + rewrite E2. cbn [Base.obind]. eauto.
Qed.
