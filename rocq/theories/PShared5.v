(** Proofs: models that use the same interactions one after the other. *)
From Verif Require Import PBase SModel SShared PLattice PProcess PMpi PMatcher PPerform PStep PEffect PEvent PCache PRematch PStepInv PBuild PShared PShared2 PShared3 PShared4.
Open Scope Z_scope.
Open Scope list_scope.

Lemma system_shape s s' : sameSystem s s' -> su_lat s = su_lat s' /\ cf_ptypes (su_cf s) = cf_ptypes (su_cf s') /\ cf_coords (su_cf s) = cf_coords (su_cf s') /\ map zlen (cf_types (su_cf s)) = map zlen (cf_types (su_cf s')).
Proof.
  intros (HL & coords & els & els' & pt & E & E' & Hz). apply mkConfiguration_info in E, E'. split; [exact HL|]. split; [rewrite (ci_ptypes _ _ _ _ E), (ci_ptypes _ _ _ _ E'); reflexivity|]. split; [rewrite (ci_coords _ _ _ _ E), (ci_coords _ _ _ _ E'); reflexivity|].
  assert (N : cf_names (su_cf s) = cf_names (su_cf s')) by (pose proof (ci_names _ _ _ _ E); pose proof (ci_names _ _ _ _ E'); congruence).
  assert (G : forall els0 n ts, omap (bucketOf pt n) els0 = Some ts -> map zlen ts = map (fun _ => Z.max 0 n) els0).
  { clear. intros els n. induction els as [|e els IH]; intros ts H; cbn [omap] in H; [injection H as <-; reflexivity|]. ob H as b Eb. ob H as bs Ebs. injection H as <-. cbn [map]. rewrite (IH _ Ebs), (bucketOf_len _ _ _ _ Eb). reflexivity. }
  rewrite (G _ _ _ (ci_types _ _ _ _ E)), (G _ _ _ (ci_types _ _ _ _ E')), N. apply zget_ext. intros i. rewrite !zget_map. pose proof (zget_range els i) as R1. pose proof (zget_range els' i) as R2. destruct (zget els i) as [a|] eqn:E1.
  - destruct (zget_lt els' i) as [b ->]; [rewrite <- Hz; eauto|reflexivity].
  - destruct (zget els' i) as [b|] eqn:E2; [|reflexivity]. destruct (zget_lt els i) as [a Ea]; [rewrite Hz; eauto|congruence].
Qed.
Definition target (ops : list wop) (op : wop) : Z := match op with Build _ _ => zlen (builds ops) | Step m _ _ => m end.
Record wSeq (makes : list (tmap -> Z -> option interactions)) (ops : list wop) (w : world) : Prop := {
  ws_obj : forall o ob it, zget (wd_objs w) o = Some ob -> io_backend ob = Some it -> exists k s make it0, zget (builds ops) k = Some (o, s) /\ zget makes o = Some make /\ make (cf_ptypes (su_cf s)) (lt_nb (su_lat s)) = Some it0 /\ usedBy it0 (su_lat s) (su_cf s) it;
  ws_model : forall m o md, zget (wd_models w) m = Some (o, md) -> exists own, onItsOwn makes ops m = Some own /\ md_cf md = md_cf own /\
     (latest ops m -> exists ob it, zget (wd_objs w) o = Some ob /\ io_backend ob = Some it /\ likeMd (withProcs md (in_procs it)) own) }.
Lemma latest_snoc ops o s m : latest (ops ++ [Build o s]) m -> m < zlen (builds ops) -> latest ops m /\ forall s', zget (builds ops) m <> Some (o, s').
Proof.
  intros H Hm. split.
  - intros k o' s1 s2 Hk E1 E2. apply (H k o' s1 s2 Hk); rewrite builds_app, zget_app_l; auto. apply zget_range in E2. lia.
  - intros s' E. apply (H (zlen (builds ops)) o s' s Hm); rewrite builds_app; cbn [builds flat_map app].
    + rewrite zget_app_l by lia. exact E.
    + rewrite zget_app_r, Z.sub_diag by lia. reflexivity.
Qed.
Lemma latest_step ops k u1 u2 m : latest (ops ++ [Step k u1 u2]) m -> latest ops m.
Proof. intros H. unfold latest in *. rewrite builds_app in H. cbn [builds flat_map app] in H. rewrite app_nil_r in H. exact H. Qed.
Lemma base_len makes ops w : wBase makes ops w -> zlen (wd_models w) = zlen (builds ops).
Proof. intros B. rewrite <- (zlen_map fst (wd_models w)), (wb_model _ _ _ B), zlen_map. reflexivity. Qed.
Lemma base_get makes ops w m o md : wBase makes ops w -> zget (wd_models w) m = Some (o, md) -> exists s, zget (builds ops) m = Some (o, s).
Proof.
  intros B E. assert (X : zget (map fst (builds ops)) m = Some o) by (rewrite <- (wb_model _ _ _ B), zget_map, E; reflexivity). rewrite zget_map in X. destruct (zget (builds ops) m) as [[o' s]|]; [|discriminate]. cbn in X. exists s. congruence.
Qed.
Lemma latest_same ops m m' o s s' : latest ops m -> latest ops m' -> zget (builds ops) m = Some (o, s) -> zget (builds ops) m' = Some (o, s') -> m = m'.
Proof. intros H H' E E'. destruct (Z.lt_trichotomy m m') as [L|[L|L]]; [exfalso; exact (H _ _ _ _ L E E')|exact L|exfalso; exact (H' _ _ _ _ L E' E)]. Qed.
Lemma own_step_none makes ops m u1 u2 : onItsOwn makes ops m = None -> onItsOwn makes (ops ++ [Step m u1 u2]) m = None.
Proof.
  unfold onItsOwn. rewrite builds_app, stepsOf_app. cbn [builds flat_map app stepsOf]. rewrite app_nil_r, Z.eqb_refl. destruct (zget (builds ops) m) as [os|]; [|reflexivity]. cbn [obind]. destruct (zget makes (fst os)) as [mk|]; [|reflexivity]. cbn [obind]. destruct (mk _ _) as [it|]; [|reflexivity]. cbn [obind]. destruct (mkLatticeModel _ _ _ _ _) as [md0|]; [|reflexivity]. cbn [obind].
  unfold runSteps. rewrite ofold_app. intros ->. reflexivity.
Qed.
Lemma zset_all {A} (l : list A) i x a : zget l i = Some a -> exists l', zset l i x = Some l'.
Proof. intros H. apply zset_lt. eapply zget_range; eauto. Qed.

Lemma seq_do makes ops w op : wBase makes ops w -> wSeq makes ops w -> (forall i o s, zget (builds (ops ++ [op])) i = Some (o, s) -> 0 < lt_unit (su_lat s)) -> sameSystems (ops ++ [op]) -> oneAtATime (ops ++ [op]) ->
  match wDo w op, onItsOwn makes (ops ++ [op]) (target ops op) with Some w', Some _ => wSeq makes (ops ++ [op]) w' | None, None => True | _, _ => False end.
Proof.
  intros B W US SS OT. pose proof (base_len _ _ _ B) as LB. destruct op as [o s|m u1 u2]; cbn [wDo target].
  - rewrite (own_build _ _ _ _ _ B). unfold wBuild.
    assert (MK : zget makes o = option_map io_make (zget (wd_objs w) o)) by (rewrite <- (wb_make _ _ _ B); apply zget_map). rewrite MK. destruct (zget (wd_objs w) o) as [ob|] eqn:Eo; [|exact I]. cbn [option_map obind].
    assert (LAST : zget (builds (ops ++ [Build o s])) (zlen (builds ops)) = Some (o, s)) by (rewrite builds_app; cbn [builds flat_map app]; rewrite zget_app_r, Z.sub_diag by lia; reflexivity).
    assert (KEEP : forall k x, zget (builds ops) k = Some x -> zget (builds (ops ++ [Build o s])) k = Some x) by (intros k x Hk; rewrite builds_app, zget_app_l; [exact Hk|apply zget_range in Hk; lia]).
    unfold backendOf. destruct (io_backend ob) as [it|] eqn:Eb.
    + destruct (ws_obj _ _ _ W _ _ _ Eo Eb) as (k & sA & make & it0 & K1 & K2 & K3 & UB). assert (make = io_make ob) by (rewrite MK in K2; cbn in K2; congruence). subst make.
      assert (SY : sameSystem sA s) by (eapply SS; [apply KEEP; exact K1|exact LAST]). destruct (system_shape _ _ SY) as (S1 & S2 & S3 & S4). rewrite <- S1, <- S2, K3. cbn [obind].
      pose proof (US _ _ _ (KEEP _ _ K1)) as HU. pose proof (build_like _ _ _ _ (su_cf s) (su_ranks s) (su_hash s) HU UB S3 S4) as BL.
      destruct (mkLatticeModel (su_ranks s) (su_hash s) (su_lat sA) (su_cf s) it) as [md|] eqn:Em, (mkLatticeModel (su_ranks s) (su_hash s) (su_lat sA) (su_cf s) it0) as [own|] eqn:Em0; try contradiction; [|exact I]. cbn [orel] in BL. cbn [obind].
      destruct (zset_all (wd_objs w) o (setBackend ob (set_procs it (in_procs (md_in md)))) ob Eo) as [objs Es]. rewrite Es. cbn [obind]. constructor; cbn [wd_objs wd_models].
      * intros o' ob' it' G1 G2. rewrite (zset_get _ _ _ _ _ Es) in G1. destruct (Z.eqb_spec o' o).
        -- subst o'. injection G1 as <-. cbn in G2. injection G2 as <-. exists k, sA, (io_make ob), it0. split; [apply KEEP; exact K1|]. split; [rewrite MK; reflexivity|]. split; [exact K3|]. exact (used_again it0 (su_lat sA) (su_cf sA) it (su_cf s) (su_ranks s) (su_hash s) md HU UB S3 S4 Em).
        -- destruct (ws_obj _ _ _ W _ _ _ G1 G2) as (k' & s' & mk' & it0' & J1 & J2 & J3 & J4). exists k', s', mk', it0'. auto.
      * intros m o' md' E. assert (Hm : 0 <= m < zlen (wd_models w) \/ m = zlen (wd_models w)) by (apply zget_range in E as X; rewrite zlen_app in X; cbn in X; lia). destruct Hm as [Hm| ->].
        -- rewrite zget_app_l in E by lia. destruct (ws_model _ _ _ W _ _ _ E) as (own' & O1 & O2 & O3). exists own'. rewrite own_other; [|lia|discriminate]. split; [exact O1|]. split; [exact O2|]. intros LT. destruct (latest_snoc _ _ _ _ LT) as [LT' NE]; [lia|].
           destruct (O3 LT') as (ob' & it' & P1 & P2 & P3). exists ob', it'. split; [|auto]. rewrite (zset_get _ _ _ _ _ Es). destruct (Z.eqb_spec o' o); [|exact P1]. subst o'. exfalso. destruct (base_get _ _ _ _ _ _ B E) as [s' Es']. exact (NE s' Es').
        -- rewrite zget_app_r, Z.sub_diag in E by lia. cbn in E. injection E as <- <-. exists own. split; [|split; [exact (lk_cf _ _ BL)|]].
           ++ rewrite LB, (own_build _ _ _ _ _ B), MK. cbn [option_map obind]. rewrite <- S1, <- S2, K3. cbn [obind]. exact Em0.
           ++ intros _. eexists _, _. rewrite (zset_get _ _ _ _ _ Es), Z.eqb_refl. split; [reflexivity|]. split; [reflexivity|]. cbn [set_procs in_procs]. rewrite withProcs_same. exact BL.
    + destruct (io_make ob _ _) as [it|] eqn:Ei; [|exact I]. cbn [obind]. destruct (mkLatticeModel (su_ranks s) (su_hash s) (su_lat s) (su_cf s) it) as [md|] eqn:Em; [|exact I]. cbn [obind].
      destruct (zset_all (wd_objs w) o (setBackend ob (set_procs it (in_procs (md_in md)))) ob Eo) as [objs Es]. rewrite Es. cbn [obind]. constructor; cbn [wd_objs wd_models].
      * intros o' ob' it' G1 G2. rewrite (zset_get _ _ _ _ _ Es) in G1. destruct (Z.eqb_spec o' o).
        -- subst o'. injection G1 as <-. cbn in G2. injection G2 as <-. exists (zlen (builds ops)), s, (io_make ob), it. split; [exact LAST|]. split; [rewrite MK; reflexivity|]. split; [exact Ei|]. eapply built_used; eauto.
        -- destruct (ws_obj _ _ _ W _ _ _ G1 G2) as (k' & s' & mk' & it0' & J1 & J2 & J3 & J4). exists k', s', mk', it0'. auto.
      * intros m o' md' E. assert (Hm : 0 <= m < zlen (wd_models w) \/ m = zlen (wd_models w)) by (apply zget_range in E as X; rewrite zlen_app in X; cbn in X; lia). destruct Hm as [Hm| ->].
        -- rewrite zget_app_l in E by lia. destruct (ws_model _ _ _ W _ _ _ E) as (own' & O1 & O2 & O3). exists own'. rewrite own_other; [|lia|discriminate]. split; [exact O1|]. split; [exact O2|]. intros LT. destruct (latest_snoc _ _ _ _ LT) as [LT' NE]; [lia|].
           destruct (O3 LT') as (ob' & it' & P1 & P2 & P3). exists ob', it'. split; [|auto]. rewrite (zset_get _ _ _ _ _ Es). destruct (Z.eqb_spec o' o); [|exact P1]. subst o'. exfalso. destruct (base_get _ _ _ _ _ _ B E) as [s' Es']. exact (NE s' Es').
        -- rewrite zget_app_r, Z.sub_diag in E by lia. cbn in E. injection E as <- <-. exists md. split; [|split; [reflexivity|]].
           ++ rewrite LB, (own_build _ _ _ _ _ B), MK. cbn [option_map obind]. rewrite Ei. cbn [obind]. exact Em.
           ++ intros _. eexists _, _. rewrite (zset_get _ _ _ _ _ Es), Z.eqb_refl. split; [reflexivity|]. split; [reflexivity|]. cbn [set_procs in_procs]. rewrite withProcs_same. constructor; try reflexivity. split; [reflexivity|]. apply F2_same. apply alike_refl.
  - unfold wStep. assert (LT : latest ops m) by (apply (OT ops m u1 u2 []); reflexivity). destruct (zget (wd_models w) m) as [[o md]|] eqn:Em.
    2:{ cbn [obind]. assert (X : onItsOwn makes (ops ++ [Step m u1 u2]) m = None); [|rewrite X; exact I]. unfold onItsOwn. rewrite builds_app. cbn [builds flat_map app]. rewrite app_nil_r. destruct (zget (builds ops) m) as [os|] eqn:E; [|reflexivity]. exfalso. apply zget_range in E. rewrite <- LB in E. destruct (zget_lt _ _ E) as [x Ex]. congruence. }
    cbn [obind]. destruct (ws_model _ _ _ W _ _ _ Em) as (own & O1 & O2 & O3). destruct (O3 LT) as (ob & it & P1 & P2 & P3). rewrite P1. cbn [obind]. rewrite P2. cbn [obind]. rewrite (own_step _ _ _ _ _ _ O1). pose proof (step_like _ _ u1 u2 P3) as SL.
    destruct (singleStep (withProcs md (in_procs it)) u1 u2) as [md'|] eqn:Es, (singleStep own u1 u2) as [own'|] eqn:Es'; try contradiction; [|exact I]. cbn [orel] in SL. cbn [obind].
    destruct (zset_all (wd_objs w) o (setBackend ob (set_procs it (in_procs (md_in md')))) ob P1) as [objs Eo]. rewrite Eo. cbn [obind]. destruct (zset_all (wd_models w) m (o, md') (o, md) Em) as [models Eo2]. rewrite Eo2. cbn [obind].
    assert (KB : builds (ops ++ [Step m u1 u2]) = builds ops) by (rewrite builds_app; apply app_nil_r). constructor; cbn [wd_objs wd_models].
    + intros o' ob' it' G1 G2. rewrite KB. rewrite (zset_get _ _ _ _ _ Eo) in G1. destruct (Z.eqb_spec o' o); [|apply (ws_obj _ _ _ W _ _ _ G1 G2)].
      subst o'. injection G1 as <-. cbn in G2. injection G2 as <-. destruct (ws_obj _ _ _ W _ _ _ P1 P2) as (k & s & make & it0 & K1 & K2 & K3 & UB). exists k, s, make, it0. split; [exact K1|]. split; [exact K2|]. split; [exact K3|]. eapply used_step; eauto.
    + intros k o' mk E. rewrite (zset_get _ _ _ _ _ Eo2) in E. destruct (Z.eqb_spec k m).
      * subst k. injection E as <- <-. exists own'. split; [rewrite (own_step _ _ _ _ _ _ O1); exact Es'|]. split; [exact (lk_cf _ _ SL)|]. intros _. eexists _, _. rewrite (zset_get _ _ _ _ _ Eo), Z.eqb_refl. split; [reflexivity|]. split; [reflexivity|]. cbn [set_procs in_procs]. rewrite withProcs_same. exact SL.
      * destruct (ws_model _ _ _ W _ _ _ E) as (ownk & Q1 & Q2 & Q3). assert (Rk := zget_range _ _ _ E). exists ownk. rewrite own_other; [|lia|congruence]. split; [exact Q1|]. split; [exact Q2|]. intros LTk. apply latest_step in LTk. destruct (Q3 LTk) as (obk & itk & R1 & R2 & R3). exists obk, itk. split; [|auto].
        rewrite (zset_get _ _ _ _ _ Eo). destruct (Z.eqb_spec o' o); [|exact R1]. exfalso. subst o'. destruct (base_get _ _ _ _ _ _ B E) as [sk Esk]. destruct (base_get _ _ _ _ _ _ B Em) as [sm Esm]. apply n. exact (latest_same _ _ _ _ _ _ LTk LT Esk Esm).
Qed.
Lemma oneAtATime_app a b : oneAtATime (a ++ b) -> oneAtATime a.
Proof. intros H pre m u1 u2 post E. apply (H pre m u1 u2 (post ++ b)). rewrite E, <- app_assoc. reflexivity. Qed.
Lemma sameSystems_app a b : sameSystems (a ++ b) -> sameSystems a.
Proof. intros H i j o s s' Ei Ej. apply (H i j o s s'); rewrite builds_app, zget_app_l; auto; [apply zget_range in Ei|apply zget_range in Ej]; lia. Qed.
Theorem world_sequential makes ops : forall w, (forall i o s, zget (builds ops) i = Some (o, s) -> 0 < lt_unit (su_lat s)) -> sameSystems ops -> oneAtATime ops -> runWorld (newObjects makes) ops = Some w -> wSeq makes ops w.
Proof.
  induction ops as [|op ops IH] using rev_ind; intros w US SS OT H.
  - cbn in H. injection H as <-. constructor.
    + intros o ob it E. cbn in E. rewrite zget_map in E. destruct (zget makes o); [|discriminate]. cbn in E. injection E as <-. discriminate.
    + intros m o md E. cbn in E. rewrite zget_nil in E. discriminate.
  - apply runWorld_snoc in H. destruct H as (w1 & H1 & H2). assert (W1 : wSeq makes ops w1).
    { apply IH; [|eapply sameSystems_app; eauto|eapply oneAtATime_app; eauto|exact H1]. intros i o s E. apply (US i o s). rewrite builds_app, zget_app_l; [exact E|apply zget_range in E; lia]. }
    pose proof (seq_do _ _ _ op (world_base _ _ _ H1) W1 US SS OT) as X. rewrite H2 in X. destruct (onItsOwn _ _ _); [exact X|contradiction].
Qed.
