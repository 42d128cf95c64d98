(** Several models in one program: bookkeeping of the world. *)
From Verif Require Import PBase SModel SShared PProcess PMatcher PPerform PStep PEffect.
Open Scope Z_scope.
Open Scope list_scope.

Lemma builds_app a b : builds (a ++ b) = builds a ++ builds b.
Proof. apply flat_map_app. Qed.
Lemma stepsOf_app m a b : stepsOf m (a ++ b) = stepsOf m a ++ stepsOf m b.
Proof. apply flat_map_app. Qed.
Lemma runWorld_snoc w ops op w2 : runWorld w (ops ++ [op]) = Some w2 -> exists w1, runWorld w ops = Some w1 /\ wDo w1 op = Some w2.
Proof. unfold runWorld. rewrite ofold_app. intros H. ob H as w1 E1. exists w1. split; [exact E1|]. cbn [ofold] in H. ob H as w' E'. injection H as <-. exact E'. Qed.

(** the objects keep what they construct, the models their objects *)
Record wBase (makes : list (tmap -> Z -> option interactions)) (ops : list wop) (w : world) : Prop := {
  wb_make : map io_make (wd_objs w) = makes;
  wb_model : map fst (wd_models w) = map fst (builds ops);
  wb_later : forall m, zlen (builds ops) <= m -> stepsOf m ops = [];
  wb_backend : forall o ob, zget (wd_objs w) o = Some ob -> (io_backend ob = None <-> ~ In o (map fst (builds ops))) }.
Lemma map_zset {A B} (f : A -> B) l i a l' : zset l i a = Some l' -> zget (map f l) i = Some (f a) -> map f l' = map f l.
Proof.
  intros E H. apply zget_ext. intros j. rewrite zget_map, (zset_get _ _ _ _ j E). destruct (Z.eqb_spec j i); [subst; rewrite H; reflexivity|]. rewrite zget_map. reflexivity.
Qed.
Lemma world_base makes ops : forall w, runWorld (newObjects makes) ops = Some w -> wBase makes ops w.
Proof.
  induction ops as [|op ops IH] using rev_ind; intros w H.
  - cbn in H. injection H as <-. constructor; cbn; auto.
    + rewrite map_map. cbn. apply map_id.
    + intros o ob E. apply zget_In, in_map_iff in E. destruct E as (f & <- & _). cbn. tauto.
  - apply runWorld_snoc in H. destruct H as (w1 & H1 & H2). specialize (IH _ H1). destruct IH as [B1 B2 B3 B4].
    assert (LB : zlen (wd_models w1) = zlen (builds ops)) by (rewrite <- (zlen_map fst (wd_models w1)), B2, zlen_map; reflexivity).
    destruct op as [o s|m u1 u2]; cbn [wDo] in H2.
    + unfold wBuild in H2. ob H2 as ob Eo. ob H2 as it Ei. ob H2 as md Em. ob H2 as objs Es. injection H2 as <-.
      constructor; cbn [wd_objs wd_models]; rewrite ?builds_app; cbn [builds flat_map app].
      * rewrite (map_zset _ _ _ _ _ Es); [exact B1|]. rewrite zget_map, Eo. reflexivity.
      * rewrite !map_app, B2. reflexivity.
      * intros m Hm. rewrite zlen_app in Hm. rewrite stepsOf_app, B3; [reflexivity|]. cbn in Hm. lia.
      * intros o' ob' E. rewrite (zset_get _ _ _ _ o' Es) in E. rewrite map_app, in_app_iff. cbn [map fst In]. destruct (Z.eqb_spec o' o).
        -- subst. injection E as <-. cbn. split; [discriminate|tauto].
        -- rewrite (B4 _ _ E). split; [intros H0 [X|[X|[]]]; [tauto|congruence]|tauto].
    + unfold wStep in H2. ob H2 as om Eom. destruct om as [o md]. ob H2 as ob Eo. ob H2 as it Ei. ob H2 as md' Em. ob H2 as objs Es. ob H2 as models Es2. injection H2 as <-.
      constructor; cbn [wd_objs wd_models]; rewrite ?builds_app, ?stepsOf_app; cbn [builds flat_map app]; rewrite ?app_nil_r.
      * rewrite (map_zset _ _ _ _ _ Es); [exact B1|]. rewrite zget_map, Eo. reflexivity.
      * rewrite (map_zset _ _ _ _ _ Es2); [exact B2|]. rewrite zget_map, Eom. reflexivity.
      * intros k Hk. rewrite stepsOf_app, (B3 _ Hk). cbn. destruct (Z.eqb_spec m k); [|reflexivity]. apply zget_range in Eom. lia.
      * intros o' ob' E. rewrite (zset_get _ _ _ _ o' Es) in E. destruct (Z.eqb_spec o' o); [|apply (B4 _ _ E)]. subst. injection E as <-. cbn. rewrite <- (B4 _ _ Eo), Ei. split; discriminate.
Qed.
Lemma own_other makes ops op m : 0 <= m < zlen (builds ops) -> (forall u1 u2, op <> Step m u1 u2) -> onItsOwn makes (ops ++ [op]) m = onItsOwn makes ops m.
Proof.
  intros Hm Ho. unfold onItsOwn. rewrite builds_app, stepsOf_app, zget_app_l by lia. destruct (zget (builds ops) m) as [os|]; [|reflexivity]. cbn [obind].
  replace (stepsOf m [op]) with (@nil (deviate * deviate)); [rewrite app_nil_r; reflexivity|]. destruct op as [|k u1 u2]; [reflexivity|]. cbn. destruct (Z.eqb_spec k m); [|reflexivity]. subst. exfalso. eapply Ho; eauto.
Qed.
Lemma own_step makes ops m u1 u2 md : onItsOwn makes ops m = Some md -> onItsOwn makes (ops ++ [Step m u1 u2]) m = singleStep md u1 u2.
Proof.
  unfold onItsOwn. rewrite builds_app, stepsOf_app. cbn [builds flat_map app stepsOf]. rewrite app_nil_r, Z.eqb_refl. intros H. ob H as os E1. rewrite E1. cbn [obind]. ob H as mk E2. rewrite E2. cbn [obind]. ob H as it E3. rewrite E3. cbn [obind]. ob H as md0 E4. rewrite E4. cbn [obind].
  unfold runSteps in *. rewrite ofold_app, H. cbn [obind ofold app fst snd]. destruct (singleStep md u1 u2); reflexivity.
Qed.
Lemma own_build makes ops w o s : wBase makes ops w -> onItsOwn makes (ops ++ [Build o s]) (zlen (builds ops)) =
  (make <- zget makes o ;; it <- make (cf_ptypes (su_cf s)) (lt_nb (su_lat s)) ;; mkLatticeModel (su_ranks s) (su_hash s) (su_lat s) (su_cf s) it).
Proof.
  intros B. unfold onItsOwn. rewrite builds_app, stepsOf_app, (wb_later _ _ _ B) by lia. cbn [builds flat_map app stepsOf]. rewrite zget_app_r, Z.sub_diag by lia. change (zget [(o, s)] 0) with (Some (o, s)). cbn [obind fst snd].
  destruct (zget makes o) as [mk|]; [|reflexivity]. cbn [obind]. destruct (mk _ _) as [it|]; [|reflexivity]. cbn [obind]. destruct (mkLatticeModel _ _ _ _ it); reflexivity.
Qed.

(** ** different objects *)
Lemma NoDup_app_l {A} (l m : list A) : NoDup (l ++ m) -> NoDup l.
Proof. induction l as [|a l IH]; cbn; intros H; [constructor|]. inversion H; subst. constructor; [rewrite in_app_iff in *; tauto|auto]. Qed.
Definition wSep (makes : list (tmap -> Z -> option interactions)) (ops : list wop) (w : world) : Prop :=
  forall m o md, zget (wd_models w) m = Some (o, md) -> onItsOwn makes ops m = Some md /\ exists ob it, zget (wd_objs w) o = Some ob /\ io_backend ob = Some it /\ in_procs it = in_procs (md_in md).
Lemma withProcs_same md : withProcs md (in_procs (md_in md)) = md.
Proof. destruct md as [L cf it mt], it. reflexivity. Qed.
Lemma world_separate makes ops : forall w, NoDup (map fst (builds ops)) -> runWorld (newObjects makes) ops = Some w -> wSep makes ops w.
Proof.
  induction ops as [|op ops IH] using rev_ind; intros w ND H.
  - cbn in H. injection H as <-. intros m o md E. cbn in E. rewrite zget_nil in E. discriminate.
  - pose proof H as H0. apply runWorld_snoc in H. destruct H as (w1 & H1 & H2). rewrite builds_app, map_app in ND. assert (ND1 : NoDup (map fst (builds ops))) by (apply (NoDup_app_l _ _ ND)).
    specialize (IH _ ND1 H1). pose proof (world_base _ _ _ H1) as B1.
    assert (LB : zlen (wd_models w1) = zlen (builds ops)) by (rewrite <- (zlen_map fst (wd_models w1)), (wb_model _ _ _ B1), zlen_map; reflexivity).
    destruct op as [o s|m u1 u2]; cbn [wDo] in H2.
    + unfold wBuild in H2. ob H2 as ob Eo. ob H2 as it Ei. ob H2 as md Em. ob H2 as objs Es. injection H2 as <-.
      assert (NI : ~ In o (map fst (builds ops))).
      { cbn [builds flat_map app map fst] in ND. apply NoDup_remove_2 in ND. rewrite app_nil_r in ND. exact ND. }
      intros m o' md' E. cbn [wd_models wd_objs] in *. assert (Hm : 0 <= m < zlen (wd_models w1) \/ m = zlen (wd_models w1)) by (apply zget_range in E as X; rewrite zlen_app in X; cbn in X; lia).
      destruct Hm as [Hm| ->].
      * rewrite zget_app_l in E by lia. destruct (IH _ _ _ E) as (X1 & ob' & it' & X2 & X3 & X4). rewrite own_other; [|lia|discriminate]. split; [exact X1|]. exists ob', it'. split; [|auto].
        rewrite (zset_get _ _ _ _ _ Es). destruct (Z.eqb_spec o' o); [|exact X2]. exfalso. subst. apply NI. rewrite <- (wb_model _ _ _ B1). change o with (fst (o, md')). apply in_map. eapply zget_In; eauto.
      * rewrite zget_app_r, Z.sub_diag in E by lia. cbn in E. injection E as <- <-. split.
        -- rewrite LB, (own_build _ _ _ _ _ B1). assert (X : zget makes o = Some (io_make ob)) by (rewrite <- (wb_make _ _ _ B1), zget_map, Eo; reflexivity). rewrite X. cbn [obind].
           unfold backendOf in Ei. apply (wb_backend _ _ _ B1 _ _ Eo) in NI. rewrite NI in Ei. rewrite Ei. cbn [obind]. exact Em.
        -- eexists _, _. rewrite (zset_get _ _ _ _ _ Es), Z.eqb_refl. split; [reflexivity|]. split; reflexivity.
    + unfold wStep in H2. ob H2 as om Eom. destruct om as [o md]. ob H2 as ob Eo. ob H2 as it Ei. ob H2 as md' Em. ob H2 as objs Es. ob H2 as models Es2. injection H2 as <-.
      destruct (IH _ _ _ Eom) as (X1 & ob' & it' & X2 & X3 & X4). assert (ob' = ob) by congruence. subst ob'. assert (it' = it) by congruence. subst it'. rewrite X4, withProcs_same in Em.
      intros k o' mk E. cbn [wd_models wd_objs] in *. rewrite (zset_get _ _ _ _ _ Es2) in E. destruct (Z.eqb_spec k m).
      * subst k. injection E as <- <-. rewrite (own_step _ _ _ _ _ _ X1). split; [exact Em|]. eexists _, _. rewrite (zset_get _ _ _ _ _ Es), Z.eqb_refl. split; [reflexivity|]. split; reflexivity.
      * destruct (IH _ _ _ E) as (Y1 & obk & itk & Y2 & Y3 & Y4). assert (Rk := zget_range _ _ _ E). rewrite own_other; [|lia|congruence]. split; [exact Y1|]. exists obk, itk. split; [|auto].
        rewrite (zset_get _ _ _ _ _ Es). destruct (Z.eqb_spec o' o); [|exact Y2]. exfalso. subst o'. apply n.
        assert (ND2 : NoDup (map fst (wd_models w1))) by (rewrite (wb_model _ _ _ B1); exact ND1).
        apply (NoDup_zget_inj (map fst (wd_models w1)) k m o ND2); rewrite zget_map; [rewrite E|rewrite Eom]; reflexivity.
Qed.
