(** Proofs about MMatcher.v: what calculateMatching does to the lists of available sites. *)
From Verif Require Import PBase SModel PProcess PMpi PRateTable.
Open Scope Z_scope.
Open Scope list_scope.

(** ** operations on single processes *)
Lemma modifyProc_spec it i f it' : modifyProc it i f = Some it' ->
  exists p p' ps, zget (in_procs it) i = Some p /\ f p = Some p' /\ it' = set_procs it ps /\
    zset (in_procs it) i p' = Some ps.
Proof.
  unfold modifyProc. intros H. ob H as p E. ob H as p' E'. ob H as ps Es. inversion H; subst.
  exists p, p', ps. auto.
Qed.

Lemma evt_set it i p' ps j x r : zset (in_procs it) i p' = Some ps ->
  evt (set_procs it ps) j x r <-> (if j =? i then In (x, r) (events p') else evt it j x r).
Proof.
  intros H. unfold evt. cbn [set_procs in_procs]. rewrite (zset_get _ _ _ _ j H).
  destruct (Z.eqb_spec j i).
  - split; [intros (p & E & Hin); congruence|]. intros Hin; exists p'; auto.
  - tauto.
Qed.

Lemma setInv_spec inv x i b inv' : setInv inv x i b = Some inv' ->
  forall y j, invAt inv' y j = if (y =? x) && (j =? i) then Some b else invAt inv y j.
Proof.
  unfold setInv. intros H. ob H as row E. ob H as row' E'. intros y j. unfold invAt.
  rewrite (zset_get _ _ _ _ y H). destruct (Z.eqb_spec y x); cbn [andb]; [|reflexivity].
  subst. cbn [obind]. rewrite (zset_get _ _ _ _ j E'). rewrite E. cbn [obind]. reflexivity.
Qed.

Lemma in_events_sites p x r : In (x, r) (events p) -> In x (pr_sites p).
Proof. unfold events. intros H. apply in_combine_l in H. exact H. Qed.
Lemma sites_in_events p x : pInv p -> In x (pr_sites p) -> exists r, In (x, r) (events p).
Proof.
  intros [_ _ Hr _] H. rewrite <- events_fst in H by exact Hr. apply in_map_iff in H.
  destruct H as ([y r] & <- & Hin). eauto.
Qed.
Lemma events_fun p x r r' : pInv p -> In (x, r) (events p) -> In (x, r') (events p) -> r = r'.
Proof.
  intros [ND _ Hr _]. rewrite <- (events_fst p Hr) in ND. revert ND.
  generalize (events p). induction l as [|[y s] l IH]; cbn [map fst In]; intros ND H1 H2; [tauto|].
  inversion ND; subst.
  assert (HN : forall q, In (y, q) l -> False).
  { intros q Hq. apply H3. apply in_map_iff. exists (y, q). auto. }
  destruct H1 as [H1|H1], H2 as [H2|H2].
  - congruence.
  - inversion H1; subst. exfalso; eauto.
  - inversion H2; subst. exfalso; eauto.
  - auto.
Qed.

(** what the bookkeeping never changes, including the affected indices *)
Definition pstat2 (p : process) := (pstatic p, pr_aff p).
Definition sameStatic (it it' : interactions) : Prop :=
  map pstat2 (in_procs it') = map pstat2 (in_procs it) /\
  in_wild it' = in_wild it /\ in_custom it' = in_custom it /\ in_rc it' = in_rc it.
Lemma sameStatic_refl it : sameStatic it it. Proof. repeat split. Qed.
Lemma sameStatic_trans a b c : sameStatic a b -> sameStatic b c -> sameStatic a c.
Proof. intros (A & B & C & D) (A' & B' & C' & D'). repeat split; congruence. Qed.
Lemma sameStatic_get it it' i p' : sameStatic it it' -> zget (in_procs it') i = Some p' ->
  exists p, zget (in_procs it) i = Some p /\ pstat2 p' = pstat2 p.
Proof.
  intros (A & _) E. assert (E2 : zget (map pstat2 (in_procs it')) i = Some (pstat2 p')) by (rewrite zget_map, E; reflexivity).
  rewrite A, zget_map in E2. destruct (zget (in_procs it) i) as [p|]; [|discriminate]. exists p. split; [auto|].
  simpl in E2. congruence.
Qed.
Lemma sameStatic_sym a b : sameStatic a b -> sameStatic b a.
Proof. intros (A & B & C & D). repeat split; congruence. Qed.
Lemma sameStatic_set it i p p' ps : zget (in_procs it) i = Some p -> zset (in_procs it) i p' = Some ps ->
  pstat2 p' = pstat2 p -> sameStatic it (set_procs it ps).
Proof.
  intros E Es Hp. repeat split. cbn [set_procs in_procs]. apply zget_ext. intros j. rewrite !zget_map.
  rewrite (zset_get _ _ _ _ j Es). destruct (Z.eqb_spec j i); [|reflexivity]. subst. rewrite E. simpl. congruence.
Qed.
Lemma sameStatic_len a b : sameStatic a b -> zlen (in_procs b) = zlen (in_procs a).
Proof. intros (A & _). rewrite <- (zlen_map pstat2), A, zlen_map. reflexivity. Qed.

(** the rate under which addSite records an event *)
Definition erate (it : interactions) (i r0 : Z) : Z :=
  match zget (in_procs it) i with Some p => if pr_custom p then r0 else pr_rate p | None => 0 end.
Lemma erate_static it it' i r0 : sameStatic it it' -> erate it' i r0 = erate it i r0.
Proof.
  intros H. unfold erate. destruct (zget (in_procs it') i) as [p'|] eqn:E'.
  - destruct (sameStatic_get _ _ _ _ H E') as (p & E & Hp). rewrite E.
    unfold pstat2, pstatic in Hp. inversion Hp; subst. reflexivity.
  - destruct (zget (in_procs it) i) as [p|] eqn:E; [|reflexivity].
    destruct (sameStatic_get _ _ _ _ (sameStatic_sym _ _ H) E) as (p' & E2 & _). congruence.
Qed.

Lemma addSite_pstat2 p x r m : pstat2 (addSite p x r m) = pstat2 p.
Proof. unfold pstat2. rewrite addSite_static. f_equal. unfold addSite. destruct (pr_custom p); reflexivity. Qed.

Lemma removeSite_needs p x p' : pInv p -> removeSite p x = Some p' -> In x (pr_sites p).
Proof.
  intros _ H. unfold removeSite in H. ob H as rs E.
  destruct (in_dec Z.eq_dec x (pr_sites p)) as [Hin|Hin]; [exact Hin|].
  exfalso. unfold swapRemove in E. ob E as y Ey. rewrite zfind_absent in Ey by exact Hin.
  apply zget_range in Ey. lia.
Qed.

(** *** remove *)
Lemma doRemove_spec it inv x i it' inv' : Binv it inv -> doRemove (it, inv) (x, i) = Some (it', inv') ->
  Binv it' inv' /\ sameStatic it it' /\
  (forall j y r, evt it' j y r <-> evt it j y r /\ (y, j) <> (x, i)) /\
  (forall y j, invAt inv' y j = if (y =? x) && (j =? i) then Some false else invAt inv y j).
Proof.
  intros HB H. unfold doRemove in H. ob H as it1 E1. ob H as inv1 E2. inversion H; subst; clear H.
  apply modifyProc_spec in E1. destruct E1 as (p & p' & ps & Ep & Erm & -> & Es).
  pose proof (setInv_spec _ _ _ _ _ E2) as HI.
  pose proof (bi_proc _ _ HB _ _ Ep) as Hp.
  pose proof (removeSite_needs _ _ _ Hp Erm) as Hx.
  destruct (removeSite_spec p x Hp Hx) as (p2 & r0 & Erm2 & Hp2 & Hst & Haff & _ & HP).
  assert (p2 = p') by congruence. subst p2.
  assert (Hev : forall j y r, evt (set_procs it ps) j y r <-> evt it j y r /\ (y, j) <> (x, i)).
  { intros j y r. rewrite (evt_set _ _ _ _ _ _ _ Es). destruct (Z.eqb_spec j i).
    - subst j. split.
      + intros Hin. split.
        * exists p. split; [auto|]. eapply Permutation_in; [symmetry; exact HP|right; exact Hin].
        * intros Heq. inversion Heq; subst y. pose proof (pi_nodup _ Hp) as ND.
          pose proof (Permutation_map fst HP) as HPf. rewrite events_fst in HPf by apply Hp.
          apply (Permutation_NoDup HPf) in ND. cbn [map fst] in ND. inversion ND; subst.
          apply H1. apply in_map_iff. exists (x, r). auto.
      + intros ((q & Eq & Hin) & Hne). assert (q = p) by congruence. subst q.
        apply (Permutation_in _ HP) in Hin. destruct Hin as [Heq|Hin]; [|exact Hin].
        inversion Heq; subst. congruence.
    - split; [intros Hin; split; [exact Hin|congruence]|tauto]. }
  split; [|split; [|split; [exact Hev|exact HI]]].
  - constructor.
    + intros j q. cbn [set_procs in_procs]. rewrite (zset_get _ _ _ _ j Es). destruct (Z.eqb_spec j i).
      * intros E; inversion E; subst; exact Hp2.
      * apply (bi_proc _ _ HB).
    + intros y j b Hb. rewrite HI in Hb. destruct (Z.eqb_spec y x), (Z.eqb_spec j i); cbn [andb] in Hb.
      * inversion Hb; subst. split; [discriminate|]. intros (r & Hr). apply Hev in Hr. destruct Hr; congruence.
      * rewrite (bi_inv _ _ HB _ _ _ Hb). split; intros (r & Hr); exists r; [apply Hev; split; [exact Hr|congruence]|apply Hev in Hr; tauto].
      * rewrite (bi_inv _ _ HB _ _ _ Hb). split; intros (r & Hr); exists r; [apply Hev; split; [exact Hr|congruence]|apply Hev in Hr; tauto].
      * rewrite (bi_inv _ _ HB _ _ _ Hb). split; intros (r & Hr); exists r; [apply Hev; split; [exact Hr|congruence]|apply Hev in Hr; tauto].
    + intros j y r Hr. apply Hev in Hr. destruct Hr as [Hr Hne]. destruct (bi_has _ _ HB _ _ _ Hr) as [b Hb].
      rewrite HI. destruct ((y =? x) && (j =? i)); eauto.
  - eapply sameStatic_set; eauto. unfold pstat2. congruence.
Qed.

Lemma fold_remove rem : forall it inv it' inv', Binv it inv -> ofold doRemove rem (it, inv) = Some (it', inv') ->
  Binv it' inv' /\ sameStatic it it' /\
  (forall j y r, evt it' j y r <-> evt it j y r /\ ~ In (y, j) rem) /\
  (forall y j, ~ In (y, j) rem -> invAt inv' y j = invAt inv y j).
Proof.
  induction rem as [|[x i] rem IH]; intros it inv it' inv' HB H; cbn [ofold] in H.
  - inversion H; subst. split; [auto|]. split; [apply sameStatic_refl|]. split; [intros; simpl; tauto|auto].
  - ob H as st E. destruct st as [it1 inv1]. destruct (doRemove_spec _ _ _ _ _ _ HB E) as (HB1 & S1 & V1 & I1).
    destruct (IH _ _ _ _ HB1 H) as (HB2 & S2 & V2 & I2).
    split; [auto|]. split; [eapply sameStatic_trans; eauto|]. split.
    + intros j y r. rewrite V2, V1. cbn [In]. split.
      * intros [[A B] C]. split; [exact A|]. intros [D|D]; [congruence|auto].
      * intros [A B]. split; [split; [exact A|]|]; [intros D; apply B; left; congruence|intros D; apply B; right; exact D].
    + intros y j Hn. rewrite I2 by (intros D; apply Hn; right; exact D). rewrite I1.
      destruct (Z.eqb_spec y x), (Z.eqb_spec j i); cbn [andb]; try reflexivity.
      subst. exfalso. apply Hn. left; reflexivity.
Qed.

(** *** add *)
Lemma doAdd_spec it inv t it' inv' : Binv it inv -> (forall r, ~ evt it (rt_process t) (rt_index t) r) ->
  doAdd (it, inv) t = Some (it', inv') ->
  Binv it' inv' /\ sameStatic it it' /\
  (forall j y r, evt it' j y r <-> evt it j y r \/ ((y, j) = tkey t /\ r = erate it j (rt_rate t))) /\
  (forall y j, invAt inv' y j = if (y =? rt_index t) && (j =? rt_process t) then Some true else invAt inv y j).
Proof.
  intros HB Habs H. unfold doAdd in H. ob H as it1 E1. ob H as inv1 E2. inversion H; subst; clear H.
  apply modifyProc_spec in E1. destruct E1 as (p & p' & ps & Ep & Ead & -> & Es). inversion Ead; subst p'; clear Ead.
  pose proof (setInv_spec _ _ _ _ _ E2) as HI.
  pose proof (bi_proc _ _ HB _ _ Ep) as Hp.
  assert (Hx : ~ In (rt_index t) (pr_sites p)).
  { intros Hin. destruct (sites_in_events _ _ Hp Hin) as [r Hr]. apply (Habs r). exists p; auto. }
  set (x := rt_index t) in *. set (i := rt_process t) in *.
  assert (Hev : forall j y r, evt (set_procs it ps) j y r <-> evt it j y r \/ ((y, j) = tkey t /\ r = erate it j (rt_rate t))).
  { intros j y r. rewrite (evt_set _ _ _ _ _ _ _ Es). unfold tkey. fold x i. unfold erate. destruct (Z.eqb_spec j i).
    - subst j. rewrite addSite_events by apply Hp. rewrite in_app_iff. cbn [In]. rewrite Ep. split.
      + intros [Hin|[Heq|[]]]; [left; exists p; auto|right]. inversion Heq; subst. auto.
      + intros [(q & Eq & Hin)|[Heq ->]].
        * assert (q = p) by congruence. subst q. auto.
        * inversion Heq; subst. auto.
    - split; [auto|]. intros [Hin|[Heq _]]; [exact Hin|congruence]. }
  split; [|split; [|split; [exact Hev|exact HI]]].
  - constructor.
    + intros j q. cbn [set_procs in_procs]. rewrite (zset_get _ _ _ _ j Es). destruct (Z.eqb_spec j i).
      * intros E; inversion E; subst. apply addSite_inv; auto.
      * apply (bi_proc _ _ HB).
    + intros y j b Hb. rewrite HI in Hb. destruct (Z.eqb_spec y x), (Z.eqb_spec j i); cbn [andb] in Hb.
      * inversion Hb; subst. split; [intros _|auto]. exists (erate it i (rt_rate t)). apply Hev. right. auto.
      * rewrite (bi_inv _ _ HB _ _ _ Hb). split; intros (r & Hr); exists r; [apply Hev; auto|].
        apply Hev in Hr. destruct Hr as [Hr|[Hr _]]; [exact Hr|unfold tkey in Hr; fold x i in Hr; congruence].
      * rewrite (bi_inv _ _ HB _ _ _ Hb). split; intros (r & Hr); exists r; [apply Hev; auto|].
        apply Hev in Hr. destruct Hr as [Hr|[Hr _]]; [exact Hr|unfold tkey in Hr; fold x i in Hr; congruence].
      * rewrite (bi_inv _ _ HB _ _ _ Hb). split; intros (r & Hr); exists r; [apply Hev; auto|].
        apply Hev in Hr. destruct Hr as [Hr|[Hr _]]; [exact Hr|unfold tkey in Hr; fold x i in Hr; congruence].
    + intros j y r Hr. apply Hev in Hr. rewrite HI. destruct Hr as [Hr|[Hr _]].
      * destruct (bi_has _ _ HB _ _ _ Hr) as [b Hb]. destruct ((y =? x) && (j =? i)); eauto.
      * unfold tkey in Hr. fold x i in Hr. inversion Hr; subst. rewrite !Z.eqb_refl. cbn [andb]. eauto.
  - eapply sameStatic_set; eauto. apply addSite_pstat2.
Qed.

Lemma fold_add add : forall it inv it' inv', Binv it inv -> NoDup (map tkey add) ->
  (forall t r, In t add -> ~ evt it (rt_process t) (rt_index t) r) ->
  ofold doAdd add (it, inv) = Some (it', inv') ->
  Binv it' inv' /\ sameStatic it it' /\
  (forall j y r, evt it' j y r <-> evt it j y r \/ (exists t, In t add /\ (y, j) = tkey t /\ r = erate it j (rt_rate t))) /\
  (forall y j, ~ In (y, j) (map tkey add) -> invAt inv' y j = invAt inv y j).
Proof.
  induction add as [|t add IH]; intros it inv it' inv' HB ND Habs H; cbn [ofold] in H.
  - inversion H; subst. split; [auto|]. split; [apply sameStatic_refl|]. split; [|auto].
    intros; split; [auto|]. intros [A|(t & [] & _)]; exact A.
  - ob H as st E. destruct st as [it1 inv1].
    destruct (doAdd_spec _ _ _ _ _ HB (fun r => Habs t r (or_introl eq_refl)) E) as (HB1 & S1 & V1 & I1).
    cbn [map] in ND. inversion ND; subst.
    assert (Habs1 : forall t' r, In t' add -> ~ evt it1 (rt_process t') (rt_index t') r).
    { intros t' r Ht' Hev. apply V1 in Hev. destruct Hev as [Hev|[Heq _]].
      - apply (Habs t' r); [right; exact Ht'|exact Hev].
      - apply H2. rewrite <- Heq. change (rt_index t', rt_process t') with (tkey t'). apply in_map; exact Ht'. }
    destruct (IH _ _ _ _ HB1 H3 Habs1 H) as (HB2 & S2 & V2 & I2).
    split; [auto|]. split; [eapply sameStatic_trans; eauto|]. split.
    + intros j y r. rewrite V2, V1. split.
      * intros [[A|[A B]]|(t' & A & B & C)]; [auto|right; exists t; cbn [In]; auto|].
        right. exists t'. rewrite (erate_static _ _ _ _ S1) in C. cbn [In]. auto.
      * intros [A|(t' & [<-|A] & B & C)]; [auto|auto|].
        right. exists t'. rewrite (erate_static _ _ _ _ S1). auto.
    + intros y j Hn. cbn [map In] in Hn. rewrite I2 by tauto. rewrite I1.
      destruct (Z.eqb_spec y (rt_index t)), (Z.eqb_spec j (rt_process t)); cbn [andb]; try reflexivity.
      exfalso. apply Hn. left. unfold tkey. congruence.
Qed.

(** *** update *)
Lemma doUpdate_spec it inv t it' : Binv it inv -> doUpdate it t = Some it' ->
  Binv it' inv /\ sameStatic it it' /\ (exists r, evt it (rt_process t) (rt_index t) r) /\
  (forall j y r, evt it' j y r <-> (evt it j y r /\ (y, j) <> tkey t) \/ ((y, j) = tkey t /\ r = erate it j (rt_rate t))).
Proof.
  intros HB H. unfold doUpdate in H.
  apply modifyProc_spec in H. destruct H as (p & p' & ps & Ep & Ead & -> & Es).
  ob Ead as p1 Erm. inversion Ead; subst p'; clear Ead.
  pose proof (bi_proc _ _ HB _ _ Ep) as Hp.
  set (x := rt_index t) in *. set (i := rt_process t) in *.
  pose proof (removeSite_needs _ _ _ Hp Erm) as Hx.
  destruct (removeSite_spec p x Hp Hx) as (p2 & r0 & Erm2 & Hp2 & Hst & Haff & _ & HP).
  assert (p2 = p1) by congruence. subst p2.
  assert (Hold : evt it i x r0).
  { exists p. split; [auto|]. eapply Permutation_in; [symmetry; exact HP|left; reflexivity]. }
  assert (Hx1 : ~ In x (pr_sites p1)).
  { pose proof (pi_nodup _ Hp) as ND.
    pose proof (Permutation_map fst HP) as HPf. rewrite events_fst in HPf by apply Hp.
    apply (Permutation_NoDup HPf) in ND. cbn [map fst] in ND. rewrite events_fst in ND by apply Hp2.
    inversion ND; auto. }
  assert (Hcr : (if pr_custom p1 then rt_rate t else pr_rate p1) = erate it i (rt_rate t)).
  { unfold erate. rewrite Ep. unfold pstatic in Hst. inversion Hst. reflexivity. }
  assert (Hev : forall j y r, evt (set_procs it ps) j y r <->
     (evt it j y r /\ (y, j) <> tkey t) \/ ((y, j) = tkey t /\ r = erate it j (rt_rate t))).
  { intros j y r. rewrite (evt_set _ _ _ _ _ _ _ Es). unfold tkey. fold x i. destruct (Z.eqb_spec j i).
    - subst j. rewrite addSite_events by apply Hp2. rewrite Hcr. rewrite in_app_iff. cbn [In]. split.
      + intros [Hin|[Heq|[]]].
        * left. split.
          -- exists p. split; [auto|]. eapply Permutation_in; [symmetry; exact HP|right; exact Hin].
          -- intros Heq. inversion Heq; subst. apply Hx1. eapply in_events_sites; eauto.
        * right. inversion Heq; subst. auto.
      + intros [((q & Eq & Hin) & Hne)|[Heq ->]].
        * assert (q = p) by congruence. subst q. apply (Permutation_in _ HP) in Hin.
          destruct Hin as [Heq|Hin]; [inversion Heq; subst; congruence|auto].
        * inversion Heq; subst. auto.
    - split; [intros Hin; left; split; [exact Hin|congruence]|]. intros [[Hin _]|[Heq _]]; [exact Hin|congruence]. }
  split; [|split; [|split; [eauto|exact Hev]]].
  - constructor.
    + intros j q. cbn [set_procs in_procs]. rewrite (zset_get _ _ _ _ j Es). destruct (Z.eqb_spec j i).
      * intros E; inversion E; subst. apply addSite_inv; auto.
      * apply (bi_proc _ _ HB).
    + intros y j b Hb. rewrite (bi_inv _ _ HB _ _ _ Hb). split.
      * intros (r & Hr). destruct (Z.eq_dec y x), (Z.eq_dec j i).
        -- subst. exists (erate it i (rt_rate t)). apply Hev. right. auto.
        -- exists r. apply Hev. left. split; [exact Hr|unfold tkey; fold x i; congruence].
        -- exists r. apply Hev. left. split; [exact Hr|unfold tkey; fold x i; congruence].
        -- exists r. apply Hev. left. split; [exact Hr|unfold tkey; fold x i; congruence].
      * intros (r & Hr). apply Hev in Hr. destruct Hr as [[Hr _]|[Heq _]]; [eauto|].
        unfold tkey in Heq. fold x i in Heq. inversion Heq; subst. eauto.
    + intros j y r Hr. apply Hev in Hr. destruct Hr as [[Hr _]|[Heq _]].
      * eapply bi_has; eauto.
      * unfold tkey in Heq. fold x i in Heq. inversion Heq; subst. eapply bi_has; eauto.
  - eapply sameStatic_set; eauto. rewrite addSite_pstat2. unfold pstat2. congruence.
Qed.

Lemma fold_update upd : forall it inv it', Binv it inv -> NoDup (map tkey upd) ->
  ofold doUpdate upd it = Some it' ->
  Binv it' inv /\ sameStatic it it' /\
  (forall j y r, evt it' j y r <->
     (evt it j y r /\ ~ In (y, j) (map tkey upd)) \/
     (exists t, In t upd /\ (y, j) = tkey t /\ r = erate it j (rt_rate t))).
Proof.
  induction upd as [|t upd IH]; intros it inv it' HB ND H; cbn [ofold] in H.
  - inversion H; subst. split; [auto|]. split; [apply sameStatic_refl|].
    intros; cbn [map In]. split; [auto|]. intros [[A _]|(t & [] & _)]; exact A.
  - ob H as it1 E.
    destruct (doUpdate_spec _ _ _ _ HB E) as (HB1 & S1 & _ & V1).
    cbn [map] in ND. inversion ND; subst.
    destruct (IH _ _ _ HB1 H3 H) as (HB2 & S2 & V2).
    split; [auto|]. split; [eapply sameStatic_trans; eauto|].
    intros j y r. rewrite V2. rewrite V1. cbn [map In]. split.
    + intros [[[[A A']|[A B]] C]|(t' & A & B & C)].
      * left. split; [exact A|]. intros [D|D]; [congruence|auto].
      * right. exists t. auto.
      * right. exists t'. rewrite (erate_static _ _ _ _ S1) in C. auto.
    + intros [[A B]|(t' & [<-|A] & B & C)].
      * left. split; [left; split; [exact A|]|]; [intros D; apply B; left; congruence|intros D; apply B; right; exact D].
      * left. split; [right; auto|]. rewrite B. exact H2.
      * right. exists t'. rewrite (erate_static _ _ _ _ S1). auto.
Qed.

(** ** task generation *)
Lemma collect_spec it cf xs : forall r0 u0 a0 r u a,
  ofold (collectTask it cf) xs (r0, u0, a0) = Some (r, u, a) ->
  r = r0 ++ map fst (filter (fun x => snd x =? 1) xs) /\
  map tkey u = map tkey u0 ++ map fst (filter (fun x => snd x =? 2) xs) /\
  map tkey a = map tkey a0 ++ map fst (filter (fun x => snd x =? 3) xs) /\
  (forall t, In t u -> In t u0 \/ exists p, zget (in_procs it) (rt_process t) = Some p /\ rt_rate t = pr_rate p) /\
  (forall t, In t a -> In t a0 \/ exists p, zget (in_procs it) (rt_process t) = Some p /\ rt_rate t = pr_rate p).
Proof.
  induction xs as [|[[index p_idx] ty] xs IH]; intros r0 u0 a0 r u a H; cbn [ofold] in H.
  - inversion H; subst. cbn [filter map]. rewrite !app_nil_r. repeat split; auto.
  - ob H as st E. destruct st as [[r1 u1] a1]. unfold collectTask in E.
    cbn [filter snd map]. specialize (IH _ _ _ _ _ _ H). destruct IH as (I1 & I2 & I3 & I4 & I5).
    destruct (Z.eqb_spec ty 1) as [->|N1].
    + inversion E; subst. cbn [Z.eqb Pos.eqb]. rewrite I2, I3. cbn [map fst].
      repeat split; auto. rewrite <- app_assoc. reflexivity.
    + destruct ((ty =? 2) || (ty =? 3)) eqn:E23.
      * ob E as p Ep. ob E as cl Ecl. ob E as mm Emm.
        destruct (Z.eqb_spec ty 2) as [->|N2].
        -- inversion E; subst. cbn [Z.eqb Pos.eqb map fst]. rewrite I2, I3, map_app. cbn [map].
           repeat split; auto.
           ++ rewrite <- app_assoc. reflexivity.
           ++ intros t Ht. apply I4 in Ht. destruct Ht as [Ht|Ht]; [|auto].
              apply in_app_or in Ht. destruct Ht as [Ht|[<-|[]]]; [auto|]. right. exists p. auto.
        -- destruct (Z.eqb_spec ty 3) as [->|N3]; [|discriminate].
           inversion E; subst. cbn [Z.eqb Pos.eqb map fst]. rewrite I2, I3, map_app. cbn [map].
           repeat split; auto.
           ++ rewrite <- app_assoc. reflexivity.
           ++ intros t Ht. apply I5 in Ht. destruct Ht as [Ht|Ht]; [|auto].
              apply in_app_or in Ht. destruct Ht as [Ht|[<-|[]]]; [auto|]. right. exists p. auto.
      * inversion E; subst. apply Bool.orb_false_iff in E23. destruct E23 as [E2 E3]. rewrite E2, E3.
        repeat split; auto.
Qed.

Lemma combine_omap_In {A B} (f : A -> option B) l r a b :
  omap f l = Some r -> In (a, b) (combine l r) -> In a l /\ f a = Some b.
Proof.
  intros H. apply omap_Forall2 in H. induction H; cbn [combine In]; intros Hin; [tauto|].
  destruct Hin as [Hin|Hin]; [inversion Hin; subst; auto|]. apply IHForall2 in Hin. tauto.
Qed.
Lemma combine_omap_In_iff {A B} (f : A -> option B) l r a b :
  omap f l = Some r -> (In (a, b) (combine l r) <-> In a l /\ f a = Some b).
Proof.
  intros H. split; [eapply combine_omap_In; eauto|]. apply omap_Forall2 in H.
  induction H; cbn [combine In]; intros [Hin E]; [tauto|].
  destruct Hin as [->|Hin]; [left; congruence|right; auto].
Qed.
Lemma map_fst_combine {A B} (l : list A) (m : list B) : length l = length m -> map fst (combine l m) = l.
Proof. revert m; induction l; intros [|b m] H; simpl in *; try discriminate; [reflexivity|]. f_equal. apply IHl; congruence. Qed.
Lemma NoDup_map_filter {A B} (f : A -> B) (g : A -> bool) l : NoDup (map f l) -> NoDup (map f (filter g l)).
Proof.
  induction l as [|a l IH]; cbn [map filter]; intros ND; [constructor|]. inversion ND; subst.
  destruct (g a); cbn [map]; [|auto]. constructor; [|auto].
  intros Hin. apply H1. apply in_map_iff in Hin. destruct Hin as (b & E & Hb). apply filter_In in Hb.
  apply in_map_iff. exists b. tauto.
Qed.

Lemma taskType_spec S m it cf x i ty : taskType S m it cf (x, i) = Some ty ->
  exists p inl cl mt, zget (in_procs it) i = Some p /\ invAt (mt_inv m) x i = Some inl /\
    zget (cf_mlists cf) x = Some cl /\ whateverMatch S (pr_ml p) cl = Some mt /\
    ty = if mt then (if inl then 2 else 3) else (if inl then 1 else 0).
Proof.
  unfold taskType. intros H. ob H as p Ep. ob H as row Er. ob H as inl Ei. ob H as cl Ecl. ob H as mt Em.
  exists p, inl, cl, mt. unfold invAt. rewrite Er. cbn [obind]. inversion H. destruct mt, inl; auto 10.
Qed.

(** Tasks generated for distinct pairs *)
Record tasksOK (S : Z) (m : matcher) (it : interactions) (cf : config) (pairs : list (Z * Z))
               (rem : list (Z * Z)) (upd add : list ratetask) : Prop := {
  to_total : forall x i, In (x, i) pairs -> exists p inl cl mt, zget (in_procs it) i = Some p /\
     invAt (mt_inv m) x i = Some inl /\ zget (cf_mlists cf) x = Some cl /\ whateverMatch S (pr_ml p) cl = Some mt;
  to_rem : forall x i, In (x, i) rem <-> In (x, i) pairs /\ ~ matchAt S it cf i x /\ invAt (mt_inv m) x i = Some true;
  to_upd : forall x i, In (x, i) (map tkey upd) <-> In (x, i) pairs /\ matchAt S it cf i x /\ invAt (mt_inv m) x i = Some true;
  to_add : forall x i, In (x, i) (map tkey add) <-> In (x, i) pairs /\ matchAt S it cf i x /\ invAt (mt_inv m) x i = Some false;
  to_ndu : NoDup (map tkey upd);
  to_nda : NoDup (map tkey add);
  to_ratu : forall t, In t upd -> exists p, zget (in_procs it) (rt_process t) = Some p /\ rt_rate t = pr_rate p;
  to_rata : forall t, In t add -> exists p, zget (in_procs it) (rt_process t) = Some p /\ rt_rate t = pr_rate p }.

Lemma matchTasks_spec S m it cf pairs rem upd add : 1 <= mt_ranks m -> NoDup pairs ->
  matchIndicesWithProcesses S m pairs it cf = Some (rem, upd, add) -> tasksOK S m it cf pairs rem upd add.
Proof.
  intros Hr ND H. unfold matchIndicesWithProcesses in H. rewrite mpiMap_omap in H by exact Hr.
  ob H as types ET. apply collect_spec in H. cbn [map] in H. rewrite !app_nil_l in H.
  destruct H as (E1 & E2 & E3 & E4 & E5).
  assert (Hl : length pairs = length types) by (symmetry; eapply omap_length; eauto).
  assert (HF : forall c x i, In (x, i) (map fst (filter (fun z : (Z * Z) * Z => snd z =? c) (combine pairs types))) <->
               In (x, i) pairs /\ taskType S m it cf (x, i) = Some c).
  { intros c x i. rewrite in_map_iff. split.
    - intros ([[x' i'] ty] & Heq & Hin). cbn [fst] in Heq. inversion Heq; subst. apply filter_In in Hin. cbn [snd] in Hin.
      destruct Hin as [Hin Hc]. apply Z.eqb_eq in Hc. subst. eapply combine_omap_In; eauto.
    - intros [Hin Ht]. exists ((x, i), c). split; [reflexivity|]. apply filter_In. cbn [snd]. rewrite Z.eqb_refl.
      split; [|reflexivity]. eapply combine_omap_In_iff; eauto. }
  assert (HND : forall c, NoDup (map fst (filter (fun z : (Z * Z) * Z => snd z =? c) (combine pairs types)))).
  { intros c. apply NoDup_map_filter. rewrite map_fst_combine by exact Hl. exact ND. }
  assert (HT : forall x i, In (x, i) pairs -> exists ty, taskType S m it cf (x, i) = Some ty).
  { intros x i Hin. destruct (omap_In_l _ _ _ _ ET Hin) as (ty & _ & E). eauto. }
  assert (HM : forall x i p cl mt, zget (in_procs it) i = Some p -> zget (cf_mlists cf) x = Some cl ->
              whateverMatch S (pr_ml p) cl = Some mt -> (matchAt S it cf i x <-> mt = true)).
  { intros x i p cl mt A B C. split.
    - intros (p' & cl' & A' & B' & C'). congruence.
    - intros ->. exists p, cl. auto. }
  constructor.
  - intros x i Hin. destruct (HT x i Hin) as [ty Ety]. apply taskType_spec in Ety.
    destruct Ety as (p & inl & cl & mt & A & B & C & D & _). exists p, inl, cl, mt. auto.
  - intros x i. rewrite E1, HF. split.
    + intros [Hin Ht]. split; [exact Hin|]. apply taskType_spec in Ht.
      destruct Ht as (p & inl & cl & mt & A & B & C & D & E). rewrite (HM _ _ _ _ _ A C D).
      destruct mt, inl; try discriminate. split; [discriminate|exact B].
    + intros (Hin & Hm & Hi). split; [exact Hin|]. destruct (HT x i Hin) as [ty Ety]. rewrite Ety. apply taskType_spec in Ety.
      destruct Ety as (p & inl & cl & mt & A & B & C & D & E). rewrite (HM _ _ _ _ _ A C D) in Hm.
      assert (inl = true) by congruence. subst inl. destruct mt; [congruence|]. congruence.
  - intros x i. rewrite E2, HF. split.
    + intros [Hin Ht]. split; [exact Hin|]. apply taskType_spec in Ht.
      destruct Ht as (p & inl & cl & mt & A & B & C & D & E). rewrite (HM _ _ _ _ _ A C D).
      destruct mt, inl; try discriminate. split; [reflexivity|exact B].
    + intros (Hin & Hm & Hi). split; [exact Hin|]. destruct (HT x i Hin) as [ty Ety]. rewrite Ety. apply taskType_spec in Ety.
      destruct Ety as (p & inl & cl & mt & A & B & C & D & E). rewrite (HM _ _ _ _ _ A C D) in Hm.
      assert (inl = true) by congruence. subst inl mt. congruence.
  - intros x i. rewrite E3, HF. split.
    + intros [Hin Ht]. split; [exact Hin|]. apply taskType_spec in Ht.
      destruct Ht as (p & inl & cl & mt & A & B & C & D & E). rewrite (HM _ _ _ _ _ A C D).
      destruct mt, inl; try discriminate. split; [reflexivity|exact B].
    + intros (Hin & Hm & Hi). split; [exact Hin|]. destruct (HT x i Hin) as [ty Ety]. rewrite Ety. apply taskType_spec in Ety.
      destruct Ety as (p & inl & cl & mt & A & B & C & D & E). rewrite (HM _ _ _ _ _ A C D) in Hm.
      assert (inl = false) by congruence. subst inl mt. congruence.
  - rewrite E2. apply HND.
  - rewrite E3. apply HND.
  - intros t Ht. destruct (E4 t Ht) as [[]|Hx]; exact Hx.
  - intros t Ht. destruct (E5 t Ht) as [[]|Hx]; exact Hx.
Qed.

(** ** custom rates *)
Definition taskRate (it : interactions) (cf : config) (x : ratetask * Z * option Z * Z) : option Z :=
  let '(t, _, _, _) := x in
  p <- zget (in_procs it) (rt_process t) ;; updateSingleRate cf (in_rc it) p (rt_index t).

Lemma fillRates_spec f xs : forall rates ts rest more,
  fillRates xs rates = Some (ts, rest) -> omap f (filter isMiss xs ++ more) = Some rates ->
  omap f more = Some rest /\
  Forall2 (fun x t' => exists r, t' = set_rate (fst (fst (fst x))) r /\
             (snd (fst x) = Some r \/ (snd (fst x) = None /\ f x = Some r))) xs ts.
Proof.
  induction xs as [|[[[t k] o] n] xs IH]; intros rates ts rest more H E; cbn [fillRates filter isMiss app] in *.
  - inversion H; subst. split; [exact E|constructor].
  - destruct o as [r|]; cbn [app] in *.
    + ob H as fr Ef. inversion H; subst. destruct fr as [ts' rest']. cbn [fst snd].
      destruct (IH _ _ _ _ Ef E) as [A B]. split; [exact A|]. constructor; [|exact B].
      exists r. cbn [fst snd]. auto.
    + cbn [omap] in E. ob E as r Er. ob E as rs Ers. inversion E; subst. cbn [fillRates] in H. ob H as fr Ef. inversion H; subst.
      destruct fr as [ts' rest']. cbn [fst snd].
      destruct (IH _ _ _ _ Ef Ers) as [A B]. split; [exact A|]. constructor; [|exact B].
      exists r. cbn [fst snd]. auto.
Qed.

Lemma storeRate_fold it xs : forall rt rt', ofold (storeRate it) xs rt = Some rt' -> rtInv rt ->
  rtInv rt' /\ forall k v, rtHas rt' k v -> rtHas rt k v \/
    exists t o n p, In ((t, k, o, n), v) xs /\ zget (in_procs it) n = Some p /\ pr_cache p = true.
Proof.
  induction xs as [|[[[[t k] o] n] v] xs IH]; intros rt rt' H HI; cbn [ofold] in H.
  - inversion H; subst. auto.
  - ob H as rt1 E. unfold storeRate in E. ob E as p Ep. destruct (pr_cache p) eqn:Ec.
    + destruct (rtStore_spec rt k v HI) as (rt1' & E' & HI1 & _ & _ & H1 & _ & _).
      assert (rt1' = rt1) by congruence. subst. destruct (IH _ _ H HI1) as [HI2 H2]. split; [exact HI2|].
      intros k' v' Hh. apply H2 in Hh. destruct Hh as [Hh|(t' & o' & n' & p' & A & B & C)].
      * apply H1 in Hh. destruct Hh as [Hh|[-> ->]]; [auto|]. right. exists t, o, n, p. cbn [In]. auto.
      * right. exists t', o', n', p'. cbn [In]. auto.
    + inversion E; subst. destruct (IH _ _ H HI) as [HI2 H2]. split; [exact HI2|].
      intros k' v' Hh. apply H2 in Hh. destruct Hh as [Hh|(t' & o' & n' & p' & A & B & C)]; [auto|].
      right. exists t', o', n', p'. cbn [In]. auto.
Qed.

Lemma Forall2_In_r {A B} (R : A -> B -> Prop) l r b : Forall2 R l r -> In b r -> exists a, In a l /\ R a b.
Proof.
  induction 1; intros Hin; [destruct Hin|]. destruct Hin as [<-|Hin]; [exists x; cbn [In]; auto|].
  destruct (IHForall2 Hin) as (a & Ha & HR). exists a; cbn [In]; auto.
Qed.

(** a rate is either what the table holds for the environment or what the calculator returns *)
Definition customRate (m : matcher) (it : interactions) (cf : config) (i x r : Z) : Prop :=
  exists p, zget (in_procs it) i = Some p /\
    exists key, hashCustomRateInput m cf p x = Some key /\
    ((rtStored (mt_rt m) key <> -1 /\ rtRetrieve (mt_rt m) key = Some r)
     \/ (rtStored (mt_rt m) key = -1 /\ updateSingleRate cf (in_rc it) p x = Some r)).
(** a new entry of the table belongs to an event whose rate was just calculated *)
Definition newEntry (m : matcher) (it : interactions) (cf : config) (pairs : list (Z * Z)) (k v : Z) : Prop :=
  exists x i p q, In (x, i) pairs /\ zget (in_procs it) i = Some p /\ hashCustomRateInput m cf p x = Some k /\
    updateSingleRate cf (in_rc it) p x = Some v /\ zget (in_procs it) (pr_number p) = Some q /\ pr_cache q = true.

Lemma customRates_spec m it cf upd add m' upd' add' : 1 <= mt_ranks m -> rtInv (mt_rt m) ->
  customRates m it cf upd add = Some (m', upd', add') ->
  map tkey upd' = map tkey upd /\ map tkey add' = map tkey add /\
  (forall t, In t upd' \/ In t add' -> customRate m it cf (rt_process t) (rt_index t) (rt_rate t)) /\
  mt_ranks m' = mt_ranks m /\ mt_hash m' = mt_hash m /\ mt_inv m' = mt_inv m /\ rtInv (mt_rt m') /\
  (forall k v, rtHas (mt_rt m') k v -> rtHas (mt_rt m) k v \/ newEntry m it cf (map tkey upd ++ map tkey add) k v).
Proof.
  intros Hr HI H. unfold customRates in H. ob H as xa Ea. ob H as xu Eu. cbv zeta in H.
  rewrite mpiMap_omap in H by exact Hr. ob H as rates Er.
  change (omap (taskRate it cf) (filter isMiss xa ++ filter isMiss xu) = Some rates) in Er.
  ob H as fa Efa. ob H as fu Efu. ob H as rt Ert. inversion H; subst; clear H.
  destruct fa as [add' ra]. destruct fu as [upd' ru]. cbn [fst snd] in *.
  destruct (fillRates_spec (taskRate it cf) _ _ _ _ _ Efa Er) as [E2 FA].
  destruct (fillRates_spec (taskRate it cf) xu ra upd' ru [] Efu) as [_ FU]; [rewrite app_nil_r; exact E2|].
  assert (HL : forall ts xs x, omap (lookupTask m it cf) ts = Some xs -> In x xs ->
     exists t, In t ts /\ lookupTask m it cf t = Some x).
  { intros ts xs x E Hin. destruct (omap_In _ _ _ _ E Hin) as (t & A & B). eauto. }
  assert (HX : forall t x, lookupTask m it cf t = Some x ->
     exists p key, zget (in_procs it) (rt_process t) = Some p /\ hashCustomRateInput m cf p (rt_index t) = Some key /\
       ((x = (t, key, None, pr_number p) /\ rtStored (mt_rt m) key = -1) \/
        (exists r, x = (t, key, Some r, pr_number p) /\ rtStored (mt_rt m) key <> -1 /\ rtRetrieve (mt_rt m) key = Some r))).
  { intros t x E. unfold lookupTask in E. ob E as p Ep. ob E as key Ek. exists p, key. split; [exact Ep|]. split; [exact Ek|].
    destruct (Z.eqb_spec (rtStored (mt_rt m) key) (-1)); [left; split; [congruence|auto]|].
    right. ob E as r E'. exists r. split; [congruence|auto]. }
  assert (HK : forall ts xs ts', omap (lookupTask m it cf) ts = Some xs ->
     Forall2 (fun x t' => exists r, t' = set_rate (fst (fst (fst x))) r /\
             (snd (fst x) = Some r \/ (snd (fst x) = None /\ taskRate it cf x = Some r))) xs ts' ->
     map tkey ts' = map tkey ts /\
     forall t', In t' ts' -> customRate m it cf (rt_process t') (rt_index t') (rt_rate t')).
  { intros ts xs ts' E F. apply omap_Forall2 in E. revert ts' F.
    induction E as [|t x ts xs E1 E IH]; intros ts' F; inversion F; subst; cbn [map].
    - split; [reflexivity|intros t' []].
    - destruct (IH _ H3) as [A B]. destruct H1 as (r & -> & Hc).
      destruct (HX _ _ E1) as (p & key & Ep & Ek & Hcase).
      assert (Ht : fst (fst (fst x)) = t) by (destruct Hcase as [[-> _]|(r' & -> & _)]; reflexivity).
      rewrite Ht. split; [rewrite A; reflexivity|].
      intros t' [<-|Hin]; [|auto]. unfold customRate. cbn [set_rate rt_process rt_index rt_rate].
      exists p. split; [exact Ep|]. exists key. split; [exact Ek|].
      destruct Hcase as [[-> Hm]|(r' & -> & Hm & Hv)]; cbn [fst snd] in Hc.
      + right. split; [exact Hm|]. destruct Hc as [Hc|[_ Hc]]; [discriminate|].
        cbn [taskRate] in Hc. rewrite Ep in Hc. exact Hc.
      + left. split; [exact Hm|]. destruct Hc as [Hc|[Hc _]]; [congruence|discriminate]. }
  destruct (HK _ _ _ Ea FA) as [KA RA]. destruct (HK _ _ _ Eu FU) as [KU RU].
  split; [exact KU|]. split; [exact KA|]. split; [intros t [Ht|Ht]; auto|].
  cbn [set_rt mt_ranks mt_hash mt_inv mt_rt]. split; [reflexivity|]. split; [reflexivity|]. split; [reflexivity|].
  destruct (storeRate_fold _ _ _ _ Ert HI) as [HI' Hnew]. split; [exact HI'|].
  intros k v Hh. apply Hnew in Hh. destruct Hh as [Hh|(t & o & n & q & Hin & Eq & Ec)]; [auto|right].
  apply (combine_omap_In _ _ _ _ _ Er) in Hin. destruct Hin as [Hin Htr].
  assert (Hts : exists t0, (In t0 upd \/ In t0 add) /\ lookupTask m it cf t0 = Some (t, k, o, n)).
  { apply in_app_or in Hin. destruct Hin as [Hin|Hin]; apply filter_In in Hin; destruct Hin as [Hin _].
    - destruct (HL _ _ _ Ea Hin) as (t0 & A & B). eauto.
    - destruct (HL _ _ _ Eu Hin) as (t0 & A & B). eauto. }
  destruct Hts as (t0 & Hin0 & El). destruct (HX _ _ El) as (p & key & Ep & Ek & Hcase).
  assert (Hq : t = t0 /\ k = key /\ n = pr_number p).
  { destruct Hcase as [[Hx _]|(r' & Hx & _)]; inversion Hx; auto. }
  destruct Hq as (-> & -> & ->). cbn [taskRate] in Htr. rewrite Ep in Htr. cbn [obind] in Htr.
  exists (rt_index t0), (rt_process t0), p, q.
  split; [|auto 10]. rewrite in_app_iff. change (rt_index t0, rt_process t0) with (tkey t0).
  destruct Hin0; [left|right]; apply in_map; assumption.
Qed.

(** ** pairs *)
Lemma combine_zrange_In {A} (l : list A) i a : In (i, a) (combine (zrange 0 (zlen l - 1)) l) <-> zget l i = Some a.
Proof.
  assert (H : forall (l : list A) lo, In (i, a) (combine (zseq lo (length l)) l) <-> zget l (i - lo) = Some a /\ lo <= i).
  { clear l. induction l as [|b l IH]; intros lo; cbn [length zseq combine In].
    - unfold zget. destruct (i - lo <? 0); destruct (Z.to_nat (i - lo)); simpl; split; (intros []; discriminate) || tauto.
    - rewrite IH, zget_cons. destruct (Z.eqb_spec (i - lo) 0) as [E|E].
      + split.
        * intros [Heq|[Hg Hle]]; [inversion Heq; subst; split; [reflexivity|lia]|lia].
        * intros [Heq _]. inversion Heq; subst. left. f_equal. lia.
      + replace (i - (lo + 1)) with (i - lo - 1) by lia. split.
        * intros [Heq|[Hg Hle]]; [inversion Heq; subst; lia|]. split; [exact Hg|lia].
        * intros [Hg Hle]. right. split; [exact Hg|]. lia. }
  unfold zrange. replace (Z.to_nat (zlen l - 1 - 0 + 1)) with (length l) by (unfold zlen; lia).
  rewrite H. rewrite Z.sub_0_r. split; [tauto|]. intros E. split; [exact E|]. apply zget_range in E. lia.
Qed.
Lemma combine_zrange_fst {A} (l : list A) : map fst (combine (zrange 0 (zlen l - 1)) l) = zrange 0 (zlen l - 1).
Proof.
  apply map_fst_combine. unfold zrange. rewrite zseq_length. unfold zlen. lia.
Qed.

Lemma In_pairsOf L it x y i : In (y, i) (pairsOf L (in_procs it) x) <-> y = x /\ pairIn L it x i.
Proof.
  unfold pairsOf, pairIn. rewrite in_map_iff. split.
  - intros ([j p] & Heq & Hin). cbn [fst] in Heq. inversion Heq; subst. apply filter_In in Hin. cbn [snd] in Hin.
    destruct Hin as [Hin Hz]. apply combine_zrange_In in Hin. apply zmem_In in Hz. split; [reflexivity|]. exists p. auto.
  - intros [-> (p & Ep & Hb)]. exists (i, p). split; [reflexivity|]. apply filter_In. cbn [snd].
    split; [apply combine_zrange_In; exact Ep|apply zmem_In; exact Hb].
Qed.
Lemma In_pairs L it idx x i : In (x, i) (flat_map (pairsOf L (in_procs it)) idx) <-> In x idx /\ pairIn L it x i.
Proof.
  rewrite in_flat_map. split.
  - intros (y & Hy & Hin). apply In_pairsOf in Hin. destruct Hin as [-> Hp]. auto.
  - intros [Hx Hp]. exists x. split; [exact Hx|]. apply In_pairsOf. auto.
Qed.
Lemma NoDup_pairs L it idx : NoDup idx -> NoDup (flat_map (pairsOf L (in_procs it)) idx).
Proof.
  intros ND. apply NoDup_flat_map; [exact ND| |].
  - intros x Hx. unfold pairsOf.
    assert (HN : NoDup (map fst (filter (fun jp : Z * process => zmem (basisSiteFromIndex L x) (pr_basis (snd jp)))
              (combine (zrange 0 (zlen (in_procs it) - 1)) (in_procs it))))).
    { apply NoDup_map_filter. rewrite combine_zrange_fst. apply NoDup_zrange. }
    replace (map (fun jp : Z * process => (x, fst jp)) _) with
      (map (pair x) (map fst (filter (fun jp : Z * process => zmem (basisSiteFromIndex L x) (pr_basis (snd jp)))
              (combine (zrange 0 (zlen (in_procs it) - 1)) (in_procs it))))) by (rewrite map_map; reflexivity).
    apply FinFun.Injective_map_NoDup; [intros a b E; congruence|exact HN].
  - intros x y [a b] Hx Hy H1 H2. apply In_pairsOf in H1, H2. destruct H1, H2. congruence.
Qed.

(** ** refreshing the match lists *)
Lemma pairsOf_nil L it x : pairsOf L (in_procs it) x = [] <-> ~ usedBy L it x.
Proof.
  split.
  - intros E (i & Hi). assert (In (x, i) (pairsOf L (in_procs it) x)) by (apply In_pairsOf; auto).
    rewrite E in H. exact H.
  - intros H. destruct (pairsOf L (in_procs it) x) as [|[y i] l] eqn:E; [reflexivity|].
    exfalso. apply H. exists i. assert (Hin : In (y, i) (pairsOf L (in_procs it) x)) by (rewrite E; left; reflexivity).
    apply In_pairsOf in Hin. tauto.
Qed.

Lemma set_mlists_self cf : set_mlists cf (cf_mlists cf) = cf.
Proof. destruct cf; reflexivity. Qed.
Lemma set_mlists_twice cf a b : set_mlists (set_mlists cf a) b = set_mlists cf b.
Proof. reflexivity. Qed.

Lemma refresh_fold L it idx : forall cf cf', NoDup idx -> ofold (refreshUsed L (in_procs it)) idx cf = Some cf' ->
  exists mls, cf' = set_mlists cf mls /\ zlen mls = zlen (cf_mlists cf) /\
  forall x, (In x idx /\ usedBy L it x /\
             exists ml ml', zget (cf_mlists cf) x = Some ml /\ omap (refreshEntry (cf_types cf)) ml = Some ml' /\
                            zget mls x = Some ml')
         \/ (~ (In x idx /\ usedBy L it x) /\ zget mls x = zget (cf_mlists cf) x).
Proof.
  induction idx as [|y idx IH]; intros cf cf' ND H; cbn [ofold] in H.
  - inversion H; subst. exists (cf_mlists cf'). rewrite set_mlists_self. split; [reflexivity|]. split; [reflexivity|].
    intros x. right. split; [intros [[] _]|reflexivity].
  - ob H as cf1 E. inversion ND; subst. destruct (IH _ _ H3 H) as (mls & -> & Hlen & Hx). clear IH.
    unfold refreshUsed in E. destruct (pairsOf L (in_procs it) y) as [|pr prs] eqn:Ep.
    + inversion E; subst cf1. apply pairsOf_nil in Ep. exists mls. split; [reflexivity|]. split; [exact Hlen|]. intros x.
      destruct (Hx x) as [(A & B & C)|[A B]].
      * left. cbn [In]. auto.
      * right. split; [|exact B]. intros [[<-|Hin] Hu]; [auto|]. apply A; auto.
    + assert (Hu : usedBy L it y).
      { destruct pr as [z i]. exists i. assert (Hin : In (z, i) (pairsOf L (in_procs it) y)) by (rewrite Ep; left; reflexivity).
        apply In_pairsOf in Hin. tauto. }
      unfold updateMatchList in E. ob E as ml Eml. ob E as ml' Eml'. ob E as mls1 Es. inversion E; subst cf1; clear E.
      cbn [set_mlists cf_mlists cf_types] in *. exists mls. split; [reflexivity|].
      split; [rewrite Hlen; eapply zset_len; eauto|]. intros x.
      destruct (Hx x) as [(A & B & (m1 & m2 & E1 & E2 & E3))|[A B]].
      * left. split; [right; exact A|]. split; [exact B|]. rewrite (zset_get _ _ _ _ x Es) in E1.
        destruct (Z.eqb_spec x y) as [->|N]; [exfalso; auto|]. exists m1, m2. auto.
      * rewrite (zset_get _ _ _ _ x Es) in B. destruct (Z.eqb_spec x y) as [->|N].
        -- left. split; [left; reflexivity|]. split; [exact Hu|]. exists ml, ml'. auto.
        -- right. split; [|exact B]. intros [[<-|Hin] Hux]; [congruence|]. apply A; auto.
Qed.

(** ** the whole matching round *)

Record cmOK (L : lattice) (m : matcher) (it : interactions) (cf : config) (idx : list Z)
            (m' : matcher) (it' : interactions) (cf' : config) : Prop := {
  cm_static : sameStatic it it';
  cm_ranks : mt_ranks m' = mt_ranks m;
  cm_hash : mt_hash m' = mt_hash m;
  cm_cf : exists mls, cf' = set_mlists cf mls /\ zlen mls = zlen (cf_mlists cf) /\
    forall x, (In x idx /\ usedBy L it x /\
             exists ml ml', zget (cf_mlists cf) x = Some ml /\ omap (refreshEntry (cf_types cf)) ml = Some ml' /\
                            zget mls x = Some ml')
         \/ (~ (In x idx /\ usedBy L it x) /\ zget mls x = zget (cf_mlists cf) x);
  cm_binv : Binv it' (mt_inv m');
  cm_in : forall x i, In x idx -> pairIn L it x i -> ((exists r, evt it' i x r) <-> matchAt (lt_unit L) it cf' i x);
  cm_out : forall x i r, ~ (In x idx /\ pairIn L it x i) -> (evt it' i x r <-> evt it i x r);
  cm_rate : forall x i r, In x idx -> pairIn L it x i -> evt it' i x r ->
     if in_custom it then customRate m it cf' i x r
     else exists p, zget (in_procs it) i = Some p /\ r = pr_rate p;
  cm_shape : forall x i, invAt (mt_inv m) x i = None <-> invAt (mt_inv m') x i = None;
  cm_rtinv : rtInv (mt_rt m');
  cm_rt : forall k v, rtHas (mt_rt m') k v -> rtHas (mt_rt m) k v \/
     (in_custom it = true /\ newEntry m it cf' (flat_map (pairsOf L (in_procs it)) idx) k v) }.

Lemma evt_fun it inv i x r r' : Binv it inv -> evt it i x r -> evt it i x r' -> r = r'.
Proof.
  intros HB (p & Ep & H) (p' & Ep' & H'). assert (p' = p) by congruence. subst.
  eapply events_fun; eauto. eapply bi_proc; eauto.
Qed.

Lemma fold_remove_shape rem : forall it inv it' inv', ofold doRemove rem (it, inv) = Some (it', inv') ->
  forall x i, invAt inv x i = None <-> invAt inv' x i = None.
Proof.
  induction rem as [|[x i] rem IH]; intros it inv it' inv' H; cbn [ofold] in H.
  - inversion H; subst. tauto.
  - ob H as st E. destruct st as [it1 inv1]. unfold doRemove in E. ob E as it2 E2. ob E as inv2 E3. inversion E; subst.
    intros y j. rewrite <- (IH _ _ _ _ H y j). pose proof (setInv_spec _ _ _ _ _ E3 y j) as HS. rewrite HS.
    destruct (Z.eqb_spec y x), (Z.eqb_spec j i); cbn [andb]; try tauto. subst.
    unfold setInv in E3. ob E3 as row Er. ob E3 as row' Er'. unfold invAt. rewrite Er. cbn [obind].
    unfold zset in Er'. destruct ((0 <=? i) && (i <? zlen row)) eqn:EE; [|discriminate].
    apply andb_prop in EE. destruct EE as [A B]. apply Z.leb_le in A. apply Z.ltb_lt in B.
    destruct (zget_lt row i ltac:(lia)) as [b Eb]. rewrite Eb. split; discriminate.
Qed.
Lemma fold_add_shape add : forall it inv it' inv', ofold doAdd add (it, inv) = Some (it', inv') ->
  forall x i, invAt inv x i = None <-> invAt inv' x i = None.
Proof.
  induction add as [|t add IH]; intros it inv it' inv' H; cbn [ofold] in H.
  - inversion H; subst. tauto.
  - ob H as st E. destruct st as [it1 inv1]. unfold doAdd in E. ob E as it2 E2. ob E as inv2 E3. inversion E; subst.
    intros y j. rewrite <- (IH _ _ _ _ H y j). pose proof (setInv_spec _ _ _ _ _ E3 y j) as HS. rewrite HS.
    destruct (Z.eqb_spec y (rt_index t)), (Z.eqb_spec j (rt_process t)); cbn [andb]; try tauto. subst.
    unfold setInv in E3. ob E3 as row Er. ob E3 as row' Er'. unfold invAt. rewrite Er. cbn [obind].
    unfold zset in Er'. destruct ((0 <=? rt_process t) && (rt_process t <? zlen row)) eqn:EE; [|discriminate].
    apply andb_prop in EE. destruct EE as [A B]. apply Z.leb_le in A. apply Z.ltb_lt in B.
    destruct (zget_lt row (rt_process t) ltac:(lia)) as [b Eb]. rewrite Eb. split; discriminate.
Qed.

Theorem calculateMatching_spec L m it cf idx m' it' cf' :
  1 <= mt_ranks m -> NoDup idx -> custOK it -> rtInv (mt_rt m) -> Binv it (mt_inv m) ->
  calculateMatching L m it cf idx = Some (m', it', cf') ->
  cmOK L m it cf idx m' it' cf'.
Proof.
  intros Hr ND HC HRT HB H. unfold calculateMatching in H. cbv zeta in H.
  ob H as cf1 Ecf. ob H as tasks Et. destruct tasks as [[rem upd] add].
  ob H as r Erc. destruct r as [[m1 upd'] add']. ob H as mi Eu. inversion H; subst; clear H.
  pose proof (NoDup_pairs L it idx ND) as NDP.
  apply matchTasks_spec in Et; [|exact Hr|exact NDP]. destruct Et as [TT TR TU TA NU NA RU RA].
  (* custom rates *)
  assert (HCR : map tkey upd' = map tkey upd /\ map tkey add' = map tkey add /\
     (forall t, In t upd' \/ In t add' ->
        if in_custom it then customRate m it cf' (rt_process t) (rt_index t) (rt_rate t)
        else exists p, zget (in_procs it) (rt_process t) = Some p /\ rt_rate t = pr_rate p) /\
     mt_ranks m1 = mt_ranks m /\ mt_hash m1 = mt_hash m /\ mt_inv m1 = mt_inv m /\ rtInv (mt_rt m1) /\
     (forall k v, rtHas (mt_rt m1) k v -> rtHas (mt_rt m) k v \/
       (in_custom it = true /\ newEntry m it cf' (map tkey upd ++ map tkey add) k v))).
  { destruct (in_custom it).
    - apply customRates_spec in Erc; [|exact Hr|exact HRT]. destruct Erc as (A & B & C & D & E & F & G & I).
      repeat (split; [assumption|]). intros k v Hh. apply I in Hh. destruct Hh; auto.
    - inversion Erc; subst. repeat (split; [reflexivity|]). split; [intros t [Ht|Ht]; auto|].
      repeat (split; [reflexivity|]). split; [exact HRT|]. auto. }
  clear Erc. destruct HCR as (KU & KA & RR & Er1 & Er2 & Er3 & Er4 & Er5).
  unfold updateProcesses in Eu. rewrite Er3 in Eu. ob Eu as st1 E1. destruct st1 as [it1 inv1].
  ob Eu as it2 E2. ob Eu as st3 E3. destruct st3 as [it3 inv3]. inversion Eu; subst mi; clear Eu. cbn [fst snd] in *.
  destruct (fold_remove _ _ _ _ _ HB E1) as (HB1 & S1 & V1 & I1).
  destruct (fold_update _ _ inv1 _ HB1 ltac:(rewrite KU; exact NU) E2) as (HB2 & S2 & V2).
  assert (S02 : sameStatic it it2) by (eapply sameStatic_trans; eauto).
  assert (Hbt : forall x i b r, invAt (mt_inv m) x i = Some b -> evt it i x r -> b = true).
  { intros x i b r Hb Hev. apply (proj2 (bi_inv _ _ HB _ _ _ Hb)). eauto. }
  assert (Hfalse : forall x i, invAt (mt_inv m) x i = Some false -> forall r, ~ evt it i x r).
  { intros x i Hf r Hev. assert (false = true) by (eapply Hbt; eauto). discriminate. }
  assert (Htrue : forall x i, invAt (mt_inv m) x i = Some true -> exists r, evt it i x r).
  { intros x i Hf. eapply (proj1 (bi_inv _ _ HB _ _ _ Hf)); reflexivity. }
  assert (Hkey : forall (t : ratetask) l, In t l -> In (rt_index t, rt_process t) (map tkey l)).
  { intros t l Hin. change (rt_index t, rt_process t) with (tkey t). apply in_map; exact Hin. }
  assert (HA : forall t r, In t add' -> ~ evt it2 (rt_process t) (rt_index t) r).
  { intros t r Hin Hev. apply Hkey in Hin. rewrite KA in Hin. apply TA in Hin. destruct Hin as (_ & _ & Hinv).
    apply V2 in Hev. destruct Hev as [[Hev _]|(t' & Hin' & Heq & _)].
    - apply V1 in Hev. destruct Hev as [Hev _]. eapply Hfalse; eauto.
    - assert (Hin2 : In (rt_index t, rt_process t) (map tkey upd)) by (rewrite <- KU, Heq; apply in_map; exact Hin').
      apply TU in Hin2. destruct Hin2 as (_ & _ & Hinv'). congruence. }
  destruct (fold_add _ _ _ _ _ HB2 ltac:(rewrite KA; exact NA) HA E3) as (HB3 & S3 & V3 & I3).
  assert (S03 : sameStatic it it3) by (eapply sameStatic_trans; eauto).
  assert (Hinv_dec : forall x i, In x idx -> pairIn L it x i ->
     exists b, invAt (mt_inv m) x i = Some b).
  { intros x i Hx Hp. destruct (TT x i ltac:(apply In_pairs; auto)) as (p & inl & cl & mt & _ & Hi & _). eauto. }
  assert (Hmatch_dec : forall x i, In x idx -> pairIn L it x i -> matchAt (lt_unit L) it cf' i x \/ ~ matchAt (lt_unit L) it cf' i x).
  { intros x i Hx Hp. destruct (TT x i ltac:(apply In_pairs; auto)) as (p & inl & cl & mt & A & B & C & D).
    destruct mt; [left; exists p, cl; auto|]. right. intros (p' & cl' & A' & B' & D'). congruence. }
  (* events after the round, in terms of the tasks *)
  assert (HE : forall j y r, evt it3 j y r <->
     (evt it j y r /\ ~ In (y, j) rem /\ ~ In (y, j) (map tkey upd)) \/
     (exists t, (In t upd' \/ In t add') /\ (y, j) = tkey t /\ r = erate it j (rt_rate t))).
  { intros j y r. rewrite V3, V2, V1, KU. split.
    - intros [[[[A B] C]|(t & A & B & C)]|(t & A & B & C)].
      + left. auto.
      + right. exists t. rewrite (erate_static _ _ _ _ S1) in C. auto.
      + right. exists t. rewrite (erate_static _ _ _ _ S02) in C. auto.
    - intros [(A & B & C)|(t & [A|A] & B & C)].
      + left. left. auto.
      + left. right. exists t. rewrite (erate_static _ _ _ _ S1). auto.
      + right. exists t. rewrite (erate_static _ _ _ _ S02). auto. }
  assert (HTin : forall t, In t upd' \/ In t add' -> exists x i, tkey t = (x, i) /\ In (x, i) (flat_map (pairsOf L (in_procs it)) idx) /\ matchAt (lt_unit L) it cf' i x).
  { intros t Ht. exists (rt_index t), (rt_process t). split; [reflexivity|]. destruct Ht as [Ht|Ht]; apply Hkey in Ht.
    - rewrite KU in Ht. apply TU in Ht. tauto.
    - rewrite KA in Ht. apply TA in Ht. tauto. }
  constructor; try assumption.
  - eapply refresh_fold; eauto.
  - (* in *)
    intros x i Hx Hp. split.
    + intros (r & Hev). apply HE in Hev. destruct Hev as [(A & B & C)|(t & A & B & C)].
      * exfalso. destruct (Hinv_dec x i Hx Hp) as [b Hb]. assert (b = true) by (eapply Hbt; eauto). subst b.
        destruct (Hmatch_dec x i Hx Hp) as [HM|HM].
        -- apply C. apply TU. rewrite In_pairs. auto.
        -- apply B. apply TR. rewrite In_pairs. auto.
      * destruct (HTin t A) as (x' & i' & Ek & _ & HM). rewrite Ek in B. inversion B; subst. exact HM.
    + intros HM. destruct (Hinv_dec x i Hx Hp) as [b Hb]. destruct b.
      * assert (Hin : In (x, i) (map tkey upd)) by (apply TU; rewrite In_pairs; auto).
        rewrite <- KU in Hin. apply in_map_iff in Hin. destruct Hin as (t & Ek & Hin).
        exists (erate it i (rt_rate t)). apply HE. right. exists t. auto.
      * assert (Hin : In (x, i) (map tkey add)) by (apply TA; rewrite In_pairs; auto).
        rewrite <- KA in Hin. apply in_map_iff in Hin. destruct Hin as (t & Ek & Hin).
        exists (erate it i (rt_rate t)). apply HE. right. exists t. auto.
  - (* out *)
    intros x i r Hn. rewrite HE. split.
    + intros [(A & _)|(t & A & B & _)]; [exact A|]. exfalso. destruct (HTin t A) as (x' & i' & Ek & Hin & _).
      rewrite Ek in B. inversion B; subst. apply In_pairs in Hin. auto.
    + intros Hev. left. split; [exact Hev|]. split.
      * intros Hin. apply TR in Hin. destruct Hin as [Hin _]. apply In_pairs in Hin. auto.
      * intros Hin. apply TU in Hin. destruct Hin as [Hin _]. apply In_pairs in Hin. auto.
  - (* rate *)
    intros x i r Hx Hp Hev. apply HE in Hev. destruct Hev as [(A & B & C)|(t & A & B & C)].
    + exfalso. destruct (Hinv_dec x i Hx Hp) as [b Hb]. assert (b = true) by (eapply Hbt; eauto). subst b.
      destruct (Hmatch_dec x i Hx Hp) as [HM|HM].
      * apply C. apply TU. rewrite In_pairs. auto.
      * apply B. apply TR. rewrite In_pairs. auto.
    + specialize (RR t A). unfold tkey in B. inversion B; subst x i. destruct Hp as (p & Ep & _).
      unfold erate in C. rewrite Ep in C. rewrite (HC _ _ Ep) in C. destruct (in_custom it).
      * subst r. exact RR.
      * exists p. auto.
  - (* shape *)
    intros x i. cbn [set_inv mt_inv]. rewrite (fold_remove_shape _ _ _ _ _ E1 x i). apply (fold_add_shape _ _ _ _ _ E3).
  - (* table *)
    cbn [set_inv mt_rt]. intros k v Hh. apply Er5 in Hh. destruct Hh as [Hh|[Hc Hn]]; [auto|right]. split; [exact Hc|].
    destruct Hn as (x & i & p & q & Hin & Rest). exists x, i, p, q. split; [|exact Rest].
    apply in_app_or in Hin. destruct Hin as [Hin|Hin]; [apply TU in Hin|apply TA in Hin]; tauto.
Qed.
