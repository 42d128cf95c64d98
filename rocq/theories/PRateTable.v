(** Proofs about MRateTable.v. *)
From Verif Require Import PBase SModel.
Open Scope Z_scope.
Open Scope list_scope.

Lemma kfind_put m k v k' : kfind (kput m k v) k' = if k' =? k then Some v else kfind m k'.
Proof.
  induction m as [|[a b] m IH]; cbn [kput kfind].
  - rewrite Z.eqb_sym. destruct (Z.eqb_spec k' k); reflexivity.
  - destruct (Z.eqb_spec a k) as [->|N]; cbn [kfind].
    + destruct (Z.eqb_spec k k'), (Z.eqb_spec k' k); congruence || reflexivity.
    + rewrite IH. destruct (Z.eqb_spec a k'), (Z.eqb_spec k' k); congruence || reflexivity.
Qed.
Lemma kput_len m k v : zlen (kput m k v) = if kfind m k then zlen m else zlen m + 1.
Proof.
  induction m as [|[a b] m IH]; cbn [kput kfind]; [reflexivity|].
  destruct (a =? k); rewrite !zlen_cons; [reflexivity|]. rewrite IH. destruct (kfind m k); lia.
Qed.
Lemma kput_keys m k v : NoDup (map fst m) -> NoDup (map fst (kput m k v)).
Proof.
  induction m as [|[a b] m IH]; cbn [kput map fst]; intros ND.
  - constructor; [simpl; tauto|constructor].
  - inversion ND; subst. destruct (Z.eqb_spec a k) as [->|N]; cbn [map fst]; [exact ND|].
    constructor; [|auto]. intros Hin. apply H1. clear -Hin N.
    induction m as [|[c d] m IH]; cbn [kput map fst] in *; [destruct Hin; [congruence|tauto]|].
    destruct (c =? k); cbn [map fst In] in *; [auto|]. destruct Hin; [auto|right; auto].
Qed.

Lemma stored_loop_spec tabs k : forall i, 0 <= i ->
  (stored_loop tabs i k = -1 /\ forall t, In t tabs -> kfind t k = None) \/
  (exists j t v, 0 <= j /\ stored_loop tabs i k = i + j /\ zget tabs j = Some t /\ kfind t k = Some v /\
     forall j' t', 0 <= j' < j -> zget tabs j' = Some t' -> kfind t' k = None).
Proof.
  induction tabs as [|t tabs IH]; intros i Hi; cbn [stored_loop].
  - left. split; [reflexivity|]. intros t [].
  - destruct (kfind t k) as [v|] eqn:E.
    + right. exists 0, t, v. split; [lia|]. split; [lia|]. split; [reflexivity|]. split; [exact E|]. intros; lia.
    + destruct (IH (i + 1) ltac:(lia)) as [[A B]|(j & t' & v & Hj & A & B & C & D)].
      * left. split; [exact A|]. intros t' [<-|Hin]; auto.
      * right. exists (j + 1), t', v. split; [lia|]. split; [lia|]. split; [|split; [exact C|]].
        -- rewrite zget_cons. destruct (Z.eqb_spec (j + 1) 0); [lia|]. replace (j + 1 - 1) with j by lia. exact B.
        -- intros j' t'' Hj' Hg. rewrite zget_cons in Hg. destruct (Z.eqb_spec j' 0).
           ++ congruence.
           ++ apply (D (j' - 1)); [lia|exact Hg].
Qed.

Lemma rtStored_spec rt k :
  (rtStored rt k = -1 /\ rtRetrieve rt k = None /\ forall v, ~ rtHas rt k v) \/
  (exists t v, rtStored rt k <> -1 /\ rtRetrieve rt k = Some v /\ zget (rt_tabs rt) (rtStored rt k) = Some t /\
      kfind t k = Some v /\ rtHas rt k v /\
      forall j' t', 0 <= j' < rtStored rt k -> zget (rt_tabs rt) j' = Some t' -> kfind t' k = None).
Proof.
  unfold rtRetrieve, rtStored, rtHas.
  destruct (stored_loop_spec (rt_tabs rt) k 0 ltac:(lia)) as [[A B]|(j & t & v & Hj & A & B & C & D)].
  - left. rewrite A. split; [reflexivity|]. split; [reflexivity|].
    intros v (t & Ht & E). rewrite (B t Ht) in E. discriminate.
  - right. exists t, v. rewrite A. replace (0 + j) with j by lia. rewrite B. cbn [obind].
    split; [lia|]. split; [exact C|]. split; [reflexivity|]. split; [exact C|].
    split; [exists t; split; [eapply zget_In; eauto|exact C]|exact D].
Qed.

Lemma rtRetrieve_has rt k v : rtRetrieve rt k = Some v -> rtHas rt k v.
Proof. destruct (rtStored_spec rt k) as [(_ & E & _)|(t & v' & _ & E & _ & _ & H & _)]; rewrite E; intros E'; inversion E'; subst; auto. Qed.

(** ** the invariant of the table *)
Record rtInv (rt : ratetable) : Prop := {
  ri_n : zlen (rt_tabs rt) = rt_n rt;
  ri_n2 : 2 <= rt_n rt;
  ri_max : 1 <= rt_max rt;
  ri_cur : 0 <= rt_cur rt < rt_n rt;
  ri_keys : forall t, In t (rt_tabs rt) -> NoDup (map fst t);
  ri_size : forall t, In t (rt_tabs rt) -> zlen t <= rt_max rt;
  ri_room : forall t, zget (rt_tabs rt) (rt_cur rt) = Some t -> zlen t < rt_max rt }.

Lemma rtEmpty_inv : rtInv rtEmpty.
Proof.
  assert (HE : forall t, In t (rt_tabs rtEmpty) -> t = []).
  { intros t Ht. cbn in Ht. repeat (destruct Ht as [<-|Ht]; [reflexivity|]). tauto. }
  constructor; cbn [rtEmpty rt_n rt_max rt_cur]; try lia.
  - reflexivity.
  - intros t Ht. rewrite (HE t Ht). constructor.
  - intros t Ht. rewrite (HE t Ht). cbn. lia.
  - intros t Ht. apply zget_In in Ht. rewrite (HE t Ht). cbn. lia.
Qed.
Lemma rtEmpty_has k v : ~ rtHas rtEmpty k v.
Proof.
  intros (t & Ht & E). cbn in Ht. repeat (destruct Ht as [<-|Ht]; [discriminate|]). tauto.
Qed.

(** what a store does to the tables *)
Lemma rtStore_spec rt k v : rtInv rt -> exists rt', rtStore rt k v = Some rt' /\ rtInv rt' /\
  rt_n rt' = rt_n rt /\ rt_max rt' = rt_max rt /\
  (forall k' v', rtHas rt' k' v' -> rtHas rt k' v' \/ (k' = k /\ v' = v)) /\
  rtHas rt' k v /\
  (forall j t', zget (rt_tabs rt') j = Some t' ->
     exists t, zget (rt_tabs rt) j = Some t /\
      if j =? rt_cur rt then t' = kput t k v
      else t' = t \/ t' = []).
Proof.
  intros [Hn Hn2 Hmax Hcur Hkeys Hsize Hroom]. unfold rtStore.
  destruct (zget_lt (rt_tabs rt) (rt_cur rt) ltac:(lia)) as [t Et]. rewrite Et. cbn [obind].
  destruct (zset_lt (rt_tabs rt) (rt_cur rt) (kput t k v) ltac:(lia)) as [tabs Es]. rewrite Es. cbn [obind].
  pose proof (Hroom t Et) as Hr. pose proof (zget_In _ _ _ Et) as Htin.
  assert (Hlen : zlen tabs = rt_n rt) by (rewrite (zset_len _ _ _ _ Es); exact Hn).
  assert (Hget : forall j, zget tabs j = if j =? rt_cur rt then Some (kput t k v) else zget (rt_tabs rt) j)
    by (intros j; apply (zset_get _ _ _ _ j Es)).
  assert (Hk : zlen (kput t k v) <= rt_max rt) by (rewrite kput_len; destruct (kfind t k); lia).
  assert (Hin : forall t', In t' tabs -> t' = kput t k v \/ In t' (rt_tabs rt)).
  { intros t' Ht'. apply In_zget in Ht'. destruct Ht' as [j Ej]. rewrite Hget in Ej.
    destruct (j =? rt_cur rt); [left; congruence|right; eapply zget_In; eauto]. }
  destruct (Z.eqb_spec (zlen (kput t k v)) (rt_max rt)) as [Hf|Hf].
  - set (cur := Z.rem (rt_cur rt + 1) (rt_n rt)).
    assert (Hc : 0 <= cur < rt_n rt) by (unfold cur; apply Z.rem_bound_pos; lia).
    assert (Hcne : cur <> rt_cur rt).
    { unfold cur. rewrite Z.rem_mod_nonneg by lia. destruct (Z.eq_dec (rt_cur rt + 1) (rt_n rt)) as [E|E].
      - rewrite E, Z_mod_same_full. lia.
      - rewrite Z.mod_small by lia. lia. }
    clearbody cur.
    destruct (zset_lt tabs cur ([] : kmap) ltac:(lia)) as [tabs' Es']. rewrite Es'. cbn [obind].
    assert (Hget' : forall j, zget tabs' j = if j =? cur then Some [] else zget tabs j)
      by (intros j; apply (zset_get _ _ _ _ j Es')).
    assert (Hin' : forall t', In t' tabs' -> t' = [] \/ t' = kput t k v \/ In t' (rt_tabs rt)).
    { intros t' Ht'. apply In_zget in Ht'. destruct Ht' as [j Ej]. rewrite Hget' in Ej.
      destruct (j =? cur); [left; congruence|]. right. apply Hin. eapply zget_In; eauto. }
    eexists. split; [reflexivity|]. cbn [rt_n rt_max rt_cur rt_tabs]. split; [|split; [reflexivity|split; [reflexivity|split; [|split]]]].
    + constructor; cbn [rt_n rt_max rt_cur rt_tabs]; try lia.
      * rewrite (zset_len _ _ _ _ Es'). exact Hlen.
      * intros t' Ht'. destruct (Hin' t' Ht') as [->|[->|H]]; [constructor|apply kput_keys; auto|auto].
      * intros t' Ht'. destruct (Hin' t' Ht') as [->|[->|H]]; [cbn; lia|auto|auto].
      * intros t' Ht'. rewrite Hget', Z.eqb_refl in Ht'. inversion Ht'. cbn. lia.
    + intros k' v' (t' & Ht' & E). cbn [rt_tabs] in Ht'. destruct (Hin' t' Ht') as [->|[->|H]]; [discriminate| |left; exists t'; auto].
      rewrite kfind_put in E. destruct (Z.eqb_spec k' k); [right; split; congruence|left; exists t; auto].
    + exists (kput t k v). cbn [rt_tabs]. split; [|rewrite kfind_put, Z.eqb_refl; reflexivity].
      apply (zget_In _ (rt_cur rt)). rewrite Hget'. destruct (Z.eqb_spec (rt_cur rt) cur); [congruence|].
      rewrite Hget, Z.eqb_refl. reflexivity.
    + intros j t' Ej. rewrite Hget', Hget in Ej. destruct (Z.eqb_spec j (rt_cur rt)) as [->|N].
      * exists t. split; [exact Et|]. destruct (Z.eqb_spec (rt_cur rt) cur); [congruence|]. congruence.
      * destruct (Z.eqb_spec j cur) as [->|N'].
        -- inversion Ej; subst. destruct (zget_lt (rt_tabs rt) cur ltac:(lia)) as [t0 Et0]. exists t0. auto.
        -- exists t'. auto.
  - eexists. split; [reflexivity|]. cbn [rt_n rt_max rt_cur rt_tabs]. split; [|split; [reflexivity|split; [reflexivity|split; [|split]]]].
    + constructor; cbn [rt_n rt_max rt_cur rt_tabs]; try lia; try assumption.
      * intros t' Ht'. destruct (Hin t' Ht') as [->|H]; [apply kput_keys; auto|auto].
      * intros t' Ht'. destruct (Hin t' Ht') as [->|H]; [auto|auto].
      * intros t' Ht'. rewrite Hget, Z.eqb_refl in Ht'. inversion Ht'. subst. lia.
    + intros k' v' (t' & Ht' & E). cbn [rt_tabs] in Ht'. destruct (Hin t' Ht') as [->|H]; [|left; exists t'; auto].
      rewrite kfind_put in E. destruct (Z.eqb_spec k' k); [right; split; congruence|left; exists t; auto].
    + exists (kput t k v). cbn [rt_tabs]. split; [|rewrite kfind_put, Z.eqb_refl; reflexivity].
      apply (zget_In _ (rt_cur rt)). rewrite Hget, Z.eqb_refl. reflexivity.
    + intros j t' Ej. rewrite Hget in Ej. destruct (Z.eqb_spec j (rt_cur rt)) as [->|N].
      * exists t. split; [exact Et|]. congruence.
      * exists t'. auto.
Qed.
