(** Property C31: the rate table.
    Specification: a history is the list of (key, value) pairs in the order in which they were stored. *)
From Verif Require Import PBase SModel PRateTable.
Open Scope Z_scope.
Open Scope list_scope.

(** the table after a history of store operations, starting from the constructor *)
Definition afterStores (h : list (Z * Z)) : option ratetable :=
  ofold (fun rt kv => rtStore rt (fst kv) (snd kv)) h rtEmpty.
(** the value most recently stored under a key *)
Fixpoint latest (h : list (Z * Z)) (k : Z) : option Z :=
  match h with
  | [] => None
  | (k', v) :: h' => match latest h' k with Some w => Some w | None => if k' =? k then Some v else None end
  end.
(** every store of the history happened when the lookup of its key reported a miss *)
Fixpoint missDiscipline (h : list (Z * Z)) (rt : ratetable) : Prop :=
  match h with
  | [] => True
  | (k, v) :: h' => rtStored rt k = -1 /\ forall rt', rtStore rt k v = Some rt' -> missDiscipline h' rt'
  end.

Lemma stores_total h : forall rt, rtInv rt -> exists rt', ofold (fun rt kv => rtStore rt (fst kv) (snd kv)) h rt = Some rt' /\
  rtInv rt' /\ rt_n rt' = rt_n rt /\ rt_max rt' = rt_max rt /\
  (forall k v, rtHas rt' k v -> rtHas rt k v \/ In (k, v) h).
Proof.
  induction h as [|[k v] h IH]; intros rt HI; cbn [ofold fst snd].
  - exists rt. repeat split; auto; apply HI.
  - destruct (rtStore_spec rt k v HI) as (rt1 & -> & HI1 & N1 & M1 & H1 & _). cbn [obind].
    destruct (IH rt1 HI1) as (rt2 & -> & HI2 & N2 & M2 & H2). exists rt2.
    split; [reflexivity|]. split; [exact HI2|]. split; [congruence|]. split; [congruence|].
    intros k' v' Hh. apply H2 in Hh. destruct Hh as [Hh|Hh]; [|right; right; exact Hh].
    apply H1 in Hh. destruct Hh as [Hh|[-> ->]]; [auto|]. right; left; reflexivity.
Qed.

Lemma zsum_le_const (l : list Z) M : (forall x, In x l -> x <= M) -> zsum l <= zlen l * M.
Proof.
  induction l as [|a l IH]; intros H; cbn [zsum fold_right]; [unfold zlen; simpl; lia|].
  rewrite zlen_cons. fold (zsum l). specialize (IH (fun x Hx => H x (or_intror Hx))).
  specialize (H a (or_introl eq_refl)). nia.
Qed.

(** Storing never fails; there are always 8 tables of at most 1024 entries with distinct keys. *)
Theorem C31_bounded h : exists rt, afterStores h = Some rt /\
  zlen (rt_tabs rt) = 8 /\
  (forall t, In t (rt_tabs rt) -> zlen t <= 1024 /\ NoDup (map fst t)) /\
  zsum (map (fun t => zlen t) (rt_tabs rt)) <= 8 * 1024.
Proof.
  destruct (stores_total h rtEmpty rtEmpty_inv) as (rt & E & HI & Hn & Hm & _).
  exists rt. split; [exact E|]. cbn [rtEmpty rt_n rt_max] in *.
  assert (HT : forall t, In t (rt_tabs rt) -> zlen t <= 1024) by (intros t Ht; rewrite <- Hm; apply HI; exact Ht).
  split; [rewrite (ri_n _ HI); exact Hn|]. split.
  - intros t Ht. split; [auto|apply HI; exact Ht].
  - eapply Z.le_trans; [apply (zsum_le_const _ 1024)|].
    + intros x Hx. apply in_map_iff in Hx. destruct Hx as (t & <- & Ht). auto.
    + rewrite zlen_map. pose proof (ri_n _ HI). unfold kmap in *. lia.
Qed.

(** A reported hit returns a value that was stored under that key; a miss has nothing to return. *)
Theorem C31_hit_was_stored h rt k : afterStores h = Some rt ->
  (rtStored rt k = -1 /\ rtRetrieve rt k = None) \/
  (rtStored rt k <> -1 /\ exists v, rtRetrieve rt k = Some v /\ In (k, v) h).
Proof.
  intros E. destruct (stores_total h rtEmpty rtEmpty_inv) as (rt' & E' & HI & _ & _ & H).
  assert (rt' = rt) by (unfold afterStores in E; congruence). subst rt'.
  destruct (rtStored_spec rt k) as [(A & B & _)|(t & v & A & B & _ & _ & C & _)]; [left; auto|right].
  split; [exact A|]. exists v. split; [exact B|]. apply H in C. destruct C as [C|C]; [|exact C].
  exfalso. eapply rtEmpty_has; eauto.
Qed.

(** A key is found right after it was stored, also when the store rotated the tables; if the key was
    not in the table before, the value found is the value just stored. *)
Theorem C31_found_after_store h rt k v : afterStores (h ++ [(k, v)]) = Some rt ->
  rtStored rt k <> -1 /\
  (forall rt0, afterStores h = Some rt0 -> rtStored rt0 k = -1 -> rtRetrieve rt k = Some v).
Proof.
  unfold afterStores. rewrite ofold_app. intros E. ob E as rt0 E0. cbn [ofold fst snd] in E. ob E as rt1 E1.
  inversion E; subst rt1; clear E.
  destruct (stores_total h rtEmpty rtEmpty_inv) as (rt' & E' & HI & _). assert (rt' = rt0) by congruence. subst rt'.
  destruct (rtStore_spec rt0 k v HI) as (rt1 & E2 & HI1 & _ & _ & H1 & H2 & _).
  assert (rt1 = rt) by congruence. subst rt1.
  destruct (rtStored_spec rt k) as [(A & B & C)|(t & w & A & B & _ & _ & C & _)].
  - exfalso. eapply C; eauto.
  - split; [exact A|]. intros rt0' Er Hmiss. assert (rt0' = rt0) by congruence. subst rt0'.
    apply H1 in C. destruct C as [C|[_ ->]]; [|exact B].
    exfalso. destruct (rtStored_spec rt0 k) as [(_ & _ & N)|(? & ? & N & _)]; [eapply N; eauto|congruence].
Qed.

Lemma latest_app h k v k' : latest (h ++ [(k, v)]) k' = if k =? k' then Some v else latest h k'.
Proof.
  induction h as [|[a b] h IH]; cbn [app latest]; [reflexivity|]. rewrite IH.
  destruct (k =? k'); reflexivity.
Qed.

Lemma missDiscipline_latest h : forall rt h0, rtInv rt ->
  (forall k v, rtHas rt k v -> latest h0 k = Some v) -> missDiscipline h rt ->
  forall rt', ofold (fun rt kv => rtStore rt (fst kv) (snd kv)) h rt = Some rt' ->
  forall k v, rtHas rt' k v -> latest (h0 ++ h) k = Some v.
Proof.
  induction h as [|[k v] h IH]; intros rt h0 HI HL HM rt' E; cbn [ofold fst snd] in E.
  - inversion E; subst. rewrite app_nil_r. exact HL.
  - destruct HM as [Hmiss HM]. ob E as rt1 E1.
    destruct (rtStore_spec rt k v HI) as (rt1' & E1' & HI1 & _ & _ & H1 & _ & _).
    assert (rt1' = rt1) by congruence. subst rt1'.
    replace (h0 ++ (k, v) :: h) with ((h0 ++ [(k, v)]) ++ h) by (rewrite <- app_assoc; reflexivity).
    apply (IH rt1); auto. intros k' v' Hh. rewrite latest_app. apply H1 in Hh.
    destruct (Z.eqb_spec k k') as [<-|N].
    + destruct Hh as [Hh|[_ ->]]; [|reflexivity].
      exfalso. destruct (rtStored_spec rt k) as [(_ & _ & C)|(? & ? & C & _)]; [eapply C; eauto|congruence].
    + destruct Hh as [Hh|[-> _]]; [auto|congruence].
Qed.

(** When values are stored only after a lookup reported a miss (what the matcher does between two
    matching rounds), a hit returns the value most recently stored under that key. *)
Theorem C31_latest_value_partial h rt k : missDiscipline h rtEmpty -> afterStores h = Some rt ->
  rtStored rt k <> -1 -> exists v, rtRetrieve rt k = Some v /\ latest h k = Some v.
Proof.
  intros HM E Hs.
  destruct (rtStored_spec rt k) as [(A & _)|(t & v & _ & B & _ & _ & C & _)]; [congruence|].
  exists v. split; [exact B|].
  apply (missDiscipline_latest h rtEmpty []) with (rt' := rt); auto.
  - apply rtEmpty_inv.
  - intros k' v' Hh. exfalso. eapply rtEmpty_has; eauto.
Qed.

(** Without that discipline it is false: after 1024 entries the same key is stored again in the next
    table, and the lookup keeps returning the old value. *)
Definition fullTable : list (Z * Z) := map (fun i => (i, 1)) (zrange 0 1023).
Theorem C31_latest_refuted : exists h rt k, afterStores h = Some rt /\ rtStored rt k <> -1 /\
  rtRetrieve rt k = Some 1 /\ latest h k = Some 2.
Proof.
  destruct (afterStores (fullTable ++ [(5, 2)])) as [rt|] eqn:E; [|vm_compute in E; discriminate].
  exists (fullTable ++ [(5, 2)]), rt, 5. split; [exact E|].
  assert (HV : match afterStores (fullTable ++ [(5, 2)]) with
               | Some rt => (rtStored rt 5 =? -1) = false /\ rtRetrieve rt 5 = Some 1 | None => False end)
    by (vm_compute; auto).
  rewrite E in HV. destruct HV as [A B]. split; [intros C; rewrite C in A; discriminate|].
  split; [exact B|]. vm_compute. reflexivity.
Qed.

(** the tables rotate: entry 5 is evicted when its table is reused *)
Example C31_example_eviction :
  match afterStores (map (fun i => (i, i + 1)) (zrange 0 (8 * 1024 - 1))) with
  | Some rt => rtStored rt 5 = -1 /\ rtRetrieve rt 8000 = Some 8001 /\ rt_cur rt = 0
  | None => False
  end.
Proof. vm_compute. auto. Qed.
Example C31_example_discipline : missDiscipline [(3, 7); (4, 9)] rtEmpty.
Proof.
  cbn [missDiscipline]. split; [reflexivity|]. intros rt' E. vm_compute in E. inversion E; subst.
  split; [reflexivity|]. intros; exact I.
Qed.

Print Assumptions C31_bounded.
Print Assumptions C31_hit_was_stored.
Print Assumptions C31_found_after_store.
Print Assumptions C31_latest_value_partial.
Print Assumptions C31_latest_refuted.
