(** Proofs about MProcess.v: site bookkeeping and site selection. *)
From Verif Require Import PBase SModel.
Open Scope Z_scope.
Open Scope list_scope.

(** ** swap with the last element and pop *)
Lemma swapRemove_spec {A} (l : list A) pos x : zget l pos = Some x ->
  exists l', swapRemove l pos = Some (l', x) /\
    exists l1 l2, l = l1 ++ x :: l2 /\ zlen l1 = pos /\
      ((l2 = [] /\ l' = l1) \/ exists z l3, l2 = l3 ++ [z] /\ l' = l1 ++ z :: l3).
Proof.
  intros E. destruct (zget_split _ _ _ E) as (l1 & l2 & -> & Hp).
  unfold swapRemove. rewrite E. simpl obind.
  destruct l2 as [|b l2] using rev_ind.
  - assert (El : zget (l1 ++ [x]) (zlen (l1 ++ [x]) - 1) = Some x).
    { rewrite zlen_app, zget_app_r by (rewrite zlen_cons, zlen_nil; lia).
      rewrite zlen_cons, zlen_nil. replace (zlen l1 + (0 + 1) - 1 - zlen l1) with 0 by lia. reflexivity. }
    rewrite El. simpl obind. rewrite <- Hp, zset_split. simpl.
    exists l1. split; [rewrite removelast_last; reflexivity|]. exists l1, []. auto.
  - clear IHl2.
    assert (El : zget (l1 ++ x :: l2 ++ [b]) (zlen (l1 ++ x :: l2 ++ [b]) - 1) = Some b).
    { rewrite zlen_app, zlen_cons, zlen_app, zlen_cons, zlen_nil.
      pose proof (zlen_nonneg l2).
      rewrite zget_app_r by lia. rewrite zget_cons.
      destruct (Z.eqb_spec (zlen l1 + (zlen l2 + (0 + 1) + 1) - 1 - zlen l1) 0); [lia|].
      rewrite zget_app_r by lia.
      replace (zlen l1 + (zlen l2 + (0 + 1) + 1) - 1 - zlen l1 - 1 - zlen l2) with 0 by lia. reflexivity. }
    rewrite El. simpl obind. rewrite <- Hp, zset_split. simpl.
    exists (l1 ++ b :: l2). split.
    + rewrite app_comm_cons, app_assoc, removelast_last. reflexivity.
    + exists l1, (l2 ++ [b]). split; [reflexivity|]. split; [reflexivity|]. right. eauto.
Qed.

Lemma swapRemove_perm {A} (l : list A) pos x l' : swapRemove l pos = Some (l', x) ->
  Permutation l (x :: l') /\ zget l pos = Some x.
Proof.
  intros H. assert (E : zget l pos = Some x).
  { unfold swapRemove in H. destruct (zget l pos) as [y|] eqn:Ey; [|discriminate]. simpl in H.
    ob H as last El. ob H as l'' Es. congruence. }
  split; [|exact E]. destruct (swapRemove_spec _ _ _ E) as (l'' & E' & l1 & l2 & -> & Hp & Hc).
  rewrite E' in H. inversion H; subst l''; clear H.
  destruct Hc as [(-> & ->)|(z & l3 & -> & ->)].
  - symmetry. apply Permutation_cons_append.
  - rewrite <- Permutation_middle. constructor. apply Permutation_app_head.
    symmetry. apply Permutation_cons_append.
Qed.

Lemma combine_app_len {A B} (l1 l2 : list A) (m1 m2 : list B) : length l1 = length m1 ->
  combine (l1 ++ l2) (m1 ++ m2) = combine l1 m1 ++ combine l2 m2.
Proof.
  revert m1; induction l1 as [|a l1 IH]; intros [|b m1] H; simpl in *; try discriminate; [reflexivity|].
  f_equal. apply IH. congruence.
Qed.
Lemma app_eq_len {A} (l1 l2 m1 m2 : list A) a b :
  l1 ++ a :: l2 = m1 ++ b :: m2 -> length l1 = length m1 -> l1 = m1 /\ a = b /\ l2 = m2.
Proof.
  revert m1; induction l1 as [|c l1 IH]; intros [|d m1] H Hl; simpl in *; try discriminate.
  - inversion H; auto.
  - inversion H; subst. destruct (IH m1 H2) as (-> & -> & ->); [congruence|auto].
Qed.

(** removing at the same position from two aligned vectors keeps them aligned *)
Lemma swapRemove_combine {A B} (l : list A) (m : list B) pos x y l' m' :
  length l = length m ->
  swapRemove l pos = Some (l', x) -> swapRemove m pos = Some (m', y) ->
  length l' = length m' /\ Permutation (combine l m) ((x, y) :: combine l' m').
Proof.
  intros Hl Hx Hy. destruct (swapRemove_perm _ _ _ _ Hx) as [_ Ex]. destruct (swapRemove_perm _ _ _ _ Hy) as [_ Ey].
  destruct (swapRemove_spec _ _ _ Ex) as (l'' & E' & l1 & l2 & -> & Hp & Hc).
  rewrite E' in Hx. inversion Hx; subst l''; clear Hx E'.
  destruct (swapRemove_spec _ _ _ Ey) as (m'' & E' & m1 & m2 & -> & Hp2 & Hc2).
  rewrite E' in Hy. inversion Hy; subst m''; clear Hy E'.
  assert (H1 : length l1 = length m1) by (unfold zlen in *; lia).
  rewrite !app_length in Hl. simpl in Hl.
  rewrite combine_app_len by exact H1. simpl combine.
  destruct Hc as [(-> & ->)|(z & l3 & -> & ->)], Hc2 as [(-> & ->)|(w & m3 & -> & ->)];
    rewrite ?app_length in Hl; simpl in Hl; try lia.
  - split; [exact H1|]. symmetry. apply Permutation_cons_append.
  - assert (H3 : length l3 = length m3) by lia. split; [rewrite !app_length; simpl; lia|].
    rewrite !combine_app_len by assumption. simpl combine.
    rewrite <- Permutation_middle. constructor. apply Permutation_app_head.
    symmetry. apply Permutation_cons_append.
Qed.

Lemma zfind_cons a l x : zfind (a :: l) x = if a =? x then 0 else 1 + zfind l x.
Proof. reflexivity. Qed.
Lemma zfind_spec l x : In x l -> zget l (zfind l x) = Some x /\ 0 <= zfind l x.
Proof.
  induction l as [|a l IH]; intros H; [destruct H|]. rewrite zfind_cons.
  destruct (Z.eqb_spec a x); [subst; split; [reflexivity|lia]|].
  destruct H as [->|H]; [congruence|]. destruct (IH H) as [E H0]. split; [|lia].
  rewrite Z.add_comm, zget_S by lia. exact E.
Qed.
Lemma zfind_absent l x : ~ In x l -> zfind l x = zlen l.
Proof.
  induction l as [|a l IH]; intros H; [reflexivity|]. rewrite zfind_cons.
  destruct (Z.eqb_spec a x); [subst; exfalso; apply H; left; auto|].
  rewrite IH, zlen_cons by (intros Hin; apply H; right; auto). lia.
Qed.

Lemma map_const_len {A B C} (l : list A) (m : list B) (c : C) : length l = length m -> map (fun _ => c) l = map (fun _ => c) m.
Proof. revert m; induction l; intros [|b m]; simpl; intros H; try discriminate; [reflexivity|]. f_equal. apply IHl. congruence. Qed.
Lemma removelast_const {A} (l l' : list A) : length l = S (length l') -> removelast (map (fun _ => 1) l) = map (fun _ => 1) l'.
Proof.
  intros H. destruct l as [|b l] using rev_ind; [discriminate|]. clear IHl.
  rewrite map_app. simpl map. rewrite removelast_last. apply map_const_len.
  rewrite app_length in H. simpl in H. lia.
Qed.
Lemma swapRemove_const {A} (l l' : list A) pos : length l = S (length l') -> 0 <= pos < zlen l ->
  swapRemove (map (fun _ => 1) l) pos = Some (map (fun _ => 1) l', 1).
Proof.
  intros H Hp. assert (zget (map (fun _ : A => 1) l) pos = Some 1) as E.
  { destruct (zget_lt l pos Hp) as [a Ea]. rewrite zget_map, Ea. reflexivity. }
  destruct (swapRemove_spec _ _ _ E) as (m' & E' & _). rewrite E'. repeat f_equal.
  apply swapRemove_perm in E'. destruct E' as [HP _].
  assert (length l = S (length m')) by (rewrite <- (map_length (fun _ : A => 1)), (Permutation_length HP); reflexivity).
  assert (Forall (fun a => a = 1) m').
  { apply Forall_forall. intros a Ha. assert (In a (map (fun _ : A => 1) l)).
    { eapply Permutation_in; [symmetry; exact HP|right; exact Ha]. }
    apply in_map_iff in H1. destruct H1 as (_ & <- & _). reflexivity. }
  assert (length m' = length l') by lia. clear - H1 H2. revert l' H2.
  induction H1; intros [|b l'] Hl; simpl in *; try discriminate; [reflexivity|]. subst. f_equal. apply IHForall. congruence.
Qed.

(** ** addSite / removeSite *)
Lemma events_fst p : length (prates p) = length (pr_sites p) -> map fst (events p) = pr_sites p.
Proof.
  unfold events. generalize (prates p). generalize (pr_sites p).
  induction l as [|a l IH]; intros [|b m] H; simpl in *; try discriminate; [reflexivity|].
  f_equal. apply IH. congruence.
Qed.

Lemma addSite_static p x r m : pstatic (addSite p x r m) = pstatic p.
Proof. unfold addSite. destruct p as [c ? ? ? ? ? ? ? ? ? ? ? ? ? ? ?]. destruct c; reflexivity. Qed.

Lemma addSite_sites p x r m : pr_sites (addSite p x r m) = pr_sites p ++ [x].
Proof. unfold addSite. destruct (pr_custom p); reflexivity. Qed.

Lemma addSite_events p x r : length (prates p) = length (pr_sites p) ->
  events (addSite p x r 1) = events p ++ [(x, if pr_custom p then r else pr_rate p)].
Proof.
  intros Hl. unfold events, prates, addSite in *. destruct (pr_custom p) eqn:Ec; simpl; rewrite Ec; simpl.
  - rewrite combine_app_len by auto. reflexivity.
  - rewrite map_app. rewrite combine_app_len by (rewrite map_length; reflexivity). reflexivity.
Qed.

Lemma addSite_inv p x r : pInv p -> ~ In x (pr_sites p) -> pInv (addSite p x r 1).
Proof.
  intros [ND Hm Hr Ht] Hx. constructor.
  - rewrite addSite_sites. apply NoDup_app_iff_local; auto.
    + repeat constructor; simpl; tauto.
    + intros b Hb [<-|[]]; contradiction.
  - rewrite addSite_sites. rewrite map_app, <- Hm. unfold addSite. destruct (pr_custom p); reflexivity.
  - rewrite addSite_sites. unfold prates in *. unfold addSite. destruct (pr_custom p) eqn:Ec; simpl; rewrite Ec; simpl.
    + rewrite !app_length, Hr. reflexivity.
    + rewrite !map_length. reflexivity.
  - rewrite addSite_events by exact Hr. rewrite map_app, zsum_app, <- Ht. unfold addSite.
    destruct (pr_custom p); cbn [pr_total set_sites map snd]; unfold zsum; cbn [fold_right]; lia.
Qed.

Lemma map_const_combine {A B} (l : list A) (c : B) : combine l (map (fun _ => c) l) = map (fun a => (a, c)) l.
Proof. induction l; simpl; congruence. Qed.

Lemma removeSite_spec p x : pInv p -> In x (pr_sites p) ->
  exists p' r, removeSite p x = Some p' /\ pInv p' /\ pstatic p' = pstatic p /\
    pr_aff p' = pr_aff p /\ pr_inc p' = pr_inc p /\
    Permutation (events p) ((x, r) :: events p').
Proof.
  intros [ND Hm Hr Ht] Hx. destruct (zfind_spec _ _ Hx) as [E H0].
  pose proof (zget_range _ _ _ E) as HR. set (pos := zfind (pr_sites p) x) in *.
  destruct (swapRemove_spec _ _ _ E) as (l' & Es & _).
  pose proof (swapRemove_perm _ _ _ _ Es) as [HP _].
  assert (Hlen : length (pr_sites p) = S (length l')) by (rewrite (Permutation_length HP); reflexivity).
  assert (ND' : NoDup l').
  { apply (Permutation_NoDup HP) in ND. inversion ND; auto. }
  unfold removeSite. fold pos. rewrite Es. simpl obind.
  rewrite Hm. rewrite (swapRemove_const _ l') by auto.
  unfold prates in Hr. destruct (pr_custom p) eqn:Ec.
  - assert (exists y, zget (pr_srates p) pos = Some y) as [y Ey].
    { apply zget_lt. unfold zlen in *. rewrite Hr. lia. }
    destruct (swapRemove_spec _ _ _ Ey) as (m' & Em & _). rewrite Em. cbn [obind fst snd].
    destruct (swapRemove_combine _ _ _ _ _ _ _ (eq_sym Hr) Es Em) as [Hl' HPc].
    eexists _, y. split; [reflexivity|].
    unfold events, prates in *. cbn [set_sites pr_custom pr_sites pr_srates pr_rate]. rewrite Ec in *. split.
    + constructor.
      * exact ND'.
      * reflexivity.
      * unfold prates; simpl; rewrite Ec; auto.
      * unfold events, prates; cbn [pr_total set_sites pr_custom pr_sites pr_srates]. rewrite Ec. rewrite Ht.
        rewrite (zsum_perm _ _ (Permutation_map snd HPc)). cbn [map snd fst]. rewrite zsum_cons. lia.
    + split; [unfold pstatic, set_sites; simpl; rewrite Ec; reflexivity|].
      split; [reflexivity|]. split; [reflexivity|]. exact HPc.
  - cbn [obind fst snd]. eexists _, (pr_rate p). split; [reflexivity|].
    assert (HPc : Permutation (combine (pr_sites p) (map (fun _ => pr_rate p) (pr_sites p)))
                              ((x, pr_rate p) :: combine l' (map (fun _ => pr_rate p) l'))).
    { rewrite !map_const_combine. change ((x, pr_rate p) :: map (fun a => (a, pr_rate p)) l')
        with (map (fun a => (a, pr_rate p)) (x :: l')). apply Permutation_map; exact HP. }
    unfold events, prates in *. cbn [set_sites pr_custom pr_sites pr_srates pr_rate]. rewrite Ec in *. split.
    + constructor.
      * exact ND'.
      * reflexivity.
      * unfold prates; simpl; rewrite Ec. rewrite map_length; reflexivity.
      * unfold events, prates; cbn [pr_total set_sites pr_custom pr_sites pr_srates pr_rate]. rewrite Ec. rewrite Ht.
        rewrite (zsum_perm _ _ (Permutation_map snd HPc)). cbn [map snd fst]. rewrite zsum_cons. lia.
    + split; [unfold pstatic, set_sites; simpl; rewrite Ec; reflexivity|].
      split; [reflexivity|]. split; [reflexivity|]. exact HPc.
Qed.

Lemma clearSites_inv p : pInv (clearSites p).
Proof.
  constructor; unfold events, prates; simpl; try reflexivity; [constructor|]; destruct (pr_custom p); reflexivity.
Qed.
Lemma clearSites_static p : pstatic (clearSites p) = pstatic p.
Proof. reflexivity. Qed.

(** ** Cumulative table and selection *)
Lemma incTable_length prev rs : length (incTable prev rs) = length rs.
Proof. revert prev; induction rs; intros prev; simpl; [reflexivity|rewrite IHrs; reflexivity]. Qed.
Lemma incTable_get prev rs i a : zget (incTable prev rs) i = Some a ->
  a = prev + zsum (firstn (Z.to_nat (i + 1)) rs).
Proof.
  revert prev i; induction rs as [|r rs IH]; intros prev i; simpl incTable.
  - rewrite zget_nil; discriminate.
  - rewrite zget_cons. destruct (Z.eqb_spec i 0).
    + subst. intros E; inversion E. simpl. unfold zsum; simpl; lia.
    + intros E. pose proof (zget_range _ _ _ E). apply IH in E. rewrite E.
      replace (i - 1 + 1) with i by lia. replace (Z.to_nat (i + 1)) with (S (Z.to_nat i)) by lia.
      simpl firstn. rewrite zsum_cons. lia.
Qed.
Lemma zsum_firstn_S l i a : zget l i = Some a ->
  zsum (firstn (Z.to_nat (i + 1)) l) = zsum (firstn (Z.to_nat i) l) + a.
Proof.
  revert i; induction l as [|b l IH]; intros i.
  - rewrite zget_nil; discriminate.
  - rewrite zget_cons. destruct (Z.eqb_spec i 0).
    + intros E; inversion E; subst. simpl. unfold zsum; simpl; lia.
    + intros E. pose proof (zget_range _ _ _ E). specialize (IH _ E).
      replace (i - 1 + 1) with i in IH by lia.
      assert (E1 : Z.to_nat i = S (Z.to_nat (i - 1))) by lia.
      assert (E2 : Z.to_nat (i + 1) = S (S (Z.to_nat (i - 1)))) by lia.
      rewrite E2, E1, !firstn_cons, !zsum_cons. rewrite E1 in IH. lia.
Qed.
Lemma zsum_firstn_mono l n m : (forall a, In a l -> 0 <= a) -> (n <= m)%nat -> zsum (firstn n l) <= zsum (firstn m l).
Proof.
  intros H. revert n m; induction l as [|b l IH]; intros n m Hnm; [rewrite !firstn_nil; lia|].
  assert (0 <= b) by (apply H; left; auto).
  assert (Hp : forall k, 0 <= zsum (firstn k l)).
  { intros k. apply zsum_nonneg. intros a Ha. apply H. right. rewrite <- (firstn_skipn k l). apply in_or_app; auto. }
  destruct n as [|n], m as [|m]; simpl firstn; rewrite ?zsum_cons; try lia.
  - specialize (Hp m). change (zsum []) with 0. lia.
  - assert (zsum (firstn n l) <= zsum (firstn m l)) by (apply IH; [intros; apply H; right; auto|lia]). lia.
Qed.

(** Selecting from a cumulative table [tab] of the non-negative weights [rs] with the deviate u:
    position [i] is chosen iff u*total lies in the i-th interval. *)
Lemma below_mono (rs : list Z) u total : (forall a, In a rs -> 0 <= a) -> 0 < dv_den u ->
  forall i j a b, i <= j -> zget (incTable 0 rs) i = Some a -> zget (incTable 0 rs) j = Some b ->
  belowDev u total b = true -> belowDev u total a = true.
Proof.
  intros Hn Hd i j a b Hij Ea Eb. unfold belowDev.
  pose proof (zget_range _ _ _ Ea). pose proof (zget_range _ _ _ Eb).
  apply incTable_get in Ea, Eb.
  assert (a <= b).
  { subst. pose proof (zsum_firstn_mono rs (Z.to_nat (i + 1)) (Z.to_nat (j + 1)) Hn). lia. }
  intros Hb. apply Z.ltb_lt in Hb. apply Z.ltb_lt. nia.
Qed.

Lemma firstn_zlen_all {A} (l : list A) n : zlen l <= Z.of_nat n -> firstn n l = l.
Proof. intros H. apply firstn_all2. unfold zlen in H; lia. Qed.

(** Characterisation of std::lower_bound on a cumulative table. *)
Lemma select_spec rs u pos : (forall a, In a rs -> 0 <= a) -> 0 < dv_den u -> 0 <= dv_num u <= dv_den u ->
  lower_bound (belowDev u (zsum rs)) (incTable 0 rs) = Some pos ->
  rs <> [] ->
  0 <= pos < zlen rs /\
  (pos = 0 \/ zsum (firstn (Z.to_nat pos) rs) * dv_den u < dv_num u * zsum rs) /\
  dv_num u * zsum rs <= zsum (firstn (Z.to_nat (pos + 1)) rs) * dv_den u.
Proof.
  intros Hn Hd Hu H Hne.
  destruct (lower_bound_spec _ _ _ (below_mono rs u (zsum rs) Hn Hd) H) as (Hr & Hlo & Hhi).
  assert (Hlen : zlen (incTable 0 rs) = zlen rs) by (unfold zlen; rewrite incTable_length; reflexivity).
  rewrite Hlen in Hr. assert (0 < zlen rs) by (destruct rs; [congruence|rewrite zlen_cons; pose proof (zlen_nonneg rs); lia]).
  assert (Hs : 0 <= zsum rs) by (apply zsum_nonneg; auto).
  assert (Hlt : pos < zlen rs).
  { destruct (Z.eq_dec pos (zlen rs)); [|lia]. exfalso.
    destruct (zget_lt (incTable 0 rs) (zlen rs - 1)) as [a Ea]; [lia|].
    assert (belowDev u (zsum rs) a = true) by (eapply Hlo; [|exact Ea]; lia).
    apply incTable_get in Ea. rewrite firstn_zlen_all in Ea by lia.
    unfold belowDev in H1. apply Z.ltb_lt in H1. subst a. nia. }
  split; [lia|]. split.
  - destruct (Z.eq_dec pos 0); [auto|right].
    destruct (zget_lt (incTable 0 rs) (pos - 1)) as [a Ea]; [lia|].
    assert (belowDev u (zsum rs) a = true) by (eapply Hlo; [|exact Ea]; lia).
    apply incTable_get in Ea. replace (pos - 1 + 1) with pos in Ea by lia.
    unfold belowDev in H1. apply Z.ltb_lt in H1. subst a. lia.
  - destruct (zget_lt (incTable 0 rs) pos) as [a Ea]; [lia|].
    assert (belowDev u (zsum rs) a = false) by (eapply Hhi; [|exact Ea]; lia).
    apply incTable_get in Ea. unfold belowDev in H1. apply Z.ltb_ge in H1. subst a. lia.
Qed.

(** For u > 0 and a positive total the chosen position is the unique one whose interval contains u*total. *)
Lemma chosen_unique rs u i j : (forall a, In a rs -> 0 <= a) -> 0 < dv_den u -> 0 <= i -> 0 <= j ->
  chosen rs u i -> chosen rs u j -> i = j.
Proof.
  intros Hn Hd Hi Hj [A1 A2] [B1 B2].
  destruct (Z_lt_dec i j).
  - pose proof (zsum_firstn_mono rs (Z.to_nat (i + 1)) (Z.to_nat j) Hn). nia.
  - destruct (Z_lt_dec j i); [|lia].
    pose proof (zsum_firstn_mono rs (Z.to_nat (j + 1)) (Z.to_nat i) Hn). nia.
Qed.
Lemma select_chosen rs u pos : (forall a, In a rs -> 0 <= a) -> 0 < dv_num u <= dv_den u -> 0 < zsum rs ->
  lower_bound (belowDev u (zsum rs)) (incTable 0 rs) = Some pos -> 0 <= pos < zlen rs /\ chosen rs u pos.
Proof.
  intros Hn Hu Hs H. destruct (select_spec rs u pos) as (Hp & H1 & H2); auto; try lia.
  { intros ->. unfold zsum in Hs; simpl in Hs; lia. }
  split; [exact Hp|]. split; [|exact H2]. destruct H1 as [->|H1]; [|exact H1].
  simpl. change (zsum []) with 0. nia.
Qed.
Lemma select_iff rs u i : (forall a, In a rs -> 0 <= a) -> 0 < dv_num u <= dv_den u -> 0 < zsum rs -> 0 <= i ->
  lower_bound (belowDev u (zsum rs)) (incTable 0 rs) = Some i <-> chosen rs u i.
Proof.
  intros Hn Hu Hs Hi. destruct (lower_bound_total (belowDev u (zsum rs)) (incTable 0 rs)) as [pos E].
  destruct (select_chosen rs u pos Hn Hu Hs E) as [Hp HC]. rewrite E. split.
  - intros H; inversion H; subst; exact HC.
  - intros H. f_equal. eapply chosen_unique; eauto; lia.
Qed.
(** the chosen position has a positive weight *)
Lemma chosen_positive rs u i : (forall a, In a rs -> 0 <= a) -> 0 < dv_den u -> 0 <= i < zlen rs -> chosen rs u i ->
  exists a, zget rs i = Some a /\ 0 < a.
Proof.
  intros Hn Hd Hi [A1 A2]. destruct (zget_lt rs i Hi) as [a Ea]. exists a. split; [exact Ea|].
  rewrite (zsum_firstn_S _ _ _ Ea) in A2. nia.
Qed.
