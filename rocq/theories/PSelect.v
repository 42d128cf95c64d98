(** Selection of processes and sites in states with consistent bookkeeping. *)
From Verif Require Import PBase SModel PProcess PMatcher PStep.
Open Scope Z_scope.
Open Scope list_scope.

Lemma omap_zseq_id {A} (f : Z -> option A) (l : list A) lo : (forall i a, zget l i = Some a -> f (lo + i) = Some a) ->
  omap f (zseq lo (length l)) = Some l.
Proof.
  revert lo; induction l as [|a l IH]; intros lo H; [reflexivity|]. cbn [length zseq omap].
  replace lo with (lo + 0) at 1 by lia. rewrite (H 0 a) by reflexivity. cbn [obind]. rewrite IH; [reflexivity|].
  intros i b Hb. pose proof (zget_range _ _ _ Hb). replace (lo + 1 + i) with (lo + (i + 1)) by lia. apply H.
  rewrite zget_cons. destruct (Z.eqb_spec (i + 1) 0); [lia|]. replace (i + 1 - 1) with i by lia. exact Hb.
Qed.
Lemma omap_zget_id {A} (f : Z -> option A) (l : list A) : (forall i a, zget l i = Some a -> f i = Some a) ->
  omap f (zrange 0 (zlen l - 1)) = Some l.
Proof.
  intros H. unfold zrange, zlen. replace (Z.to_nat (Z.of_nat (length l) - 1 - 0 + 1)) with (length l) by lia. apply omap_zseq_id. exact H.
Qed.
Lemma In_firstn {A} n (l : list A) y : In y (firstn n l) -> In y l.
Proof. intros H. rewrite <- (firstn_skipn n l). apply in_or_app. auto. Qed.
Lemma probTable_fst prev ps : map fst (probTable prev ps) = incTable prev (map pr_total ps).
Proof. revert prev; induction ps as [|p ps IH]; intros prev; [reflexivity|]. cbn [probTable incTable map fst]. rewrite IH. rewrite (Z.add_comm prev). reflexivity. Qed.
Lemma zget_probTable prev ps i : zget (probTable prev ps) i = None <-> zget ps i = None.
Proof.
  revert prev i; induction ps as [|p ps IH]; intros prev i; [cbn [probTable]; rewrite !zget_nil; tauto|]. cbn [probTable]. rewrite !zget_cons. destruct (i =? 0); [split; discriminate|]. apply IH.
Qed.
Lemma probTable_len prev ps : zlen (probTable prev ps) = zlen ps.
Proof. revert prev; induction ps as [|p ps IH]; intros prev; [reflexivity|]. cbn [probTable]. rewrite !zlen_cons, IH. reflexivity. Qed.

(** lower_bound looks at the first components only *)
Lemma lower_bound_fuel_map {A B} (g : A -> B) (below : B -> bool) (l : list A) fuel : forall first len,
  lower_bound_fuel (fun a => below (g a)) l first len fuel = lower_bound_fuel below (map g l) first len fuel.
Proof.
  induction fuel as [|fuel IH]; intros first len; [reflexivity|]. cbn [lower_bound_fuel].
  destruct (0 <? len); [|reflexivity]. rewrite zget_map. destruct (zget l (first + len / 2)) as [a|] eqn:E; cbn [option_map obind]; [|reflexivity].
  destruct (below (g a)); apply IH.
Qed.
Lemma lower_bound_map {A B} (g : A -> B) (below : B -> bool) (l : list A) :
  lower_bound (fun a => below (g a)) l = lower_bound below (map g l).
Proof. unfold lower_bound. rewrite lower_bound_fuel_map, zlen_map, map_length. reflexivity. Qed.

Lemma incTable_last rs a : zget (incTable 0 rs) (zlen (incTable 0 rs) - 1) = Some a -> a = zsum rs.
Proof.
  intros E. apply incTable_get in E. rewrite E. rewrite firstn_zlen_all; [lia|]. unfold zlen. rewrite incTable_length. lia.
Qed.
Lemma totalRate_sum it : in_table it = probTable 0 (in_procs it) -> in_procs it <> [] ->
  totalRate it = Some (zsum (map pr_total (in_procs it))).
Proof.
  intros Ht Hne. unfold totalRate. rewrite Ht. rewrite probTable_len.
  destruct (zget (probTable 0 (in_procs it)) (zlen (in_procs it) - 1)) as [[r n]|] eqn:E.
  - cbn [obind fst]. f_equal. apply (f_equal (option_map fst)) in E. rewrite <- zget_map, probTable_fst in E. cbn [option_map fst] in E.
    apply incTable_last. unfold zlen at 1. rewrite incTable_length, map_length. exact E.
  - exfalso. apply zget_probTable in E. destruct (zget_lt (in_procs it) (zlen (in_procs it) - 1)) as [z Ez]; [|congruence].
    destruct (in_procs it); [congruence|]. rewrite zlen_cons. pose proof (zlen_nonneg l). lia.
Qed.
Lemma pick_lower it u : in_table it = probTable 0 (in_procs it) -> in_procs it <> [] ->
  pickProcessIndex it u = lower_bound (belowDev u (zsum (map pr_total (in_procs it)))) (incTable 0 (map pr_total (in_procs it))).
Proof.
  intros Ht Hne. unfold pickProcessIndex. rewrite (totalRate_sum it Ht Hne). cbn [obind]. rewrite Ht.
  rewrite <- probTable_fst, <- (lower_bound_map fst). reflexivity.
Qed.
Lemma pick_process it u i : in_table it = probTable 0 (in_procs it) -> (forall p, In p (in_procs it) -> 0 <= pr_total p) ->
  0 < dv_num u <= dv_den u -> 0 < zsum (map pr_total (in_procs it)) -> 0 <= i ->
  (pickProcessIndex it u = Some i <-> chosen (map pr_total (in_procs it)) u i).
Proof.
  intros Ht Hn Hu Hs Hi. rewrite pick_lower; auto.
  - apply select_iff; auto. intros a Ha. apply in_map_iff in Ha. destruct Ha as (p & <- & Hp). auto.
  - intros E. rewrite E in Hs. cbn in Hs. lia.
Qed.

Lemma siteRates_prates p : pInv p -> siteRates p = Some (prates p).
Proof.
  intros [_ Hm Hr _]. unfold siteRates, prates in *. rewrite Hm. destruct (pr_custom p).
  - rewrite zlen_map. replace (zlen (pr_sites p)) with (zlen (pr_srates p)) by (unfold zlen; rewrite Hr; reflexivity).
    apply omap_zget_id. intros i a Ea. rewrite Ea. cbn [obind].
    destruct (zget_lt (pr_sites p) i) as [z Ez]. { pose proof (zget_range _ _ _ Ea) as H. unfold zlen in *. rewrite Hr in H. exact H. }
    rewrite zget_map, Ez. cbn [option_map obind]. f_equal. lia.
  - rewrite map_map. f_equal. apply map_ext. intros. lia.
Qed.
Lemma pick_site p q u x : pInv p -> updateRateTable p = Some q -> (forall r, In r (prates p) -> 0 <= r) ->
  0 < dv_num u <= dv_den u -> 0 < zsum (prates p) ->
  (pickSite q u = Some x <-> exists i, 0 <= i /\ chosen (prates p) u i /\ zget (pr_sites p) i = Some x).
Proof.
  intros PI Eq Hn Hu Hs. unfold updateRateTable in Eq. rewrite (siteRates_prates p PI) in Eq. cbn [obind] in Eq. inversion Eq; subst q; clear Eq.
  unfold pickSite. cbn [set_inc pr_inc pr_sites].
  destruct (zget (incTable 0 (prates p)) (zlen (incTable 0 (prates p)) - 1)) as [tot|] eqn:Et; cbn [obind].
  2:{ exfalso. destruct (zget_lt (incTable 0 (prates p)) (zlen (incTable 0 (prates p)) - 1)) as [z Ez]; [|congruence].
      unfold zlen. rewrite incTable_length. destruct (prates p); [cbn in Hs; lia|]. cbn [length]. lia. }
  apply incTable_last in Et. subst tot.
  destruct (lower_bound_total (belowDev u (zsum (prates p))) (incTable 0 (prates p))) as [pos E]. rewrite E. cbn [obind].
  destruct (select_chosen _ _ _ Hn Hu Hs E) as [Hp HC]. split.
  - intros H. exists pos. split; [lia|]. auto.
  - intros (i & Hi & HC' & H). rewrite <- (chosen_unique (prates p) u i pos); auto; lia.
Qed.

(** ** Proportions *)
Lemma count_interval n : forall lo a b, a <= b ->
  zlen (filter (fun k => (a <? k) && (k <=? b)) (zseq lo n)) = Z.max 0 (Z.min b (lo + Z.of_nat n - 1) - Z.max a (lo - 1)).
Proof.
  induction n as [|n IH]; intros lo a b Hab; [cbn [zseq filter]; rewrite zlen_nil; lia|].
  cbn [zseq filter]. destruct (Z.ltb_spec a lo), (Z.leb_spec lo b); cbn [andb]; rewrite ?zlen_cons, IH by lia; lia.
Qed.
Lemma count_chosen rs i r m (sel : Z -> bool) : (forall a, In a rs -> 0 <= a) -> 0 < zsum rs -> 0 < m -> zget rs i = Some r ->
  (forall k, 0 < k <= m * zsum rs -> (sel k = true <-> chosen rs (mkDev k (m * zsum rs)) i)) ->
  zlen (filter sel (zrange 1 (m * zsum rs))) = m * r.
Proof.
  intros Hn Hs Hm Er HS. pose proof (zget_range _ _ _ Er) as Hi.
  set (T := zsum rs) in *. set (a := zsum (firstn (Z.to_nat i) rs)). set (b := zsum (firstn (Z.to_nat (i + 1)) rs)).
  assert (Hb : b = a + r) by (apply zsum_firstn_S; exact Er).
  assert (Ha0 : 0 <= a). { apply zsum_nonneg. intros y Hy. apply Hn. apply (In_firstn _ _ _ Hy). }
  assert (HbT : b <= T). { unfold b, T. rewrite <- (firstn_zlen_all rs (Z.to_nat (zlen rs))) at 2 by (unfold zlen; lia). apply zsum_firstn_mono; auto. lia. }
  assert (Hr : 0 <= r) by (apply Hn; eapply zget_In; eauto).
  rewrite (filter_ext_in sel (fun k => (m * a <? k) && (k <=? m * b))).
  - unfold zrange. rewrite count_interval by nia. nia.
  - intros k Hk. apply In_zrange in Hk. apply eq_true_iff_eq. rewrite HS by lia. unfold chosen. cbn [dv_num dv_den].
    fold T a b. rewrite andb_true_iff, Z.ltb_lt, Z.leb_le. clearbody T a b. split; intros; nia.
Qed.
