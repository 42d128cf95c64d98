(** Rematching after a history compared with a model built afresh; what a listed event says about the lattice. *)
From Verif Require Import PBase SModel SGeo PLattice PProcess PMpi PRateTable PMatcher PPerform PStep PGeo PPossible PRun PEffect.
Open Scope Z_scope.
Open Scope list_scope.

Lemma listed_scratch ranks hash L cf it md i x : wfInput ranks L cf it -> reachable ranks hash L cf it md -> 0 <= x < nsites L ->
  (listed md i x <-> scratchMatch L (md_in md) (md_cf md) i x).
Proof.
  intros WI HR Hx. destruct (reachable_info _ _ _ _ _ _ WI HR) as (cf1 & it2 & RI).
  pose proof (ri_inv _ _ _ _ _ _ _ _ RI) as IV. pose proof (ri_lat _ _ _ _ _ _ _ _ RI) as EL.
  unfold scratchMatch. split.
  - intros HL. assert (HP : pairIn L (md_in md) x i). { destruct HL as [r Hr]. apply (iv_evt _ IV) in Hr. rewrite EL in Hr. apply Hr. }
    unfold listed in HL. rewrite (iv_listed _ IV) in HL by (rewrite EL; auto). destruct HL as (p & cl & Ep & Ecl & HM). rewrite EL in HM.
    destruct HP as (p1 & E1 & Hb). assert (p1 = p) by congruence. subst p1.
    exists p, cl. split; [exact Ep|]. split; [exact Hb|]. split; [|exact HM].
    rewrite <- Ecl. symmetry. pose proof (iv_fresh _ IV x) as HF. rewrite EL in HF. apply HF; [exact Hx|]. exists i, p. auto.
  - intros (p & cl & Ep & Hb & Ecl & HM). assert (HP : pairIn L (md_in md) x i) by (exists p; auto).
    unfold listed. rewrite (iv_listed _ IV) by (rewrite EL; auto). exists p, cl. split; [exact Ep|]. split; [|rewrite EL; exact HM].
    pose proof (iv_fresh _ IV x) as HF. rewrite EL in HF. rewrite HF; [exact Ecl|exact Hx|]. exists i. exact HP.
Qed.

(** ** the padding only depends on the geometry and on the number of types *)
Definition shapeOf (c : centry) := (ce_d2 c, ce_c c, zlen (ce_types c)).
Lemma initWildcard_shape c c' : shapeOf c = shapeOf c' -> initWildcard c = initWildcard c'.
Proof.
  unfold shapeOf, initWildcard. intros H. inversion H as [[H1 H2 H3]]. rewrite H1, H2, H3. f_equal.
  assert (HL : length (ce_types c) = length (ce_types c')) by (unfold zlen in H3; lia). revert HL. generalize (ce_types c) (ce_types c'). clear.
  unfold bucket. intros l. induction l as [|a l IH]; intros [|b l'] HL; try discriminate; [reflexivity|]. cbn [map]. f_equal. apply IH. cbn in HL. congruence.
Qed.
Lemma insertWildcards_shape S cl : forall cl' pl n, map shapeOf cl = map shapeOf cl' -> insertWildcards S pl cl n = insertWildcards S pl cl' n.
Proof.
  induction cl as [|c cl IH]; intros [|c' cl'] pl n H; try discriminate; [reflexivity|]. cbn [map] in H. inversion H as [[H1 H2 H3 H4]].
  cbn [insertWildcards]. destruct pl as [|p pl]; [reflexivity|]. rewrite H1, H2.
  rewrite (initWildcard_shape c c') by (unfold shapeOf; congruence).
  destruct (samePoint S (pe_d2 p) (pe_c p) (ce_d2 c') (ce_c c')); rewrite (IH cl') by assumption; reflexivity.
Qed.
Lemma expandProcess_shape L cf cf' p : (forall x, option_map (map shapeOf) (zget (cf_mlists cf) x) = option_map (map shapeOf) (zget (cf_mlists cf') x)) ->
  expandProcess L cf p = expandProcess L cf' p.
Proof.
  intros H. unfold expandProcess. destruct (pr_basis p) as [|b [|]]; try reflexivity.
  destruct (zget _ b) as [index|]; [|reflexivity]. cbn [obind]. specialize (H index).
  destruct (zget (cf_mlists cf) index) as [cl|], (zget (cf_mlists cf') index) as [cl'|]; cbn [option_map] in H; try discriminate; [|reflexivity].
  cbn [obind]. inversion H as [H']. rewrite (insertWildcards_shape (lt_unit L) cl cl' (pr_ml p) 0 H'). reflexivity.
Qed.
Lemma initMatchLists_at L R cf cf1 x : initMatchLists L R cf = Some cf1 -> 0 <= x < zlen (cf_types cf) ->
  zget (cf_mlists cf1) x = scratchML L R cf x.
Proof.
  intros H Hx. destruct (initMatchLists_fields _ _ _ _ H) as (mls & n & E & _ & ->). cbn [set_moved set_mlists cf_mlists].
  rewrite (omap_zget _ _ _ x E). rewrite zget_zrange by lia. reflexivity.
Qed.
Lemma fresh_shape ranks L cf it cf' cf1 cf1' : wfInput ranks L cf it -> cf_coords cf' = cf_coords cf -> map zlen (cf_types cf') = map zlen (cf_types cf) ->
  initMatchLists L (maxRange it) cf = Some cf1 -> initMatchLists L (maxRange it) cf' = Some cf1' ->
  forall x, option_map (map shapeOf) (zget (cf_mlists cf1) x) = option_map (map shapeOf) (zget (cf_mlists cf1') x).
Proof.
  intros WI Hc Hw H1 H2 x. pose proof (wi_lat _ _ _ _ WI) as WF.
  assert (Ht : zlen (cf_types cf') = zlen (cf_types cf)) by (pose proof (f_equal zlen Hw) as Hw'; rewrite !zlen_map in Hw'; exact Hw').
  assert (HN : forall c c1 y, initMatchLists L (maxRange it) c = Some c1 -> ~ 0 <= y < zlen (cf_types c) -> zget (cf_mlists c1) y = None).
  { intros c c1 y Hi Hy. destruct (initMatchLists_fields _ _ _ _ Hi) as (mls & n & E & _ & ->). cbn [set_moved set_mlists cf_mlists].
    apply zget_None. rewrite (omap_zlen _ _ _ E), zlen_zrange. pose proof (zlen_nonneg (cf_types c)). lia. }
  destruct (Z_le_dec 0 x); [destruct (Z_lt_dec x (zlen (cf_types cf)))|].
  - rewrite (initMatchLists_at _ _ _ _ x H1) by lia. rewrite (initMatchLists_at _ _ _ _ x H2) by lia.
    pose proof (maxRange_pos it) as HR. pose proof (wi_types _ _ _ _ WI) as HT. pose proof (wi_coords _ _ _ _ WI) as HC.
    destruct (scratch_eq L (maxRange it) cf x) as (g & G1 & G2 & G3 & G4); auto; try lia.
    destruct (scratch_eq L (maxRange it) cf' x) as (g' & G1' & G2' & G3' & G4'); auto; try lia; [rewrite Hc; lia|].
    rewrite Hc in G1'. assert (g' = g) by congruence. subst g'. rewrite G3, G4, G3', G4'. cbn [option_map]. f_equal.
    rewrite !map_map. apply map_ext_in. intros e He. unfold shapeOf, withTypes. cbn [ce_d2 ce_c ce_types]. f_equal.
    specialize (G2 e He). rewrite <- HT in G2. destruct (zget_lt _ _ G2) as [t Et]. rewrite Et.
    assert (option_map zlen (zget (cf_types cf') (ce_index e)) = option_map zlen (zget (cf_types cf) (ce_index e))) as HH by (rewrite <- !zget_map, Hw; reflexivity).
    rewrite Et in HH. destruct (zget (cf_types cf') (ce_index e)) as [t'|]; cbn in HH; [|discriminate]. congruence.
  - rewrite (HN _ _ x H1), (HN _ _ x H2) by lia. reflexivity.
  - rewrite (HN _ _ x H1), (HN _ _ x H2) by lia. reflexivity.
Qed.

Lemma mkLatticeModel_types ranks hash L cf it md : mkLatticeModel ranks hash L cf it = Some md ->
  cf_types (md_cf md) = cf_types cf /\ cf_coords (md_cf md) = cf_coords cf.
Proof.
  unfold mkLatticeModel, calculateInitialMatching. cbn [md_lat md_cf md_in md_mt]. intros H. ob H as md1 E1. inversion H; subst; clear H. cbn [md_cf].
  ob E1 as cf1 X1. ob E1 as it1 X2. ob E1 as r X3. destruct r as [[mt it'] cf']. inversion E1; subst; clear E1. cbn [md_cf].
  destruct (calculateMatching_cf _ _ _ _ _ _ _ _ X3) as [mls ->]. cbn [set_mlists cf_types cf_coords].
  destruct (initMatchLists_fields _ _ _ _ X1) as (mls1 & n & _ & _ & ->). cbn [set_moved set_mlists cf_types cf_coords]. auto.
Qed.

(** a model built afresh from the present configuration lists the same events *)
Lemma rebuilt_same ranks hash L cf it md ranks' hash' md2 i x :
  wfInput ranks L cf it -> reachable ranks hash L cf it md -> 1 <= ranks' ->
  mkLatticeModel ranks' hash' L (md_cf md) it = Some md2 -> 0 <= x < nsites L ->
  (listed md i x <-> listed md2 i x).
Proof.
  intros WI HR Hr' H2 Hx. destruct (reachable_info _ _ _ _ _ _ WI HR) as (cf1 & it2 & RI).
  pose proof (ri_inv _ _ _ _ _ _ _ _ RI) as IV. pose proof (ri_lat _ _ _ _ _ _ _ _ RI) as EL.
  assert (WI' : wfInput ranks' L (md_cf md) it).
  { destruct IV. rewrite EL in *. destruct WI. constructor; auto. }
  assert (HR' : reachable ranks' hash' L (md_cf md) it md2) by (exists md2, []; auto).
  destruct (reachable_info _ _ _ _ _ _ WI' HR') as (cf1' & it2' & RI').
  assert (HML : forall j p p', zget (in_procs (md_in md)) j = Some p -> zget (in_procs (md_in md2)) j = Some p' -> pr_ml p = pr_ml p' /\ pr_basis p = pr_basis p').
  { intros j p p' Ep Ep'. destruct (sameP_get _ _ _ _ (ri_same _ _ _ _ _ _ _ _ RI) Ep) as (q & Eq & Hs).
    destruct (sameP_get _ _ _ _ (ri_same _ _ _ _ _ _ _ _ RI') Ep') as (q' & Eq' & Hs').
    assert (q = q').
    { pose proof (ri_expand _ _ _ _ _ _ _ _ RI) as X1. pose proof (ri_expand _ _ _ _ _ _ _ _ RI') as X2.
      assert (X3 : updateProcessMatchLists L cf1' (clearMatching it) = updateProcessMatchLists L cf1 (clearMatching it)).
      { unfold updateProcessMatchLists. destruct (in_wild (clearMatching it)); [|reflexivity].
        erewrite omap_ext; [reflexivity|]. intros p0 _. apply expandProcess_shape. intros y. symmetry.
        eapply fresh_shape; [exact WI|apply RI|apply RI|apply RI|apply RI']. }
      congruence. }
    subst q'. apply pstatic_fields in Hs. apply pstatic_fields in Hs'. 
    destruct Hs as (_ & _ & _ & _ & _ & _ & -> & -> & _), Hs' as (_ & _ & _ & _ & _ & _ & -> & -> & _). auto. }
  assert (HZ : zlen (in_procs (md_in md)) = zlen (in_procs (md_in md2))).
  { rewrite (sameP_len _ _ (ri_same _ _ _ _ _ _ _ _ RI)), (sameP_len _ _ (ri_same _ _ _ _ _ _ _ _ RI')).
    destruct (updateML_get _ _ _ _ (ri_expand _ _ _ _ _ _ _ _ RI)) as (-> & _). destruct (updateML_get _ _ _ _ (ri_expand _ _ _ _ _ _ _ _ RI')) as (-> & _). reflexivity. }
  rewrite (listed_scratch _ _ _ _ _ _ i x WI HR Hx), (listed_scratch _ _ _ _ _ _ i x WI' HR' Hx).
  assert (HS : scratchML L (maxRange (md_in md2)) (md_cf md2) x = scratchML L (maxRange (md_in md)) (md_cf md) x).
  { rewrite (ri_range _ _ _ _ _ _ _ _ RI), (ri_range _ _ _ _ _ _ _ _ RI'). unfold scratchML.
    destruct (mkLatticeModel_types _ _ _ _ _ _ H2) as [Et Ec]. unfold configMatchList. rewrite Et, Ec. reflexivity. }
  unfold scratchMatch. rewrite HS. split.
  - intros (p & cl & Ep & Hb & Ecl & HM). destruct (zget_lt (in_procs (md_in md2)) i) as [p' Ep']; [rewrite <- HZ; eapply zget_range; eauto|].
    destruct (HML i p p' Ep Ep') as [A B]. exists p', cl. rewrite <- A, <- B. auto.
  - intros (p' & cl & Ep' & Hb & Ecl & HM). destruct (zget_lt (in_procs (md_in md)) i) as [p Ep]; [rewrite HZ; eapply zget_range; eauto|].
    destruct (HML i p p' Ep Ep') as [A B]. exists p, cl. rewrite A, B. auto.
Qed.

(** ** what a listed event says about the lattice *)
Lemma wrapCoord_same L c : sameDisp L c (wrapCoord L c).
Proof.
  assert (H : forall rep v, sameMod true (rep * lt_unit L) v (wrap1 (lt_unit L) rep v)).
  { intros rep v. unfold wrap1, sameMod. destruct (rep * lt_unit L <=? 2 * v); [exists (-1); lia|].
    destruct (2 * v <? - (rep * lt_unit L)); [exists 1; lia|exists 0; lia]. }
  unfold sameDisp, wrapCoord. cbn [cx cy cz]. repeat split; [destruct (lt_pa L)|destruct (lt_pb L)|destruct (lt_pc L)]; try apply H; reflexivity.
Qed.
Lemma samePoint_close S d1 c1 d2 c2 : samePoint S d1 c1 d2 c2 = true -> closeTo S c1 c2.
Proof.
  unfold samePoint, coFar, closeTo. destruct (distFar S d1 d2); [discriminate|].
  destruct (Z.ltb_spec S (100000 * Z.abs (cx c2 - cx c1))); [discriminate|].
  destruct (Z.ltb_spec S (100000 * Z.abs (cy c2 - cy c1))); [discriminate|].
  destruct (Z.ltb_spec S (100000 * Z.abs (cz c2 - cz c1))); [discriminate|]. intros _. lia.
Qed.
Lemma expand_In L cf p q e : expandProcess L cf p = Some q -> In e (pr_ml p) -> In e (pr_ml q).
Proof.
  unfold expandProcess. destruct (pr_basis p) as [|b [|b' l]]; intros H He; try (inversion H; subst; exact He).
  ob H as index Ei. ob H as cl Ecl. destruct (insertWildcards (lt_unit L) (pr_ml p) cl 0) as [l mapping] eqn:EI.
  ob H as idm Eid. inversion H; subst. cbn [set_ml pr_ml].
  pose proof (insert_padded (lt_unit L) cl (pr_ml p) 0) as HP. rewrite EI in HP. eapply padded_In; eauto.
Qed.
Lemma reachable_ml_In ranks hash L cf it md cf1 it2 i p p' e : reachInfo ranks hash L cf it md cf1 it2 ->
  zget (in_procs it) i = Some p -> zget (in_procs (md_in md)) i = Some p' -> In e (pr_ml p) -> In e (pr_ml p').
Proof.
  intros RI Ep Ep' He. destruct (reachable_proc _ _ _ _ _ _ _ _ _ _ RI Ep') as (p2 & q & Ep2 & Eq & Hs & HQ). assert (p2 = p) by congruence. subst p2.
  apply pstatic_fields in Hs. destruct Hs as (_ & _ & _ & _ & _ & _ & -> & _).
  destruct HQ as [->|[_ HQ]]; [exact He|]. eapply expand_In; [exact HQ|exact He].
Qed.
Lemma scratchML_In L R cf x cl c : wf_lattice L -> 0 <= R -> 0 <= x < nsites L -> scratchML L R cf x = Some cl -> In c cl ->
  exists cx0 cy0, zget (cf_coords cf) x = Some cx0 /\ zget (cf_coords cf) (ce_index c) = Some cy0 /\
    ce_c c = wrapCoord L (csub cy0 cx0) /\ ce_d2 c = cnorm2 (ce_c c) /\ zget (cf_types cf) (ce_index c) = Some (ce_types c) /\ nearSites L R x (ce_index c).
Proof.
  intros WF HR Hx H Hc. unfold scratchML, configMatchList in H. ob H as cc Ecc. ob H as es Ees. inversion H; subst cl; clear H.
  apply (Permutation_in _ (isort_perm _ es)) in Hc. destruct (omap_In _ _ _ _ Ees Hc) as (y & Hy & E).
  unfold configEntry in E. ob E as ci Eci. ob E as t Et. inversion E; subst c; clear E. cbn [ce_index ce_c ce_types ce_d2].
  exists cc, ci. repeat split; auto. apply neighbour_spec; auto.
Qed.
Lemma listed_suits ranks hash L cf it md i p x e : wfInput ranks L cf it -> reachable ranks hash L cf it md ->
  listed md i x -> zget (in_procs it) i = Some p -> In e (pr_ml p) ->
  0 <= x < nsites L /\ In (basisSiteFromIndex L x) (pr_basis p) /\
  (wildEntry e \/ exists y, nearSites L (maxRange it) x y /\ suits L (md_cf md) x e y).
Proof.
  intros WI HR HL Ep He. destruct (reachable_info _ _ _ _ _ _ WI HR) as (cf1 & it2 & RI).
  assert (Hx : 0 <= x < nsites L).
  { destruct HL as [r Hr]. apply (iv_evt _ (ri_inv _ _ _ _ _ _ _ _ RI)) in Hr. rewrite (ri_lat _ _ _ _ _ _ _ _ RI) in Hr. apply Hr. }
  split; [exact Hx|]. apply (listed_scratch _ _ _ _ _ _ i x WI HR Hx) in HL.
  destruct HL as (p' & cl & Ep' & Hb & Ecl & HM).
  destruct (reachable_proc _ _ _ _ _ _ _ _ _ _ RI Ep') as (p2 & q & Ep2 & Eq & Hs & HQ). assert (p2 = p) by congruence. subst p2.
  split.
  { apply pstatic_fields in Hs. destruct Hs as (_ & _ & _ & _ & _ & _ & _ & Hs & _). rewrite Hs in Hb.
    destruct HQ as [->|[_ HQ]]; [exact Hb|]. apply expand_fields in HQ. destruct HQ as (_ & _ & _ & _ & _ & _ & _ & _ & _ & _ & _ & HQ & _). rewrite HQ in Hb. exact Hb. }
  pose proof (reachable_ml_In _ _ _ _ _ _ _ _ _ _ _ _ RI Ep Ep' He) as He'.
  apply In_zget in He'. destruct He' as [k Ek]. apply whatever_true in HM. destruct HM as [Hlen HM].
  destruct (zget_lt cl k) as [c Ec]; [apply zget_range in Ek; unfold zlen in *; lia|].
  specialize (HM k e c Ek Ec). apply peMatch_true in HM. destruct HM as [HM|(_ & _ & HC & HP)]; [left; exact HM|right].
  rewrite (ri_range _ _ _ _ _ _ _ _ RI) in Ecl.
  destruct (scratchML_In L (maxRange it) (md_cf md) x cl c) as (cx0 & cy0 & A & B & C & _ & D & F); auto; [apply WI|pose proof (maxRange_pos it); lia|eapply zget_In; eauto|].
  exists (ce_index c). split; [exact F|]. exists cx0, cy0, (ce_c c), (ce_types c). repeat split; auto.
  - rewrite C. apply wrapCoord_same.
  - rewrite C. apply wrapCoord_same.
  - rewrite C. apply wrapCoord_same.
  - eapply samePoint_close; eauto.
  - eapply samePoint_close; eauto.
  - eapply samePoint_close; eauto.
  - apply HC.
  - apply HC.
Qed.

(** ** padding with wildcards *)
Lemma inert_init c : ce_types c <> [] -> inert (initWildcard c).
Proof.
  intros H. split; [apply wild_init; exact H|]. split; [|split; reflexivity]. rewrite upd_init. intros t n E.
  rewrite zget_map in E. destruct (zget (ce_types c) t); [|discriminate]. simpl in E. congruence.
Qed.
Lemma padded_pos pl cl l m n : padded pl cl l m n -> exists posl : list Z,
  zlen posl = zlen pl /\ (forall j a, zget m j = Some a -> zget posl j = Some a) /\
  (forall j e, zget pl j = Some e -> exists a, zget posl j = Some a /\ n <= a /\ zget l (a - n) = Some e) /\
  (forall j k a b, zget posl j = Some a -> zget posl k = Some b -> j < k -> a < b) /\
  (forall k e, zget l k = Some e -> (exists j, zget posl j = Some (k + n)) \/ exists c, In c cl /\ e = initWildcard c).
Proof.
  induction 1 as [pl n|cl n|p pl c cl l m n HP IH|pl c cl l m n HP IH].
  - exists (zrange n (n + zlen pl - 1)). pose proof (zlen_nonneg pl) as Hp. rewrite zlen_zrange. split; [lia|]. split; [intros j a; rewrite zget_nil; discriminate|].
    split; [|split].
    + intros j e E. apply zget_range in E as Hj. exists (n + j). rewrite zget_zrange by lia. replace (n + j - n) with j by lia. repeat split; auto; lia.
    + intros j k a b Ea Eb Hjk. apply zget_range in Ea as Ha. apply zget_range in Eb as Hb. rewrite zlen_zrange in Ha, Hb. rewrite zget_zrange in Ea, Eb by lia. inversion Ea. inversion Eb. lia.
    + intros k e E. left. apply zget_range in E as Hk. exists k. rewrite zget_zrange by lia. f_equal. lia.
  - exists []. split; [reflexivity|]. split; [intros j a; rewrite zget_nil; discriminate|]. split; [intros j e; rewrite zget_nil; discriminate|].
    split; [intros j k a b; rewrite zget_nil; discriminate|intros k e; rewrite zget_nil; discriminate].
  - destruct IH as (ps & H1 & H2 & H3 & H4 & H5). exists (n :: ps). rewrite !zlen_cons. split; [lia|]. split; [|split; [|split]].
    + intros j a. rewrite !zget_cons. destruct (j =? 0); auto.
    + intros j e. rewrite !zget_cons. destruct (Z.eqb_spec j 0).
      * intros E. exists n. inversion E; subst. replace (n - n) with 0 by lia. split; [reflexivity|]. split; [lia|reflexivity].
      * intros E. destruct (H3 _ _ E) as (a & A1 & A2 & A3). exists a. split; [exact A1|]. split; [lia|]. rewrite zget_cons.
        destruct (Z.eqb_spec (a - n) 0); [lia|]. replace (a - n - 1) with (a - (n + 1)) by lia. exact A3.
    + intros j k a b. rewrite !zget_cons. destruct (Z.eqb_spec j 0), (Z.eqb_spec k 0); intros Ea Eb Hjk; try lia.
      * inversion Ea; subst. assert (Hk : 0 <= k - 1 < zlen pl) by (rewrite <- H1; eapply zget_range; eauto).
        destruct (zget_lt _ _ Hk) as [e Ee]. destruct (H3 _ _ Ee) as (a' & A1 & A2 & _). assert (a' = b) by congruence. lia.
      * apply zget_range in Ea. lia.
      * apply (H4 (j - 1) (k - 1)); auto. lia.
    + intros k e. rewrite zget_cons. destruct (Z.eqb_spec k 0).
      * intros _. left. exists 0. rewrite zget_cons. cbn. f_equal. lia.
      * intros E. destruct (H5 _ _ E) as [(j & Ej)|(c' & Hc & ->)]; [left|right; exists c'; split; [right; exact Hc|reflexivity]].
        exists (j + 1). rewrite zget_cons. apply zget_range in Ej as Hj. destruct (Z.eqb_spec (j + 1) 0); [lia|].
        replace (j + 1 - 1) with j by lia. rewrite Ej. f_equal. lia.
  - destruct IH as (ps & H1 & H2 & H3 & H4 & H5). exists ps. split; [exact H1|]. split; [exact H2|]. split; [|split; [exact H4|]].
    + intros j e E. destruct (H3 _ _ E) as (a & A1 & A2 & A3). exists a. split; [exact A1|]. split; [lia|]. rewrite zget_cons.
      destruct (Z.eqb_spec (a - n) 0); [lia|]. replace (a - n - 1) with (a - (n + 1)) by lia. exact A3.
    + intros k e. rewrite zget_cons. destruct (Z.eqb_spec k 0).
      * intros E. inversion E; subst. right. exists c. split; [left; reflexivity|reflexivity].
      * intros E. destruct (H5 _ _ E) as [(j & Ej)|(c' & Hc & ->)]; [left|right; exists c'; split; [right; exact Hc|reflexivity]].
        exists j. rewrite Ej. f_equal. lia.
Qed.

Lemma paddedBy_id l : paddedBy (fun j => j) l l.
Proof. split; [auto|]. split; [intros; lia|]. intros k e E. left. exists k. split; [eapply zget_range; eauto|reflexivity]. Qed.

Lemma expand_padded L cf p q : (forall x cl c, zget (cf_mlists cf) x = Some cl -> In c cl -> ce_types c <> []) ->
  expandProcess L cf p = Some q -> exists pos, paddedBy pos (pr_ml p) (pr_ml q) /\
    pr_idmoves q = map (fun ab : Z * Z => (pos (fst ab), pos (snd ab))) (pr_idmoves p).
Proof.
  intros HT H. assert (Hid : forall r, r = p -> exists pos, paddedBy pos (pr_ml p) (pr_ml r) /\
    pr_idmoves r = map (fun ab : Z * Z => (pos (fst ab), pos (snd ab))) (pr_idmoves p)).
  { intros r ->. exists (fun j => j). split; [apply paddedBy_id|]. rewrite <- (map_id (pr_idmoves p)) at 1. apply map_ext. intros []; reflexivity. }
  unfold expandProcess in H. destruct (pr_basis p) as [|b [|b' l]]; try (apply Hid; congruence).
  ob H as index Ei. ob H as cl Ecl. destruct (insertWildcards (lt_unit L) (pr_ml p) cl 0) as [l mapping] eqn:EI.
  ob H as idm Eid. inversion H; subst. cbn [set_ml pr_ml pr_idmoves].
  pose proof (insert_padded (lt_unit L) cl (pr_ml p) 0) as HP. rewrite EI in HP. cbn [fst snd] in HP.
  destruct (padded_pos _ _ _ _ _ HP) as (ps & H1 & H2 & H3 & H4 & H5).
  exists (fun j => match zget ps j with Some a => a | None => 0 end). split.
  - split; [|split].
    + intros j e E. destruct (H3 j e E) as (a & -> & _ & A). rewrite Z.sub_0_r in A. exact A.
    + intros j k Hjk Hk. destruct (zget_lt ps j) as [a Ea]; [lia|]. destruct (zget_lt ps k) as [c Ec]; [lia|]. rewrite Ea, Ec. eapply H4; eauto. lia.
    + intros k e E. destruct (H5 k e E) as [(j & Ej)|(c & Hc & ->)].
      * left. exists j. apply zget_range in Ej as Hj. split; [lia|]. rewrite Ej. lia.
      * right. apply inert_init. eapply HT; eauto.
  - clear -H2 Eid. revert idm Eid. induction (pr_idmoves p) as [|[a b] ms IH]; intros idm Eid; cbn [omap] in Eid; [inversion Eid; reflexivity|].
    ob Eid as ab Eab. ob Eid as r Er. inversion Eid; subst. cbn [map fst snd]. cbn [fst snd] in Eab.
    ob Eab as a' Ea. ob Eab as b' Eb. inversion Eab; subst. rewrite (H2 _ _ Ea), (H2 _ _ Eb). f_equal. apply IH. exact Er.
Qed.

Lemma reachable_padded ranks hash L cf it md i p p' : wfInput ranks L cf it -> reachable ranks hash L cf it md ->
  (forall t, In t (cf_types cf) -> t <> []) -> zget (in_procs it) i = Some p -> zget (in_procs (md_in md)) i = Some p' ->
  exists pos, paddedBy pos (pr_ml p) (pr_ml p') /\ pr_idmoves p' = map (fun ab : Z * Z => (pos (fst ab), pos (snd ab))) (pr_idmoves p).
Proof.
  intros WI HR HT Ep Ep'. destruct (reachable_info _ _ _ _ _ _ WI HR) as (cf1 & it2 & RI).
  destruct (reachable_proc _ _ _ _ _ _ _ _ _ _ RI Ep') as (p2 & q & Ep2 & Eq & Hs & HQ). assert (p2 = p) by congruence. subst p2.
  apply pstatic_fields in Hs. destruct Hs as (_ & _ & _ & _ & _ & _ & -> & _ & -> & _).
  destruct HQ as [->|[_ HQ]].
  - exists (fun j => j). split; [apply paddedBy_id|]. cbn [clearSites set_sites pr_idmoves]. rewrite <- (map_id (pr_idmoves p)) at 1. apply map_ext. intros []; reflexivity.
  - change (pr_ml p) with (pr_ml (clearSites p)). change (pr_idmoves p) with (pr_idmoves (clearSites p)). eapply expand_padded; [|exact HQ].
    intros x cl c Ecl Hc. assert (Hx : 0 <= x < zlen (cf_types cf)).
    { destruct (initMatchLists_fields _ _ _ _ (ri_init _ _ _ _ _ _ _ _ RI)) as (mls & n & E & _ & E1). rewrite E1 in Ecl. cbn [set_moved set_mlists cf_mlists] in Ecl.
      apply zget_range in Ecl. rewrite (omap_zlen _ _ _ E), zlen_zrange in Ecl. lia. }
    rewrite (initMatchLists_at _ _ _ _ x (ri_init _ _ _ _ _ _ _ _ RI) Hx) in Ecl. rewrite (wi_types _ _ _ _ WI) in Hx.
    destruct (scratchML_In L (maxRange it) cf x cl c) as (? & ? & _ & _ & _ & _ & E & _); auto; [apply WI|pose proof (maxRange_pos it); lia|].
    apply HT. eapply zget_In; eauto.
Qed.

(** the padded list matches exactly when the original entries match at their new positions *)
Lemma padded_match S pos l l' cl : paddedBy pos l l' ->
  (whateverMatch S l' cl = Some true <-> zlen l' <= zlen cl /\
     forall j e c, zget l j = Some e -> zget cl (pos j) = Some c -> peMatch S e c = Some true).
Proof.
  intros (H1 & H2 & H3). rewrite whatever_true. unfold zlen. split; intros [A B]; (split; [lia|]).
  - intros j e c Ej Ec. eapply B; eauto.
  - intros k e c Ek Ec. destruct (H3 k e Ek) as [(j & Hj & <-)|HI].
    + destruct (zget_lt _ _ Hj) as [e' Ee]. assert (e' = e) by (apply H1 in Ee; congruence). subst. eapply B; eauto.
    + apply peMatch_true. left. apply HI.
Qed.
