(** The effect of a step on occupations and labels, in terms of the process given by the user. *)
From Coq Require Import Sorted.
From Verif Require Import PBase SModel SGeo PLattice PProcess PMpi PRateTable PMatcher PPerform PStep PGeo PPossible PRun.
Open Scope Z_scope.
Open Scope list_scope.

Lemma NoDup_zget_inj {A} (l : list A) i j a : NoDup l -> zget l i = Some a -> zget l j = Some a -> i = j.
Proof.
  intros ND. revert i j. induction ND as [|b l Hn ND IH]; intros i j; [rewrite zget_nil; discriminate|]. rewrite !zget_cons.
  destruct (Z.eqb_spec i 0), (Z.eqb_spec j 0); intros E1 E2; subst; auto.
  - inversion E1; subst. exfalso. apply Hn. eapply zget_In; eauto.
  - inversion E2; subst. exfalso. apply Hn. eapply zget_In; eauto.
  - specialize (IH _ _ E1 E2). lia.
Qed.

(** ** active entries *)
Lemma isActive_iff u : zget u 0 = Some 0 -> (isActive u = true <-> 0 < zsum (map Z.abs u)).
Proof.
  intros E. unfold isActive, activeEntry, bget. destruct (Z.ltb_spec 0 (zsum (map Z.abs u))) as [H|H].
  - rewrite E. cbn. tauto.
  - split; [discriminate|lia].
Qed.
Lemma zsum_abs_zero_iff u : zsum (map Z.abs u) <= 0 -> forall k b, zget u k = Some b -> b = 0.
Proof.
  induction u as [|a u IH]; intros H k b E; [rewrite zget_nil in E; discriminate|].
  cbn [map] in H. rewrite zsum_cons in H.
  assert (0 <= zsum (map Z.abs u)) by (apply zsum_nonneg; intros v Hv; apply in_map_iff in Hv; destruct Hv as (w & <- & _); lia).
  rewrite zget_cons in E. destruct (k =? 0); [inversion E; lia|]. eapply IH; eauto. lia.
Qed.

Lemma activeList_In pl sl x : In x (activeList pl sl) <->
  exists k, zget pl k = Some (fst x) /\ zget sl k = Some (snd x) /\ isActive (pe_upd (fst x)) = true.
Proof.
  unfold activeList. rewrite filter_In. split.
  - intros [H1 H2]. apply In_zget in H1. destruct H1 as [k Ek]. exists k. revert sl k Ek.
    induction pl as [|e pl IH]; intros sl k Ek; [cbn [combine] in Ek; rewrite zget_nil in Ek; discriminate|].
    destruct sl as [|c sl]; [cbn [combine] in Ek; rewrite zget_nil in Ek; discriminate|]. cbn [combine] in Ek.
    rewrite zget_cons in Ek. rewrite !zget_cons. destruct (k =? 0); [inversion Ek; subst; auto|]. apply IH. exact Ek.
  - intros (k & E1 & E2 & E3). split; [|exact E3]. destruct x as [e c]. cbn [fst snd] in *. revert sl k E1 E2.
    induction pl as [|e' pl IH]; intros sl k E1 E2; [rewrite zget_nil in E1; discriminate|].
    destruct sl as [|c' sl]; [rewrite zget_nil in E2; discriminate|]. cbn [combine].
    rewrite zget_cons in E1. rewrite zget_cons in E2. destruct (k =? 0); [inversion E1; inversion E2; left; reflexivity|]. right. eapply IH; eauto.
Qed.
Lemma combine_snd_In {A B} (l : list A) : forall (m : list B) x, In x (combine l m) -> In (snd x) m.
Proof. intros m [a b] H. eapply in_combine_r; eauto. Qed.
Lemma atSite_le1 y pl : forall sl, NoDup (map ce_index sl) -> (length (atSite y (activeList pl sl)) <= 1)%nat.
Proof.
  unfold atSite, activeList. induction pl as [|e pl IH]; intros sl ND; [cbn; lia|].
  destruct sl as [|c sl]; [cbn; lia|]. cbn [map] in ND. inversion ND; subst. cbn [combine filter fst].
  destruct (isActive (pe_upd e)); [|apply IH; auto]. cbn [filter snd]. destruct (Z.eqb_spec (ce_index c) y) as [E|E]; [|apply IH; auto].
  cbn [length]. destruct (filter (fun x => ce_index (snd x) =? y) (filter _ (combine pl sl))) as [|x r] eqn:Ef; [cbn; lia|]. exfalso.
  assert (Hx : In x (x :: r)) by (left; reflexivity). rewrite <- Ef in Hx. apply filter_In in Hx. destruct Hx as [Hx Hy].
  apply filter_In in Hx. destruct Hx as [Hx _]. apply combine_snd_In in Hx. apply H1. apply Z.eqb_eq in Hy. rewrite E, <- Hy. apply in_map. exact Hx.
Qed.
Lemma atSite_is y pl sl : NoDup (map ce_index sl) ->
  (atSite y (activeList pl sl) = [] /\ forall k e c, zget pl k = Some e -> zget sl k = Some c -> ce_index c = y -> isActive (pe_upd e) = false) \/
  exists k e c, atSite y (activeList pl sl) = [(e, c)] /\ zget pl k = Some e /\ zget sl k = Some c /\ ce_index c = y /\ isActive (pe_upd e) = true.
Proof.
  intros ND. pose proof (atSite_le1 y pl sl ND) as H1. destruct (atSite y (activeList pl sl)) as [|x [|x' r]] eqn:E; [left|right|cbn in H1; lia].
  - split; [reflexivity|]. intros k e c E1 E2 E3. destruct (isActive (pe_upd e)) eqn:Ea; [|reflexivity]. exfalso.
    assert (Hin : In (e, c) (atSite y (activeList pl sl))).
    { unfold atSite. apply filter_In. split; [apply activeList_In; exists k; auto|]. cbn [snd]. apply Z.eqb_eq. exact E3. }
    rewrite E in Hin. exact Hin.
  - assert (Hin : In x (atSite y (activeList pl sl))) by (rewrite E; left; reflexivity).
    unfold atSite in Hin. apply filter_In in Hin. destruct Hin as [H2 H3]. apply activeList_In in H2. destruct H2 as (k & A & B & C).
    destruct x as [e c]. cbn [fst snd] in *. exists k, e, c. apply Z.eqb_eq in H3. auto.
Qed.

(** ** identity updates *)
Lemma idUpdates_aid ups : forall cf cf', ofold applyIdUpdate ups cf = Some cf' -> NoDup (map snd ups) ->
  (forall id y, In (id, y) ups -> zget (cf_aid cf') y = Some id) /\
  (forall y, ~ In y (map snd ups) -> zget (cf_aid cf') y = zget (cf_aid cf) y).
Proof.
  induction ups as [|[id y] ups IH]; intros cf cf' H ND; cbn [ofold] in H.
  - inversion H; subst. split; [intros ? ? []|auto].
  - ob H as cf1 E. unfold applyIdUpdate in E. ob E as aid Ea. ob E as els Ee. ob E as e Ee0. ob E as ae Eae. inversion E; subst cf1; clear E.
    cbn [map snd] in ND. inversion ND; subst. destruct (IH _ _ H H3) as [A B]. cbn [set_ids cf_aid] in B. split.
    + intros id' y' [Heq|Hin]; [|auto]. inversion Heq; subst. rewrite B by auto. rewrite (zset_get _ _ _ _ y' Ea), Z.eqb_refl. reflexivity.
    + intros y' Hn. cbn [map snd] in Hn. rewrite B by (intros H0; apply Hn; right; exact H0). rewrite (zset_get _ _ _ _ y' Ea).
      destruct (Z.eqb_spec y' y); [exfalso; apply Hn; left; auto|reflexivity].
Qed.

(** ** effect on a site *)
Section Effect.
Context (L : lattice) (WF : wf_lattice L) (basis : list coord) (WB : wf_basis L basis).
Context (R W : Z) (p : process) (RG : regular L basis R W p).
Notation coords := (generateLatticeSites L basis).
Context (l : list pentry) (m : list Z) (sl g : list centry) (x : Z).
Context (AL : alignedAt (pr_ml p) l m sl) (SG : sortedGeo L basis R x g) (HG : geom sl = geom g).

Lemma sl_siteAt c : In c sl -> siteAt L coords x (ce_c c) (ce_index c).
Proof using SG HG.
  intros Hc. apply In_zget in Hc. destruct Hc as [i Ei]. destruct (geom_entry _ _ _ _ HG Ei) as (c' & Ec' & E1 & E2 & E3).
  apply zget_In in Ec'. rewrite <- E1, <- E3. eapply sg_siteAt; eauto.
Qed.
Lemma sl_nodup : NoDup (map ce_index sl).
Proof using SG HG. rewrite (geom_eq_index _ _ HG). apply SG. Qed.

(** the entry of the padded list at the position of an entry of the process *)
Lemma entry_at e y : In e (pr_ml p) -> siteAt L coords x (pe_c e) y ->
  exists k c, zget l k = Some e /\ zget sl k = Some c /\ ce_index c = y.
Proof using WF WB AL SG HG.
  intros He Hy. apply In_zget in He. destruct He as [j Ej]. destruct (al_orig _ _ _ _ AL j e Ej) as (k & c & _ & E2 & E3 & E4).
  exists k, c. split; [exact E2|]. split; [exact E3|]. pose proof (sl_siteAt c (zget_In _ _ _ E3)) as HA. rewrite E4 in HA.
  eapply siteAt_unique; eauto.
Qed.
Lemma active_orig k e c : zget l k = Some e -> zget sl k = Some c -> isActive (pe_upd e) = true ->
  In e (pr_ml p) /\ siteAt L coords x (pe_c e) (ce_index c).
Proof using AL SG HG.
  intros E1 E2 Ha. destruct (al_entry _ _ _ _ AL k e c E1 E2) as [[H1 H2]|(c0 & -> & _)].
  - split; [exact H1|]. rewrite H2. apply sl_siteAt. eapply zget_In; eauto.
  - exfalso. unfold isActive in Ha. rewrite inactive_init in Ha. discriminate.
Qed.
Lemma nodup_entry e e' : In e (pr_ml p) -> In e' (pr_ml p) -> pe_c e = pe_c e' -> e = e'.
Proof using RG.
  intros He He' E. pose proof (rg_nodup _ _ _ _ _ RG) as ND. revert He He' ND. generalize (pr_ml p). intros q.
  induction q as [|a q IH]; [intros []|]. cbn [map]. intros H1 H2 ND. inversion ND; subst.
  destruct H1 as [->|H1], H2 as [->|H2]; auto.
  - exfalso. apply H3. rewrite E. apply in_map; auto.
  - exfalso. apply H3. rewrite <- E. apply in_map; auto.
Qed.

Lemma types_effect (types types' : list bucket) : zlen types' = zlen types ->
  (forall y, zget types' y = (t <- zget types y ;; ofold applyUpdate (map (fun z => pe_upd (fst z)) (atSite y (activeList l sl))) t)) ->
  performed L coords p x types types'.
Proof using All.
  intros Hl HT. split; [exact Hl|]. intros y t Et.
  assert (Hr : 0 <= y < zlen types') by (rewrite Hl; eapply zget_range; eauto).
  destruct (zget_lt _ _ Hr) as [t' Et']. exists t'. split; [exact Et'|].
  specialize (HT y). rewrite Et, Et' in HT. cbn [obind] in HT.
  destruct (atSite_is y l sl sl_nodup) as [[EA HN]|(k & e & c & EA & E1 & E2 & E3 & E4)]; rewrite EA in HT; cbn [map ofold fst] in HT.
  - inversion HT; subst t'. split; [|reflexivity]. intros e He Hy. destruct (entry_at e y He Hy) as (k & c & E1 & E2 & E3).
    specialize (HN k e c E1 E2 E3). split; [reflexivity|]. intros j a b Ea Eb.
    assert (b = 0); [|subst; rewrite Z.add_0_r; exact Ea]. eapply zsum_abs_zero_iff; eauto.
    destruct (Z_lt_le_dec 0 (zsum (map Z.abs (pe_upd e)))) as [Hlt|]; [|lia].
    apply (isActive_iff _ (rg_upd0 _ _ _ _ _ RG e He)) in Hlt. congruence.
  - destruct (active_orig k e c E1 E2 E4) as [He Hs]. rewrite E3 in Hs.
    assert (HU : applyUpdate t (pe_upd e) = Some t') by (destruct (applyUpdate t (pe_upd e)); [exact (eq_sym HT)|discriminate]).
    split.
    + intros e' He' Hy. destruct (entry_at e' y He' Hy) as (k' & c' & F1 & F2 & F3).
      assert (k' = k).
      { eapply (NoDup_zget_inj (map ce_index sl)); [apply sl_nodup|rewrite zget_map, F2; reflexivity|rewrite zget_map, E2; simpl; congruence]. }
      subst k'. assert (e' = e) by congruence. subst e'. split; [eapply applyUpdate_len; eauto|].
      intros j a b Ea Eb. eapply applyUpdate_get; eauto.
    + intros HN. exfalso. apply (HN e He Hs).
Qed.

Lemma ids_effect (idm : list (Z * Z)) cf1 ups cf' :
  omap (fun ab : Z * Z => a <- zget m (fst ab) ;; b <- zget m (snd ab) ;; Some (a, b)) (pr_idmoves p) = Some idm ->
  idUpdates cf1 sl idm = Some ups -> ofold applyIdUpdate ups cf1 = Some cf' ->
  NoDup (map snd (pr_idmoves p)) -> (forall a b, In (a, b) (pr_idmoves p) -> 0 <= b < zlen (pr_ml p) /\ 0 <= a < zlen (pr_ml p)) ->
  relabelled L coords p x (cf_aid cf1) (cf_aid cf').
Proof using All.
  intros Eidm Eups Eid ND Hrng.
  (* every identity move gives one update *)
  assert (HM : forall a b, In (a, b) (pr_idmoves p) -> exists ea eb ca cb id,
      zget (pr_ml p) a = Some ea /\ zget (pr_ml p) b = Some eb /\ In ca sl /\ In cb sl /\ ce_c ca = pe_c ea /\ ce_c cb = pe_c eb /\
      zget (cf_aid cf1) (ce_index ca) = Some id /\ In (id, ce_index cb) ups).
  { intros a b Hab. destruct (Hrng a b Hab) as [Hb Ha]. destruct (zget_lt _ _ Ha) as [ea Ea]. destruct (zget_lt _ _ Hb) as [eb Eb].
    destruct (al_orig _ _ _ _ AL a ea Ea) as (ia & ca & A1 & A2 & A3 & A4). destruct (al_orig _ _ _ _ AL b eb Eb) as (ib & cb & B1 & B2 & B3 & B4).
    destruct (omap_In_l _ _ _ _ Eidm Hab) as (ab' & H1 & H2). cbn [fst snd] in H2. rewrite A1, B1 in H2. cbn [obind] in H2. inversion H2; subst ab'.
    unfold idUpdates in Eups. destruct (omap_In_l _ _ _ _ Eups H1) as (u & H3 & H4). cbn [fst snd] in H4. rewrite A3, B3 in H4. cbn [obind] in H4.
    ob H4 as id Eid0. inversion H4; subst u. exists ea, eb, ca, cb, id. repeat split; auto; eapply zget_In; eauto. }
  assert (HI : forall id y, In (id, y) ups -> exists a b eb cb, In (a, b) (pr_idmoves p) /\ zget (pr_ml p) b = Some eb /\ In cb sl /\ ce_c cb = pe_c eb /\ y = ce_index cb).
  { intros id y Hin. unfold idUpdates in Eups. destruct (omap_In _ _ _ _ Eups Hin) as (ab' & H1 & H2).
    destruct (omap_In _ _ _ _ Eidm H1) as ([a b] & H3 & H4). cbn [fst snd] in H4. exists a, b.
    destruct (Hrng a b H3) as [Hb Ha]. destruct (zget_lt _ _ Hb) as [eb Eb]. destruct (al_orig _ _ _ _ AL b eb Eb) as (ib & cb & B1 & B2 & B3 & B4).
    ob H4 as a' Ea'. rewrite B1 in H4. cbn [obind] in H4. inversion H4; subst ab'. cbn [fst snd] in H2. ob H2 as f Ef. rewrite B3 in H2. cbn [obind] in H2.
    ob H2 as id0 Ei. inversion H2; subst. exists eb, cb. repeat split; auto. eapply zget_In; eauto. }
  assert (NDU : NoDup (map snd ups)).
  { unfold idUpdates in Eups. clear HM HI Eid. revert idm ups Eidm Eups ND Hrng. generalize (pr_idmoves p). intros ms.
    induction ms as [|[a b] ms IH]; intros idm ups Eidm Eups ND Hrng; cbn [omap] in Eidm.
    - inversion Eidm; subst. cbn [omap] in Eups. inversion Eups. constructor.
    - ob Eidm as ab Eab. ob Eidm as r Er. inversion Eidm; subst idm; clear Eidm. cbn [omap] in Eups. ob Eups as u Eu. ob Eups as us Eus. inversion Eups; subst ups; clear Eups.
      cbn [map snd] in ND. inversion ND; subst. cbn [map]. constructor; [|eapply IH; eauto; intros; apply Hrng; right; auto].
      intros Hin. apply in_map_iff in Hin. destruct Hin as ([id' y'] & Hy & Hin). cbn [snd] in Hy.
      destruct (omap_In _ _ _ _ Eus Hin) as (ab' & H3 & H4). destruct (omap_In _ _ _ _ Er H3) as ([a' b'] & H5 & H6).
      destruct (Hrng a b (or_introl eq_refl)) as [Hb _]. destruct (Hrng a' b' (or_intror H5)) as [Hb' _].
      destruct (zget_lt _ _ Hb) as [eb Eb]. destruct (zget_lt _ _ Hb') as [eb' Eb'].
      destruct (al_orig _ _ _ _ AL b eb Eb) as (ib & cb & B1 & B2 & B3 & B4). destruct (al_orig _ _ _ _ AL b' eb' Eb') as (ib' & cb' & C1 & C2 & C3 & C4).
      cbn [fst snd] in Eab, H6. ob Eab as a1 Ea1. rewrite B1 in Eab. cbn [obind] in Eab. inversion Eab; subst ab.
      ob H6 as a2 Ea2. rewrite C1 in H6. cbn [obind] in H6. inversion H6; subst ab'. cbn [fst snd] in Eu, H4.
      ob Eu as f1 Ef1. rewrite B3 in Eu. cbn [obind] in Eu. ob Eu as d1 Ed1. inversion Eu; subst u. ob H4 as f2 Ef2. rewrite C3 in H4. cbn [obind] in H4. ob H4 as d2 Ed2. inversion H4; subst.
      cbn [snd] in *. assert (ib' = ib).
      { eapply (NoDup_zget_inj (map ce_index sl)); [apply sl_nodup|rewrite zget_map, C3; reflexivity|rewrite zget_map, B3; simpl; congruence]. }
      subst ib'. assert (cb' = cb) by congruence. subst cb'. assert (eb' = eb) by congruence. subst eb'.
      assert (b' = b).
      { eapply (NoDup_zget_inj (map pe_c (pr_ml p))); [apply (rg_nodup _ _ _ _ _ RG)|rewrite zget_map, Eb'; reflexivity|rewrite zget_map, Eb; reflexivity]. }
      subst b'. apply H1. change b with (snd (a', b)). apply in_map. exact H5. }
  destruct (idUpdates_aid _ _ _ Eid NDU) as [A B]. destruct (idUpdates_frame _ _ _ Eid) as (F & _).
  split; [apply F|]. split.
  - intros a b ea eb ya yb Hab Ea Eb Sa Sb. destruct (HM a b Hab) as (ea' & eb' & ca & cb & id & M1 & M2 & M3 & M4 & M5 & M6 & M7 & M8).
    assert (ea' = ea) by congruence. assert (eb' = eb) by congruence. subst ea' eb'.
    pose proof (sl_siteAt ca M3) as Ha. pose proof (sl_siteAt cb M4) as Hb. rewrite M5 in Ha. rewrite M6 in Hb.
    assert (ya = ce_index ca) by (eapply siteAt_unique; eauto). assert (yb = ce_index cb) by (eapply siteAt_unique; eauto). subst.
    rewrite (A _ _ M8). symmetry. exact M7.
  - intros y Hy. apply B. intros Hin. apply in_map_iff in Hin. destruct Hin as ([id y'] & E & Hin). cbn [snd] in E. subst y'.
    destruct (HI id y Hin) as (a & b & eb & cb & H1 & H2 & H3 & H4 & ->). apply (Hy a b eb H1 H2). rewrite <- H4. apply sl_siteAt. exact H3.
Qed.
End Effect.

(** ** one step of a reachable model *)
Lemma pickSite_In p u x : pickSite p u = Some x -> In x (pr_sites p).
Proof. unfold pickSite. intros H. ob H as tot E1. ob H as pos E2. eapply zget_In; eauto. Qed.

Record stepOf (it : interactions) (md : model) (u1 u2 : deviate) (md' : model) (i : Z) (p p' : process) (x : Z)
              (sl : list centry) (cf1 cfl : config) (p1 : process) (aff : list Z) (ups : list (Z * Z)) : Prop := {
  so_orig : zget (in_procs it) i = Some p;
  so_proc : zget (in_procs (md_in md)) i = Some p';
  so_pick : pickProcessIndex (md_in md) u1 = Some i;
  so_site : exists q, updateRateTable p' = Some q /\ pickSite q u2 = Some x;
  so_listed : listed md i x;
  so_range : 0 <= x < nsites (md_lat md);
  so_last : cf_lastproc (md_cf md') = pr_number p /\ cf_lastsite (md_cf md') = x;
  so_fx : exists q, pr_ml q = pr_ml p' /\ pr_idmoves q = pr_idmoves p' /\ pr_aff q = pr_aff p' /\ performFx (md_cf md) q x cf1 p1 sl cfl aff ups;
  so_cf : exists mls, md_cf md' = set_mlists cf1 mls }.

Lemma step_of ranks hash L cf it md cf0 it2 u1 u2 md' : wfInput ranks L cf it -> reachInfo ranks hash L cf it md cf0 it2 ->
  singleStep md u1 u2 = Some md' -> exists i p p' x sl cf1 cfl p1 aff ups, stepOf it md u1 u2 md' i p p' x sl cf1 cfl p1 aff ups.
Proof.
  intros WI RI H. pose proof (ri_inv _ _ _ _ _ _ _ _ RI) as IV.
  destruct (singleStep_info _ _ _ _ H) as (i & p' & x & cf1 & p1 & SI & it1 & _ & _ & _ & _ & mt' & it' & cf' & CM & ->).
  destruct SI as (Ei & Ep' & q & Eq & Ex & Eperf & _).
  destruct (reachable_proc _ _ _ _ _ _ _ _ _ _ RI Ep') as (p & q2 & Ep & Eq2 & Hs & HQ).
  destruct (perform_spec _ _ _ _ _ Eperf) as (sl & cfl & aff & ups & PX).
  destruct (updateRateTable_spec _ _ Eq) as (inc & Einc).
  destruct (calculateMatching_cf _ _ _ _ _ _ _ _ CM) as [mls Emls].
  exists i, p, p', x, sl, cf1, cfl, p1, aff, ups.
  assert (HL : listed md i x).
  { pose proof (pickSite_In _ _ _ Ex) as Hin. rewrite Einc in Hin. cbn [set_inc pr_sites] in Hin.
    pose proof (bi_proc _ _ (iv_binv _ IV) i p' Ep') as PI. destruct (sites_in_events p' x PI Hin) as [r Hr]. exists r, p'. auto. }
  assert (HN : pr_number p' = pr_number p).
  { apply pstatic_fields in Hs. destruct Hs as (_ & _ & -> & _).
    destruct HQ as [->|[_ HQ]]; [reflexivity|]. apply expand_fields in HQ. destruct HQ as (_ & _ & -> & _). reflexivity. }
  constructor; auto.
  - exists q. auto.
  - destruct HL as [r Hr]. apply (iv_evt _ IV) in Hr. apply Hr.
  - cbn [md_cf]. rewrite Emls. cbn [set_mlists cf_lastproc cf_lastsite].
    destruct (idUpdates_frame _ _ _ (px_idu _ _ _ _ _ _ _ _ _ PX)) as (_ & _ & _ & _ & _ & _ & _ & -> & ->).
    destruct (lx_last _ _ _ _ _ _ _ (px_loop _ _ _ _ _ _ _ _ _ PX)) as [-> ->]. cbn [set_event cf_lastproc cf_lastsite].
    rewrite Einc. cbn [set_inc pr_number]. auto.
  - exists q. rewrite Einc at 1 2 3. cbn [set_inc pr_ml pr_idmoves pr_aff]. auto.
  - exists mls. exact Emls.
Qed.

Lemma step_performed ranks hash L basis W cf it md cf0 it2 u1 u2 md' i p p' x sl cf1 cfl p1 aff ups :
  wfInput ranks L cf it -> geoInput L basis (maxRange it) W cf -> in_wild it = true ->
  reachInfo ranks hash L cf it md cf0 it2 -> stepOf it md u1 u2 md' i p p' x sl cf1 cfl p1 aff ups ->
  regular L basis (maxRange it) W p ->
  performed L (cf_coords (md_cf md)) p x (cf_types (md_cf md)) (cf_types (md_cf md')) /\
  (idmovesOK p -> relabelled L (cf_coords (md_cf md)) p x (cf_aid (md_cf md)) (cf_aid (md_cf md'))) /\
  exists g m, sortedGeo L basis (maxRange it) x g /\ geom sl = geom g /\ alignedAt (pr_ml p) (pr_ml p') m sl /\
    basisSiteFromIndex L x = hd 0 (pr_basis p) /\
   omap (fun ab : Z * Z => a <- zget m (fst ab) ;; b <- zget m (snd ab) ;; Some (a, b)) (pr_idmoves p) = Some (pr_idmoves p').
Proof.
  intros WI GI HWild RI SO RG. destruct SO. destruct so_fx0 as (q & Eml & Eidm & Eaff & PX). destruct so_cf0 as [mls Ecf'].
  pose proof (ri_inv _ _ _ _ _ _ _ _ RI) as IV. pose proof (ri_lat _ _ _ _ _ _ _ _ RI) as EL. rewrite EL in *.
  destruct so_listed0 as [r Hr]. apply (iv_evt _ IV) in Hr. rewrite EL in Hr. destruct Hr as [Hx HP].
  destruct HP as (p3 & E3 & Hb3). assert (p3 = p') by congruence. subst p3.
  assert (HU : usedBy L (md_in md) x) by (exists i, p'; auto).
  destruct (scratch_at _ _ _ _ _ _ _ _ _ WI RI Hx HU) as (cl & g & M1 & M2 & M3 & M4 & _).
  assert (cl = sl) by (pose proof (px_sl _ _ _ _ _ _ _ _ _ PX); congruence). subst cl.
  rewrite (gi_coords _ _ _ _ _ GI) in M2.
  assert (Hbas : pr_basis p' = pr_basis p).
  { destruct (reachable_proc _ _ _ _ _ _ _ _ _ _ RI so_proc0) as (p4 & q4 & Ep4 & Eq4 & Hs & HQ). assert (p4 = p) by congruence. subst p4.
    apply pstatic_fields in Hs. destruct Hs as (_ & _ & _ & _ & _ & _ & _ & -> & _).
    destruct HQ as [->|[_ HQ]]; [reflexivity|]. apply expand_fields in HQ. destruct HQ as (_ & _ & _ & _ & _ & _ & _ & _ & _ & _ & _ & -> & _). reflexivity. }
  rewrite Hbas in Hb3.
  destruct (reachable_aligned _ _ _ _ _ _ _ _ _ _ _ _ _ _ _ _ WI GI HWild RI so_orig0 RG so_proc0 Hx Hb3 M2 M3) as (SG & m & AL & Em).
  rewrite (ri_coords _ _ _ _ _ _ _ _ RI), (gi_coords _ _ _ _ _ GI). rewrite Ecf'. cbn [set_mlists cf_types cf_aid].
  pose proof (px_loop _ _ _ _ _ _ _ _ _ PX) as LX. rewrite Eml in LX.
  split; [|split].
  - eapply types_effect with (R := maxRange it) (W := W) (m := m); eauto; [apply WI|apply GI| |].
    + apply (pf_lt _ _ (px_frame _ _ _ _ _ _ _ _ _ PX)).
    + intros y. rewrite (px_types _ _ _ _ _ _ _ _ _ PX). rewrite (lx_types _ _ _ _ _ _ _ LX). reflexivity.
  - intros [ND Hrng]. replace (cf_aid (md_cf md)) with (cf_aid cfl) by (rewrite (lx_aid _ _ _ _ _ _ _ LX); reflexivity).
    eapply ids_effect with (R := maxRange it) (W := W); eauto; [apply WI|apply GI| |].
    + rewrite <- Eidm. apply PX.
    + apply PX.
  - exists g, m. split; [exact SG|]. split; [exact M3|]. split; [exact AL|]. split; [|exact Em].
    destruct (rg_basis _ _ _ _ _ RG) as (b & Hb & _). rewrite Hb in *. destruct Hb3 as [<-|[]]. reflexivity.
Qed.
