(** Events of plain processes, and what they preserve. *)
From Verif Require Import PBase SModel SGeo SEvent SBuild SPlain PLattice PProcess PMpi PRateTable PMatcher PPerform PStep PGeo PPossible PRun PEffect PRematch PEvent PBuild PPlain.
Open Scope string_scope.
Open Scope list_scope.
Open Scope Z_scope.

Lemma combine_get {A B} (l : list A) (m : list B) i a b : zget (combine l m) i = Some (a, b) <-> zget l i = Some a /\ zget m i = Some b.
Proof.
  revert m i. induction l as [|x l IH]; intros [|y m] i; cbn [combine]; rewrite ?zget_nil, ?zget_cons; try (split; [intros H; try discriminate|intros [H1 H2]; discriminate]).
  destruct (Z.eqb_spec i 0).
  - split; [intros H; inversion H; auto|intros [H1 H2]; congruence].
  - apply IH.
Qed.
(** the list ys, which runs along l', rearranged to run along l *)
Lemma along {A B} (l l' : list A) (ys : list B) : Permutation l' l -> zlen ys = zlen l' ->
  exists zs, zlen zs = zlen l /\ Permutation zs ys /\
   (forall i e y, zget l i = Some e -> zget zs i = Some y -> exists j, zget l' j = Some e /\ zget ys j = Some y) /\
   (forall j e y, zget l' j = Some e -> zget ys j = Some y -> exists i, zget l i = Some e /\ zget zs i = Some y).
Proof.
  intros HP HL. set (c := combine l' ys).
  assert (HF : forall (a : list A) (b : list B), zlen b = zlen a -> map fst (combine a b) = a /\ map snd (combine a b) = b).
  { clear. induction a as [|x a IH]; intros [|y b] H; try (unfold zlen in H; cbn in H; lia); [split; reflexivity|].
    rewrite !zlen_cons in H. destruct (IH b) as [H1 H2]; [lia|]. cbn. rewrite H1, H2. auto. }
  destruct (HF l' ys HL) as [F1 F2]. assert (HP2 : Permutation l (map fst c)) by (unfold c; rewrite F1; apply Permutation_sym; exact HP).
  apply Permutation_map_inv in HP2. destruct HP2 as (d & Ed & HPd). exists (map snd d).
  split; [subst l; rewrite !zlen_map; reflexivity|]. split; [unfold c in HPd; rewrite <- F2; apply Permutation_map; apply Permutation_sym; exact HPd|].
  split.
  - intros i e y E1 E2. subst l. rewrite zget_map in E1. rewrite zget_map in E2. destruct (zget d i) as [[e' y']|] eqn:Ei; [|discriminate]. cbn in E1, E2. inversion E1; inversion E2; subst.
    apply zget_In in Ei. apply (Permutation_in _ (Permutation_sym HPd)) in Ei. apply In_zget in Ei. destruct Ei as [j Ej]. exists j. apply combine_get in Ej. exact Ej.
  - intros j e y E1 E2. assert (Hin : In (e, y) c) by (apply (zget_In _ j); apply combine_get; auto). apply (Permutation_in _ HPd) in Hin. apply In_zget in Hin. destruct Hin as [i Ei].
    exists i. subst l. rewrite !zget_map, Ei. auto.
Qed.

(** what reachable configurations of a plain simulation have in common *)
Record plainCfg (pt : tmap) (cf : config) : Prop := {
  pc_pt : cf_ptypes cf = pt;
  pc_names : typeNamesOf pt = Some (cf_names cf);
  pc_singly : singly cf }.

Section RowEvent.
Context (L : lattice) (pt : tmap) (rows : list row) (basis : list Z) (p : process) (es : list pentry) (cf cf' : config) (x : Z) (ys : list Z).
Context (WP : wfPT pt) (PO : plainOf (lt_unit L) pt rows basis p es) (WR : wfRows rows) (HS : 0 < lt_unit L < 1000000).
Context (PC : plainCfg pt cf) (EP : cf_ptypes cf' = pt) (EF : eventFx L cf cf' p x ys) (LE : zlen (cf_elements cf) = zlen (cf_types cf)).
Context (LT : zlen (cf_types cf) = nsites L).

Let names := names_wf pt (cf_names cf) WP (pc_names _ _ PC).

Lemma row_event : exists zs, Permutation zs ys /\ rowEvent L cf cf' rows x zs.
Proof using WP PO WR HS PC EP EF LE LT.
  destruct (along es (pr_ml p) ys (ml_perm _ _ _ _ _ _ PO) (ef_len _ _ _ _ _ _ EF)) as (zs & ZL & ZP & Z1 & Z2).
  assert (R2E : forall i r y, zget rows i = Some r -> zget zs i = Some y -> exists j e, zget es i = Some e /\ entryFor pt r e /\ zget (pr_ml p) j = Some e /\ zget ys j = Some y).
  { intros i r y Er Ey. destruct (row_entry _ _ _ _ _ _ PO i r Er) as (e & Ee & F). destruct (Z1 i e y Ee Ey) as (j & J1 & J2). exists j, e. auto. }
  assert (E2R : forall j e y, zget (pr_ml p) j = Some e -> zget ys j = Some y -> exists i r, zget rows i = Some r /\ zget zs i = Some y /\ zget es i = Some e /\ entryFor pt r e).
  { intros j e y Ee Ey. destruct (Z2 j e y Ee Ey) as (i & I1 & I2). destruct (entry_row _ _ _ _ _ _ PO i e I1) as (r & Er & F). exists i, r. auto. }
  assert (MLI : forall j j' e e', zget (pr_ml p) j = Some e -> zget (pr_ml p) j' = Some e' -> pe_c e = pe_c e' -> j = j') by (intros; eapply ml_inj; eauto).
  assert (ND : NoDup zs) by (eapply Permutation_NoDup; [apply Permutation_sym; exact ZP|apply EF]).
  assert (HB : forall i r y, zget rows i = Some r -> zget zs i = Some y -> rw_before r <> "*" -> holds cf y (rw_before r)).
  { intros i r y Er Ey Hb. destruct (R2E i r y Er Ey) as (j & e & Ee & F & Ej & Eyj).
    destruct (ef_site _ _ _ _ _ _ EF j e y Ej Eyj) as [W|(cx0 & cy0 & d & t & A1 & A2 & A3 & A4 & A5 & A6)]; [apply (entry_wild _ WP _ _ F) in W; congruence|].
    destruct (pc_singly _ _ PC y) as [s Hs]; [apply zget_range in A5; exact A5|]. pose proof Hs as (S1 & k & t2 & S2 & S3 & S4). assert (t2 = t) by congruence. subst t2.
    destruct (en_kinds _ _ _ F) as (kb & ka & K1 & K2 & U1 & _). rewrite (pc_pt _ _ PC) in S2, S4.
    assert (kb = k) by (eapply contains_unit; [exact U1|exact S4|eapply tfind_range; eauto|exact A6]). subst k.
    assert (s = rw_before r) by (eapply tfind_inj; eauto). subst s. exact Hs. }
  assert (SAME : forall j e y, zget (pr_ml p) j = Some e -> zget ys j = Some y -> ~ changes e -> zget (cf_types cf') y = zget (cf_types cf) y /\ zget (cf_elements cf') y = zget (cf_elements cf) y).
  { intros j e y Ee Ey Hc. split.
    - destruct (ef_types _ _ _ _ _ _ EF j e y Ee Ey) as (t & t' & T1 & T2 & _ & T3). rewrite T1, T2. f_equal. apply T3. exact Hc.
    - apply (ef_elements_other _ _ _ _ _ _ EF). intros j' e' Ee' Ey'. assert (j' = j) by (eapply NoDup_zget_inj; [apply EF|exact Ey'|exact Ey]). subst. congruence. }
  assert (HA : forall i r y, zget rows i = Some r -> zget zs i = Some y -> rw_after r <> "*" -> holds cf' y (rw_after r)).
  { intros i r y Er Ey Ha. destruct (R2E i r y Er Ey) as (j & e & Ee & F & Ej & Eyj).
    assert (Hb : rw_before r <> "*") by (destruct WR as [_ HW]; intros Hb; apply Ha; apply (HW r); [eapply zget_In; eauto|exact Hb]).
    destruct (HB i r y Er Ey Hb) as (S1 & k & t & S2 & S3 & S4). rewrite (pc_pt _ _ PC) in S2, S4.
    destruct (en_kinds _ _ _ F) as (kb & ka & K1 & K2 & U1 & LU & UP). assert (k = kb) by congruence. subst k.
    destruct (ef_types _ _ _ _ _ _ EF j e y Ej Eyj) as (t0 & t' & T1 & T2 & [T3 T4] & T5). assert (t0 = t) by congruence. subst t0.
    assert (UA : unitAt (zlen pt) ka t').
    { destruct S4 as [W1 W2]. split; [unfold bucket in *; lia|]. intros q a Eq. apply zget_range in Eq as Hq.
      destruct (zget_lt t q) as [b Eb]; [unfold bucket in *; lia|]. destruct (zget_lt (pe_upd e) q) as [u Eu]; [unfold bucket in *; lia|].
      rewrite (T4 q b u Eb Eu) in Eq. apply W2 in Eb. apply UP in Eu. inversion Eq. lia. }
    split; [|exists ka, t'; rewrite EP; auto].
    destruct (string_dec (rw_before r) (rw_after r)) as [E|E].
    - destruct (SAME j e y Ej Eyj) as [_ SE]; [rewrite (entry_changes _ WP _ _ F); congruence|]. rewrite SE. congruence.
    - destruct (ef_elements _ _ _ _ _ _ EF j e y Ej Eyj) as (t2 & els & X1 & X2 & X3); [apply (entry_changes _ WP _ _ F); exact E|].
      assert (t2 = t') by congruence. subst t2. rewrite X3. rewrite <- X2. destruct names as [N1 N2]. eapply elementsOf_unit; eauto. }
  assert (ONE : forall i r y, zget rows i = Some r -> zget zs i = Some y -> exists s, zget (cf_elements cf') y = Some [s]).
  { intros i r y Er Ey. destruct (string_dec (rw_before r) (rw_after r)) as [E|E].
    - destruct (R2E i r y Er Ey) as (j & e & Ee & F & Ej & Eyj). destruct (SAME j e y Ej Eyj) as [_ SE]; [rewrite (entry_changes _ WP _ _ F); congruence|].
      destruct (pc_singly _ _ PC y) as (s & Hs & _); [rewrite LT; apply EF; eapply zget_In; eauto|]. exists s. congruence.
    - destruct (string_dec (rw_after r) "*") as [Ea|Ea].
      + exfalso. apply E. destruct WR as [_ HW]. rewrite Ea. apply (HW r); [eapply zget_In; eauto|exact Ea].
      + destruct (HA i r y Er Ey Ea) as [X _]. eauto. }
  assert (IDM : forall i r v y i' r' y', zget rows i = Some r -> zget zs i = Some y -> rw_move r = Some v -> zget rows i' = Some r' -> zget zs i' = Some y' -> rw_move r' <> None ->
      rw_c r' = cadd (rw_c r) v -> i <> i' -> exists a b, In (a, b) (pr_idmoves p) /\ zget ys a = Some y /\ zget ys b = Some y').
  { intros i r v y i' r' y' Er Ey Ev Er' Ey' Ev' Ec Hi. destruct (R2E i r y Er Ey) as (j & e & Ee & F & Ej & Eyj). destruct (R2E i' r' y' Er' Ey') as (j' & e' & Ee' & F' & Ej' & Eyj').
    exists j, j'. split; [|auto]. destruct (row_hasmove _ _ _ _ F Ev) as [M1 M2]. destruct (rw_move r') as [v'|] eqn:Ev2; [|congruence]. destruct (row_hasmove _ _ _ _ F' Ev2) as [M3 M4].
    eapply idm_In; eauto. exists e, e'. split; [exact Ej|]. split; [exact Ej'|]. split; [exact M1|]. split; [exact M3|]. split.
    - intros ->. assert (e = e') by congruence. subst e'. apply Hi. eapply es_inj; eauto.
    - rewrite M2, (en_c _ _ _ F), (en_c _ _ _ F'). exact Ec. }
  assert (IDR : forall a b ya yb, In (a, b) (pr_idmoves p) -> zget ys a = Some ya -> zget ys b = Some yb -> exists i r v i' r', zget rows i = Some r /\ zget zs i = Some ya /\ rw_move r = Some v /\
      zget rows i' = Some r' /\ zget zs i' = Some yb /\ rw_move r' <> None /\ rw_c r' = cadd (rw_c r) v /\ i <> i').
  { intros a b ya yb H Ea Eb. eapply idm_In in H; eauto. destruct H as (e & f & E1 & E2 & E3 & E4 & E5 & E6).
    destruct (E2R a e ya E1 Ea) as (i & r & I1 & I2 & I3 & I4). destruct (E2R b f yb E2 Eb) as (i' & r' & Q1 & Q2 & Q3 & Q4).
    exists i, r, (pe_move e), i', r'. split; [exact I1|]. split; [exact I2|]. split; [eapply hasmove_row; eauto|]. split; [exact Q1|]. split; [exact Q2|].
    split; [rewrite (hasmove_row _ _ _ Q4 E4); discriminate|]. split; [rewrite <- (en_c _ _ _ I4), <- (en_c _ _ _ Q4); exact E6|].
    intros <-. assert (e = f) by congruence. subst f. apply E5. eapply MLI; eauto. }
  exists zs. split; [exact ZP|]. constructor.
  - rewrite ZL. apply PO.
  - exact ND.
  - intros y Hy. apply EF. eapply Permutation_in; eauto.
  - intros i r y Er Ey Hb. destruct (R2E i r y Er Ey) as (j & e & Ee & F & Ej & Eyj).
    destruct (ef_site _ _ _ _ _ _ EF j e y Ej Eyj) as [W|(cx0 & cy0 & d & t & A1 & A2 & A3 & A4 & A5 & A6)]; [apply (entry_wild _ WP _ _ F) in W; congruence|].
    exists cx0, cy0, d. rewrite <- (en_c _ _ _ F). auto.
  - exact HB.
  - exact HA.
  - intros i r y Er Ey E. destruct (R2E i r y Er Ey) as (j & e & Ee & F & Ej & Eyj). apply (SAME j e y Ej Eyj). rewrite (entry_changes _ WP _ _ F). congruence.
  - intros y Hy. assert (Hn : ~ In y ys) by (intros H; apply Hy; eapply Permutation_in; [apply Permutation_sym; exact ZP|exact H]). split; [apply EF; exact Hn|].
    apply (ef_elements_other _ _ _ _ _ _ EF). intros j e _ Ey. exfalso. apply Hn. eapply zget_In; eauto.
  - intros MP i r v y i' r' y' Er Ey Ev Er' Ey' Ev' Ec. destruct (Z.eq_dec i i') as [<-|Hi].
    + assert (r' = r) by congruence. assert (y' = y) by congruence. subst r' y'. apply (ef_aid_other _ _ _ _ _ _ EF).
      intros a b Hab Hb. destruct (zget_lt ys a) as [ya Eya]; [rewrite (ef_len _ _ _ _ _ _ EF); eapply idm_In in Hab; eauto; destruct Hab as (e & f & E1 & _); eapply zget_range; eauto|].
      destruct (IDR a b ya y Hab Eya Hb) as (k & rk & vk & k' & rk' & K1 & K2 & K3 & K4 & K5 & K6 & K7 & K8).
      assert (k' = i) by (eapply NoDup_zget_inj; [exact ND|exact K5|exact Ey]). subst k'. assert (rk' = r) by congruence. subst rk'.
      apply K8. eapply movers_to_inj; eauto. congruence.
    + destruct (IDM i r v y i' r' y' Er Ey Ev Er' Ey' Ev' Ec Hi) as (a & b & A1 & A2 & A3). eapply (ef_aid _ _ _ _ _ _ EF); eauto. eapply idm_to; eauto.
  - intros MP y Hy. apply (ef_aid_other _ _ _ _ _ _ EF). intros a b Hab Hb.
    destruct (zget_lt ys a) as [ya Eya]; [rewrite (ef_len _ _ _ _ _ _ EF); eapply idm_In in Hab; eauto; destruct Hab as (e & f & E1 & _); eapply zget_range; eauto|].
    destruct (IDR a b ya y Hab Eya Hb) as (k & rk & vk & k' & rk' & K1 & K2 & K3 & K4 & K5 & K6 & K7 & K8). apply K6. eapply Hy; eauto.
  - intros NA i r y id c Er Ey Hne Eid Ec. destruct (R2E i r y Er Ey) as (j & e & Ee & F & Ej & Eyj).
    assert (shift r = pe_move e) by (pose proof (en_move _ _ _ F) as M; unfold shift; destruct (rw_move r); destruct M as [_ ->]; reflexivity).
    rewrite H. eapply (ef_coords _ _ _ _ _ _ EF); eauto. apply (entry_changes _ WP _ _ F). exact Hne.
  - intros id H. apply (ef_coords_other _ _ _ _ _ _ EF). intros j e y Ee Ey Hc. destruct (E2R j e y Ee Ey) as (i & r & I1 & I2 & I3 & I4). eapply H; eauto. apply (entry_changes _ WP _ _ I4). exact Hc.
  - intros NA i r v y i' r' y' id Er Ey Ev Er' Ey' Ev' Ec Hi Eid. destruct (IDM i r v y i' r' y' Er Ey Ev Er' Ey' Ev' Ec Hi) as (a & b & A1 & A2 & A3).
    destruct (ef_aidel_moved _ _ _ _ _ _ EF NA a b y y' id A1 A2 A3 Eid) as (els & s & X1 & X2 & X3). destruct (ONE i' r' y' Er' Ey') as [s' Es].
    assert (els = [s']) by congruence. subst els. assert (s = s') by (cbn in X2; inversion X2; reflexivity). subst s'. exists s. auto.
  - intros NA i r y id Er Ey Hne Hm Eid. destruct (R2E i r y Er Ey) as (j & e & Ee & F & Ej & Eyj).
    assert (Hf : pe_hasmove e = false) by (pose proof (en_move _ _ _ F) as M; rewrite Hm in M; apply M).
    destruct (ef_aidel_here _ _ _ _ _ _ EF NA j e y id Ej Eyj) as (els & s & X1 & X2 & X3); auto.
    { apply (entry_changes _ WP _ _ F); exact Hne. }
    { intros a b Hab ->. eapply idm_In in Hab; eauto. destruct Hab as (e0 & f & E1 & E2 & E3 & _). congruence. }
    destruct (HA i r y Er Ey) as [Y _].
    { intros Ha. apply Hne. rewrite Ha. destruct WR as [_ HW]. apply (HW r); [eapply zget_In; eauto|exact Ha]. }
    assert (els = [rw_after r]) by congruence. subst els. cbn in X2. congruence.
  - intros id H. apply (ef_aidel_other _ _ _ _ _ _ EF).
    + intros j e y Ee Ey Hc Hm Eid. destruct (E2R j e y Ee Ey) as (i & r & I1 & I2 & I3 & I4). destruct (H i r y I1 I2 Eid) as [H1 _].
      apply (entry_changes _ WP _ _ I4) in Hc. apply Hc. apply H1. pose proof (en_move _ _ _ I4) as M. destruct (rw_move r); [destruct M; congruence|reflexivity].
    + intros a b ya Hab Eya Eid. destruct (zget_lt ys b) as [yb Eyb]; [rewrite (ef_len _ _ _ _ _ _ EF); eapply idm_In in Hab; eauto; destruct Hab as (e & f & _ & E1 & _); eapply zget_range; eauto|].
      destruct (IDR a b ya yb Hab Eya Eyb) as (k & rk & vk & k' & rk' & K1 & K2 & K3 & K4 & K5 & K6 & K7 & K8). destruct (H k rk ya K1 K2 Eid) as [_ H2]. apply K8. eapply H2; eauto.
  - apply EF.
Qed.

Lemma event_singly : singly cf'.
Proof using WP PO WR HS PC EP EF LE LT.
  destruct row_event as (zs & ZP & RE). intros y Hy. rewrite (ef_ltypes _ _ _ _ _ _ EF) in Hy.
  assert (ST : forall y, 0 <= y < zlen (cf_types cf) -> zget (cf_types cf') y = zget (cf_types cf) y /\ zget (cf_elements cf') y = zget (cf_elements cf) y -> exists s, holds cf' y s).
  { intros z Hz [E1 E2]. destruct (pc_singly _ _ PC z Hz) as (s & S1 & k & t & S2 & S3 & S4). exists s. split; [congruence|]. exists k, t. rewrite EP. rewrite (pc_pt _ _ PC) in S2, S4. split; [exact S2|]. split; [congruence|exact S4]. }
  destruct (in_dec Z.eq_dec y zs) as [Hin|Hout]; [|apply ST; [exact Hy|apply (re_other _ _ _ _ _ _ RE); exact Hout]].
  apply In_zget in Hin. destruct Hin as [i Ey]. destruct (zget_lt rows i) as [r Er]; [rewrite <- (re_len _ _ _ _ _ _ RE); eapply zget_range; eauto|].
  destruct (string_dec (rw_after r) (rw_before r)) as [E|E]; [apply ST; [exact Hy|]; eapply (re_same _ _ _ _ _ _ RE); eauto|].
  exists (rw_after r). eapply (re_after _ _ _ _ _ _ RE); eauto. intros Ha. apply E. rewrite Ha. symmetry. destruct WR as [_ HW]. apply (HW r); [eapply zget_In; eauto|exact Ha].
Qed.
End RowEvent.

(** ** the starting configuration *)
Lemma start_plain pt coords ts cf : wfPT pt -> mkConfiguration coords (map (fun s => [s]) ts) pt = Some cf -> plainCfg pt cf.
Proof.
  intros WP H. apply mkConfiguration_info in H. constructor; [apply H|apply H|].
  destruct (names_wf _ _ WP (ci_names _ _ _ _ H)) as [N1 _]. pose proof (ci_types _ _ _ _ H) as ET.
  intros y Hy. rewrite (omap_zlen _ _ _ ET) in Hy. destruct (zget_lt _ _ Hy) as [els Eels]. rewrite zget_map in Eels. destruct (zget ts y) as [s|] eqn:Es; [|discriminate]. cbn in Eels. inversion Eels; subst els.
  pose proof (omap_zget _ _ _ y ET) as T2. rewrite zget_map, Es in T2. cbn [option_map obind] in T2.
  destruct (zget_lt (cf_types cf) y) as [t T0]; [rewrite (omap_zlen _ _ _ ET); exact Hy|]. rewrite T0 in T2. symmetry in T2. rename T2 into T1. rename T0 into T2. exists s. split.
  - rewrite (ci_elements _ _ _ _ H), zget_map, Es. reflexivity.
  - unfold bucketOf in T1. pose proof T1 as T1'. cbn [ofold] in T1. ob T1 as tb1 X. ob X as k Ek. clear T1 X.
    destruct (bucketOf_one pt (zlen (cf_names cf)) s t k Ek T1') as [U _]. rewrite N1, Z.max_r in U by apply zlen_nonneg. exists k, t. rewrite (ci_ptypes _ _ _ _ H). auto.
Qed.

(** ** reachable states *)
Lemma reach_cframe ranks hash L cf it md : reachable ranks hash L cf it md -> exists md0, sameCfg cf (md_cf md0) /\ cframe (md_cf md0) (md_cf md).
Proof. intros (md0 & us & E0 & E1). exists md0. split; [eapply mkLatticeModel_cfg; eauto|eapply run_cframe; eauto]. Qed.
Lemma reach_lens ranks hash L cf it md : wfInput ranks L cf it -> reachable ranks hash L cf it md ->
  zlen (cf_types (md_cf md)) = nsites L /\ zlen (cf_elements (md_cf md)) = nsites L /\ zlen (cf_aid (md_cf md)) = zlen (cf_aid cf) /\
  zlen (cf_aidcoords (md_cf md)) = zlen (cf_aidcoords cf) /\ zlen (cf_aidelements (md_cf md)) = zlen (cf_aidelements cf).
Proof.
  intros WI HR. destruct (reach_cframe _ _ _ _ _ _ HR) as (md0 & SC & CF). pose proof (f_equal zlen (cfr_width _ _ CF)) as EW. rewrite !zlen_map in EW.
  split; [unfold bucket in *; rewrite EW, (sc_types _ _ SC); apply WI|]. split; [rewrite (cfr_le _ _ CF), (sc_elements _ _ SC); apply WI|].
  split; [rewrite (cfr_la _ _ CF), (sc_aid _ _ SC); reflexivity|]. split; [rewrite (cfr_lac _ _ CF), (sc_aidcoords _ _ SC); reflexivity|rewrite (cfr_lae _ _ CF), (sc_aidel _ _ SC); reflexivity].
Qed.

Section PlainReach.
Context (ranks : Z) (hash : list Z -> Z) (L : lattice) (cf : config) (it : interactions) (rowsOf : Z -> list row).
Context (WI : wfInput ranks L cf it) (PN : plainInput L cf it rowsOf) (FT : fits L (maxRange it)).

Lemma unit_bounds : 0 < lt_unit L < 1000000.
Proof using WI PN. pose proof (pn_unit _ _ _ _ PN). pose proof (wi_lat _ _ _ _ WI) as W. destruct W. lia. Qed.
Lemma start_cfg : plainCfg (cf_ptypes cf) cf.
Proof using PN. destruct (pn_cf _ _ _ _ PN) as (coords & ts & E). eapply start_plain; eauto. apply PN. Qed.
Lemma types_nonempty : forall t, In t (cf_types cf) -> t <> [].
Proof using PN.
  intros t Ht ->. apply In_zget in Ht. destruct Ht as [y Ey]. destruct (pc_singly _ _ start_cfg y) as (s & _ & k & t & S1 & S2 & [S3 _]); [eapply zget_range; eauto|].
  assert (t = []) by congruence. subst t. pose proof (tfind_range _ _ _ (pn_pt _ _ _ _ PN) S1). rewrite <- S3 in H. unfold zlen in H. cbn in H. lia.
Qed.
Lemma procs_sane : forall p, In p (in_procs it) -> sane p.
Proof using WI PN.
  intros p Hp. apply In_zget in Hp. destruct Hp as [i Ei]. destruct (pn_procs _ _ _ _ PN i p Ei) as (WR & basis & B). destruct (builtPlain_spec _ _ _ _ _ (pn_pt _ _ _ _ PN) B) as [es PO].
  eapply plain_sane; eauto using unit_bounds. apply PN.
Qed.
Theorem plain_reach md : reachable ranks hash L cf it md -> plainCfg (cf_ptypes cf) (md_cf md).
Proof using WI PN FT.
  revert md. apply reach_ind.
  - intros md0 E0. apply mkLatticeModel_cfg in E0. pose proof start_cfg as SC.
    constructor; [rewrite (sc_ptypes _ _ E0); reflexivity|rewrite (sc_names _ _ E0); apply SC|].
    intros y Hy. rewrite (sc_types _ _ E0) in Hy. destruct (pc_singly _ _ SC y Hy) as (s & S1 & k & t & S2 & S3 & S4). exists s. split; [rewrite (sc_elements _ _ E0); exact S1|].
    exists k, t. rewrite (sc_ptypes _ _ E0), (sc_types _ _ E0). auto.
  - intros md u1 u2 md' HR PC H. pose proof (reach_step _ _ _ _ _ _ _ _ _ HR H) as HR'. destruct (reach_static _ _ _ _ _ _ HR') as (_ & EN & EP).
    destruct (step_event _ _ _ _ _ _ _ _ _ WI types_nonempty FT procs_sane HR H) as (i & p & x & ys & Ep & _ & _ & _ & _ & _ & EF).
    destruct (pn_procs _ _ _ _ PN i p Ep) as (WR & basis & B). destruct (builtPlain_spec _ _ _ _ _ (pn_pt _ _ _ _ PN) B) as [es PO]. destruct (reach_lens _ _ _ _ _ _ WI HR) as (L1 & L2 & _).
    constructor; [exact EP|rewrite EN; apply start_cfg|]. eapply event_singly; eauto using unit_bounds; [apply PN|congruence].
Qed.
(** every step is an event of one of the processes, in the terms of its rows *)
Theorem plain_step md u1 u2 md' : reachable ranks hash L cf it md -> singleStep md u1 u2 = Some md' ->
  exists i p x ys, zget (in_procs it) i = Some p /\ pickProcessIndex (md_in md) u1 = Some i /\ listed md i x /\ 0 <= x < nsites L /\
    cf_lastproc (md_cf md') = pr_number p /\ cf_lastsite (md_cf md') = x /\ rowEvent L (md_cf md) (md_cf md') (rowsOf i) x ys.
Proof using WI PN FT.
  intros HR H. pose proof (reach_step _ _ _ _ _ _ _ _ _ HR H) as HR'. destruct (reach_static _ _ _ _ _ _ HR') as (_ & EN & EP).
  destruct (step_event _ _ _ _ _ _ _ _ _ WI types_nonempty FT procs_sane HR H) as (i & p & x & ys & Ep & A1 & A2 & A3 & A4 & A5 & EF).
  destruct (pn_procs _ _ _ _ PN i p Ep) as (WR & basis & B). destruct (builtPlain_spec _ _ _ _ _ (pn_pt _ _ _ _ PN) B) as [es PO]. destruct (reach_lens _ _ _ _ _ _ WI HR) as (L1 & L2 & _).
  destruct (row_event L _ _ basis p es (md_cf md) (md_cf md') x ys (pn_pt _ _ _ _ PN) PO WR unit_bounds (plain_reach md HR) EP EF) as (zs & _ & RE); [congruence|congruence|].
  exists i, p, x, zs. auto 10.
Qed.
End PlainReach.
