(** C21-C23: atom identities, their coordinates and their elements. *)
From Verif Require Import PBase SModel SGeo SEvent SBuild SPlain SStep SBucket PLattice PProcess PMpi PRateTable PMatcher PPerform PStep PGeo PPossible PRun PEffect PRematch PEvent PBuild PPlain PRow PStepInv PBucket TStep PAtoms XCheck XSystems XRows.
Open Scope string_scope.
Open Scope list_scope.
Open Scope Z_scope.

(** the condition on the move vectors; bucket processes have none *)
Definition permuting (sp : pspec) : Prop := match sp with Plain rows => movesPermute rows | Bucket _ => True end.
Definition showing (sp : pspec) : Prop := match sp with Plain rows => movesShow rows | Bucket _ => True end.
Definition allProcs (it : interactions) (spec : Z -> pspec) (P : pspec -> Prop) : Prop := forall i p, zget (in_procs it) i = Some p -> P (spec i).

Lemma unit_ok ranks L cf it spec : userInput ranks L cf it spec -> 0 < lt_unit L < 100000.
Proof. intros UI. split; [apply (wfl_unit _ (wi_lat _ _ _ _ (ui_wf _ _ _ _ _ UI)))|apply UI]. Qed.
Lemma user_cycle ranks L cf it spec i p : userInput ranks L cf it spec -> zget (in_procs it) i = Some p -> permuting (spec i) -> idmovesCycle p.
Proof.
  intros UI Ep HP. pose proof (ui_procs _ _ _ _ _ UI i p Ep) as B. pose proof (ui_pt _ _ _ _ _ UI) as WP. pose proof (unit_ok _ _ _ _ _ UI) as HU. unfold builtFrom, permuting in *. destruct (spec i) as [rows|rows]; destruct B as (WR & basis & B).
  - destruct (builtPlain_spec _ _ _ _ _ WP B) as [es PO]. eapply plain_cycle; eauto. lia.
  - destruct (builtBucket_spec _ _ _ _ _ WP WR B) as [es BO]. eapply bucket_cycle; eauto.
Qed.
Lemma user_displaces ranks L cf it spec i p : userInput ranks L cf it spec -> zget (in_procs it) i = Some p -> showing (spec i) -> displaces p.
Proof.
  intros UI Ep HP. pose proof (ui_procs _ _ _ _ _ UI i p Ep) as B. pose proof (ui_pt _ _ _ _ _ UI) as WP. pose proof (unit_ok _ _ _ _ _ UI) as HU. unfold builtFrom, showing in *. destruct (spec i) as [rows|rows]; destruct B as (WR & basis & B).
  - destruct (builtPlain_spec _ _ _ _ _ WP B) as [es PO]. eapply plain_displaces; eauto. lia.
  - destruct (builtBucket_spec _ _ _ _ _ WP WR B) as [es BO]. eapply bucket_displaces; eauto.
Qed.
Lemma show_permute it spec : allProcs it spec showing -> allProcs it spec permuting.
Proof. intros H i p Ep. specialize (H i p Ep). unfold showing, permuting in *. destruct (spec i); [apply H|exact I]. Qed.
Lemma start_ids ranks L cf it spec : userInput ranks L cf it spec -> cf_aid cf = zrange 0 (nsites L - 1) /\ cf_aidcoords cf = cf_coords cf /\ zlen (cf_aidelements cf) = nsites L.
Proof.
  intros UI. destruct (ui_cf _ _ _ _ _ UI) as (coords & els & E). apply mkConfiguration_info in E. pose proof (ui_wf _ _ _ _ _ UI) as WI.
  pose proof (wi_coords _ _ _ _ WI) as H1. pose proof (wi_elements _ _ _ _ WI) as H2. rewrite (ci_coords _ _ _ _ E) in H1. rewrite (ci_elements _ _ _ _ E) in H2.
  split; [rewrite (ci_aid _ _ _ _ E), H1; reflexivity|]. split; [rewrite (ci_aidcoords _ _ _ _ E), (ci_coords _ _ _ _ E); reflexivity|rewrite (ci_laidel _ _ _ _ E); exact H2].
Qed.

(** ** C21 *)
(** In every reachable state each of the labels 0, ..., n-1 sits at exactly one of the n sites. *)
Theorem C21_labels ranks hash L cf it spec md :
  userInput ranks L cf it spec -> allProcs it spec permuting -> reachable ranks hash L cf it md -> Permutation (cf_aid (md_cf md)) (zrange 0 (nsites L - 1)).
Proof.
  intros UI HP HR. pose proof (user_std _ _ _ _ _ UI) as ST. destruct (start_ids _ _ _ _ _ UI) as (A0 & _ & _). revert md HR. apply (std_ind _ hash _ _ _ ST (fun c => Permutation (cf_aid c) (zrange 0 (nsites L - 1)))).
  - rewrite A0. apply Permutation_refl.
  - intros a b SC H. rewrite (sc_aid _ _ SC). exact H.
  - intros md md' i p x ys HR _ Ep EF IH. eapply Permutation_trans; [|exact IH]. destruct (builtFrom_facts _ _ _ _ _ _ _ UI Ep) as (SN & _).
    eapply aid_event; [exact EF|exact SN|eapply user_cycle; eauto| |].
    + unfold zlen. rewrite (Permutation_length IH). fold (zlen (zrange 0 (nsites L - 1))). rewrite zlen_zrange. pose proof (zlen_nonneg (cf_coords cf)) as H. rewrite (wi_coords _ _ _ _ (ui_wf _ _ _ _ _ UI)) in H. lia.
    + eapply Permutation_NoDup; [apply Permutation_sym; exact IH|apply NoDup_zrange].
Qed.
Lemma labels_nodup ranks hash L cf it spec md : userInput ranks L cf it spec -> allProcs it spec permuting -> reachable ranks hash L cf it md -> NoDup (cf_aid (md_cf md)) /\ zlen (cf_aid (md_cf md)) = nsites L.
Proof.
  intros UI HP HR. pose proof (C21_labels _ _ _ _ _ _ _ UI HP HR) as H. split; [eapply Permutation_NoDup; [apply Permutation_sym; exact H|apply NoDup_zrange]|].
  unfold zlen. rewrite (Permutation_length H). fold (zlen (zrange 0 (nsites L - 1))). rewrite zlen_zrange. pose proof (zlen_nonneg (cf_coords cf)) as X. rewrite (wi_coords _ _ _ _ (ui_wf _ _ _ _ _ UI)) in X. lia.
Qed.

(** ** C22 *)
Lemma runStates_last md us : forall md1 l, runStates md us = Some l -> runSteps md us = Some md1 -> md1 = last l md.
Proof.
  revert md. induction us as [|[u1 u2] us IH]; intros md md1 l H1 H2; cbn [runStates] in H1.
  - inversion H1; inversion H2; subst. reflexivity.
  - ob H1 as m E. ob H1 as l' El. inversion H1; subst. unfold runSteps in H2. cbn [ofold fst snd] in H2. rewrite E in H2. cbn [obind] in H2. rewrite (IH m md1 l' El H2). clear. destruct l' as [|a l']; [reflexivity|].
    cbn [last]. revert a. induction l' as [|b l' IH]; intros a; [reflexivity|]. cbn [last]. apply IH.
Qed.
Lemma csum_app a b : csum (a ++ b) = cadd (csum a) (csum b).
Proof. unfold csum. induction a as [|c a IH]; cbn [app fold_right]; [destruct (fold_right cadd czero b); reflexivity|]. rewrite IH, cadd_assoc. reflexivity. Qed.
(** The unwrapped coordinate of an atom is the coordinate it started from plus all the moves reported for it along the run. *)
Theorem C22_sum_of_moves ranks hash L cf it spec md0 us l id c :
  userInput ranks L cf it spec -> allProcs it spec permuting -> mkLatticeModel ranks hash L cf it = Some md0 -> runStates md0 us = Some l ->
  zget (cf_coords cf) id = Some c ->
  zget (cf_aidcoords (md_cf (last l md0))) id = Some (cadd c (csum (flat_map (fun m => reported (md_cf m) id) l))).
Proof.
  intros UI HP E0 HL Hc. pose proof (user_std _ _ _ _ _ UI) as ST. destruct (start_ids _ _ _ _ _ UI) as (_ & A1 & _).
  assert (R0 : reachable ranks hash L cf it md0) by (exists md0, []; auto). assert (Hc0 : zget (cf_aidcoords (md_cf md0)) id = Some c).
  { rewrite (sc_aidcoords _ _ (mkLatticeModel_cfg _ _ _ _ _ _ E0)), A1. exact Hc. }
  clear E0 Hc. revert md0 c l R0 Hc0 HL. induction us as [|[u1 u2] us IH]; intros md0 c l R0 Hc HL; cbn [runStates] in HL.
  - inversion HL; subst. cbn [last flat_map]. unfold csum. cbn [fold_right]. rewrite cadd_0_r. exact Hc.
  - ob HL as md1 E1. ob HL as l' El. inversion HL; subst l. pose proof (reach_step _ _ _ _ _ _ _ _ _ R0 E1) as R1. destruct (labels_nodup _ _ _ _ _ _ _ UI HP R0) as [ND LA].
    destruct (std_step _ _ _ _ _ ST _ _ _ _ R0 E1) as (i & p & x & ys & _ & _ & _ & _ & _ & _ & EF). pose proof (coords_event _ _ _ _ _ _ id c EF ND LA Hc) as C1.
    specialize (IH md1 _ l' R1 C1 El). cbn [flat_map]. rewrite csum_app, cadd_assoc, <- IH. f_equal. f_equal. f_equal. clear. destruct l' as [|a l']; [reflexivity|]. change (last (md1 :: a :: l') md0) with (last (a :: l') md0). revert a. induction l' as [|b l' IH]; intros a; [reflexivity|].
    change (last (b :: l') md0 = last (b :: l') md1). apply IH.
Qed.
(** What one event does: the atom found at the site of a row whose type changes is displaced by the move vector of the row; atoms elsewhere
    stay where they are. *)
Theorem C22_step ranks hash L cf it rowsOf md u1 u2 md' :
  plainUser ranks L cf it rowsOf -> allProcs it (fun i => Plain (rowsOf i)) permuting -> reachable ranks hash L cf it md -> singleStep md u1 u2 = Some md' ->
  exists i p x ys, zget (in_procs it) i = Some p /\ listed md i x /\ zlen ys = zlen (rowsOf i) /\
    (forall j r y, zget (rowsOf i) j = Some r -> zget ys j = Some y -> rw_before r <> "*" -> liesAt L (cf_coords (md_cf md)) x (rw_c r) y) /\
    (forall j r y id c, zget (rowsOf i) j = Some r -> zget ys j = Some y -> rw_before r <> rw_after r -> zget (cf_aid (md_cf md)) y = Some id ->
       zget (cf_aidcoords (md_cf md)) id = Some c -> zget (cf_aidcoords (md_cf md')) id = Some (cadd c (shift r))) /\
    (forall y id, ~ In y ys -> zget (cf_aid (md_cf md)) y = Some id -> zget (cf_aidcoords (md_cf md')) id = zget (cf_aidcoords (md_cf md)) id /\ zget (cf_aid (md_cf md')) y = Some id).
Proof.
  intros PU HP HR H. pose proof (plain_input _ _ _ _ _ PU) as PI. pose proof (pu_user _ _ _ _ _ PU) as UI. destruct (labels_nodup _ _ _ _ _ _ _ UI HP HR) as [ND LA].
  destruct (plain_step _ _ _ _ _ _ (ui_wf _ _ _ _ _ UI) PI (ui_fits _ _ _ _ _ UI) _ _ _ _ HR H) as (i & p & x & ys & Ep & _ & HL & _ & _ & _ & RE).
  exists i, p, x, ys. split; [exact Ep|]. split; [exact HL|]. split; [apply RE|]. split; [apply RE|]. split; [apply (re_coords _ _ _ _ _ _ RE ND)|].
  intros y id Hy Eid. split.
  - apply (re_coords_other _ _ _ _ _ _ RE). intros j r z _ Ez _ E. assert (z = y) by (eapply NoDup_zget_inj; eauto). subst z. apply Hy. eapply zget_In; eauto.
  - rewrite <- Eid. apply (re_aid_other _ _ _ _ _ _ RE); [apply (HP i p Ep)|]. intros j r _ E. exfalso. apply Hy. eapply zget_In; eauto.
Qed.
(** The unwrapped coordinate and the coordinate of the site that carries the label differ by whole periods of the lattice, provided atoms
    move only where the type changes. *)
Theorem C22_on_site_partial ranks hash L cf it spec md y id :
  userInput ranks L cf it spec -> allProcs it spec showing -> reachable ranks hash L cf it md -> zget (cf_aid (md_cf md)) y = Some id ->
  exists a c, zget (cf_coords (md_cf md)) y = Some a /\ zget (cf_aidcoords (md_cf md)) id = Some c /\ sameDisp L a c.
Proof.
  intros UI HS HR. pose proof (show_permute _ _ HS) as HP. pose proof (user_std _ _ _ _ _ UI) as ST. destruct (start_ids _ _ _ _ _ UI) as (A0 & A1 & _).
  revert md HR y id. apply (std_ind _ hash _ _ _ ST (fun c => tracked L c)).
  - intros y id E. rewrite A0 in E. apply zget_range in E as Hy. rewrite zlen_zrange in Hy. rewrite zget_zrange in E by lia. assert (id = y) by (inversion E; lia). subst id.
    destruct (zget_lt (cf_coords cf) y) as [a Ea]; [rewrite (wi_coords _ _ _ _ (ui_wf _ _ _ _ _ UI)); lia|]. exists a, a. split; [exact Ea|]. split; [congruence|apply sameDisp_refl].
  - intros a b SC H y id. rewrite (sc_aid _ _ SC), (sc_coords _ _ SC), (sc_aidcoords _ _ SC). apply H.
  - intros md md' i p x ys HR _ Ep EF IH. destruct (builtFrom_facts _ _ _ _ _ _ _ UI Ep) as (SN & _). destruct (labels_nodup _ _ _ _ _ _ _ UI HP HR) as [ND _].
    eapply tracked_event; [eapply unit_ok; eauto|exact EF|exact SN|eapply user_cycle; eauto|eapply user_displaces; eauto|exact ND|exact IH].
Qed.

(** ** C23 *)
(** When types only travel with their atoms, the element recorded for a label never changes, and it is the type found at the site that
    carries the label. *)
Theorem C23_elements ranks hash L cf it rowsOf md :
  plainUser ranks L cf it rowsOf -> (forall i p, zget (in_procs it) i = Some p -> carries (rowsOf i)) -> reachable ranks hash L cf it md ->
  cf_aidelements (md_cf md) = cf_aidelements cf /\
  forall y id, zget (cf_aid (md_cf md)) y = Some id -> exists s, holds (md_cf md) y s /\ zget (cf_aidelements (md_cf md)) id = Some s.
Proof.
  intros PU HC HR. pose proof (plain_input _ _ _ _ _ PU) as PI. pose proof (pu_user _ _ _ _ _ PU) as UI. assert (HP : allProcs it (fun i => Plain (rowsOf i)) permuting) by (intros i p Ep; apply (HC i p Ep)).
  destruct (start_ids _ _ _ _ _ UI) as (A0 & _ & A2). pose proof (ui_wf _ _ _ _ _ UI) as WI. revert md HR. apply (reach_ind _ _ _ _ _ (fun md => cf_aidelements (md_cf md) = cf_aidelements cf /\ labelled (md_cf md))).
  - intros md0 E0. pose proof (mkLatticeModel_cfg _ _ _ _ _ _ E0) as SC. split; [apply SC|]. intros y id E. rewrite (sc_aid _ _ SC), A0 in E. apply zget_range in E as Hy. rewrite zlen_zrange in Hy. rewrite zget_zrange in E by lia.
    assert (id = y) by (inversion E; lia). subst id. destruct (pu_single _ _ _ _ _ PU) as (coords & ts & Ecf). pose proof (start_plain _ _ _ _ (ui_pt _ _ _ _ _ UI) Ecf) as PC. apply mkConfiguration_info in Ecf.
    destruct (pc_singly _ _ PC y) as [s Hs]; [pose proof (wi_types _ _ _ _ WI) as X; unfold bucket in *; lia|]. exists s. split; [eapply holds_keep; [apply SC| |exact Hs]; split; [rewrite (sc_types _ _ SC)|rewrite (sc_elements _ _ SC)]; reflexivity|].
    rewrite (sc_aidel _ _ SC). destruct (ci_aidel _ _ _ _ Ecf y) as (e & s' & T1 & T2 & T3); [rewrite <- (ci_coords _ _ _ _ Ecf), (wi_coords _ _ _ _ WI); lia|]. destruct Hs as [Hs _]. rewrite (ci_elements _ _ _ _ Ecf) in Hs.
    assert (e = [s]) by congruence. subst e. cbn in T2. congruence.
  - intros md u1 u2 md' HR [IH1 IH2] H. pose proof (reach_step _ _ _ _ _ _ _ _ _ HR H) as HR'. destruct (labels_nodup _ _ _ _ _ _ _ UI HP HR) as [ND _].
    destruct (reach_static _ _ _ _ _ _ HR) as (_ & _ & EP). destruct (reach_static _ _ _ _ _ _ HR') as (_ & _ & EP').
    destruct (plain_step _ _ _ _ _ _ WI PI (ui_fits _ _ _ _ _ UI) _ _ _ _ HR H) as (i & p & x & ys & Ep & _ & _ & _ & _ & _ & RE).
    assert (EPP : cf_ptypes (md_cf md') = cf_ptypes (md_cf md)) by congruence.
    pose proof (labelled_event _ _ _ _ _ _ RE (proj1 (pn_procs _ _ _ _ PI i p Ep)) (HC i p Ep) EPP ND IH2) as G. split.
    + rewrite <- IH1. apply zget_ext. intros id. destruct (zget (cf_aidelements (md_cf md)) id) as [s|] eqn:E.
      * pose proof (C21_labels _ _ _ _ _ _ _ UI HP HR') as PM. assert (Hin : In id (cf_aid (md_cf md'))).
        { eapply Permutation_in; [apply Permutation_sym; exact PM|]. apply In_zrange. apply zget_range in E. rewrite IH1, A2 in E. lia. }
        apply In_zget in Hin. destruct Hin as [y Ey]. destruct (G y id Ey) as (s' & _ & G2 & G3). congruence.
      * apply zget_None in E. apply zget_None. destruct (re_fixed _ _ _ _ _ _ RE) as (_ & _ & _ & _ & _ & ->). exact E.
    + intros y id Ey. destruct (G y id Ey) as (s & G1 & G2 & _). eauto.
Qed.

(** ** Examples *)
Lemma hop_show : forall i, movesShow (rowsIn xbSpecs i).
Proof.
  apply (rowsIn_all _ movesShow (fun rows => movesPermuteb rows && forallb (fun r => match rw_move r with None => true | Some v => ceqb v czero || negb (String.eqb (rw_before r) (rw_after r)) end) rows)).
  - intros rows H. apply andb_true_iff in H. destruct H as [H1 H2]. split; [apply movesPermuteb_sound; exact H1|]. intros r Hr N1 N2. rewrite forallb_forall in H2. specialize (H2 r Hr).
    destruct (rw_move r) as [v|]; [|congruence]. apply orb_true_iff in H2. destruct H2 as [H2|H2]; [apply ceqb_eq in H2; congruence|]. apply negb_true_iff, String.eqb_neq in H2. exact H2.
  - split; [constructor|intros r []].
  - reflexivity.
Qed.
Lemma hop_carries : forall i, carries (rowsIn xbSpecs i).
Proof.
  apply (rowsIn_all _ carries (fun rows => movesPermuteb rows && forallb (fun r => match rw_move r with None => String.eqb (rw_before r) (rw_after r)
      | Some v => negb (String.eqb (rw_before r) "*") && forallb (fun r' => match rw_move r' with None => true | Some _ => negb (ceqb (rw_c r') (cadd (rw_c r) v)) || String.eqb (rw_after r') (rw_before r) end) rows end) rows)).
  - intros rows H. apply andb_true_iff in H. destruct H as [H1 H2]. rewrite forallb_forall in H2. split; [apply movesPermuteb_sound; exact H1|]. split; [|split].
    + intros r Hr E. specialize (H2 r Hr). rewrite E in H2. apply String.eqb_eq. exact H2.
    + intros r Hr E. specialize (H2 r Hr). destruct (rw_move r); [|congruence]. apply andb_true_iff in H2. destruct H2 as [H2 _]. apply negb_true_iff, String.eqb_neq in H2. exact H2.
    + intros r r' v Hr Hr' E E' Ec. specialize (H2 r Hr). rewrite E in H2. apply andb_true_iff in H2. destruct H2 as [_ H2]. rewrite forallb_forall in H2. specialize (H2 r' Hr'). destruct (rw_move r'); [|congruence].
      apply orb_true_iff in H2. destruct H2 as [H2|H2]; [|apply String.eqb_eq; exact H2]. rewrite Ec in H2. apply negb_true_iff in H2. assert (ceqb (cadd (rw_c r) v) (cadd (rw_c r) v) = true) by apply ceqb_refl. congruence.
  - split; [constructor|]. split; [intros r []|]. split; [intros r []|intros r r' v []].
  - reflexivity.
Qed.
(** hops on the periodic lattice meet the hypotheses of all the theorems, and labels have moved *)
Example C21_C22_C23_example : exists ranks hash L cf it rowsOf md,
  plainUser ranks L cf it rowsOf /\ allProcs it (fun i => Plain (rowsOf i)) permuting /\ allProcs it (fun i => Plain (rowsOf i)) showing /\
  (forall i p, zget (in_procs it) i = Some p -> carries (rowsOf i)) /\ reachable ranks hash L cf it md /\ cf_aid (md_cf md) <> cf_aid cf /\ cf_aidcoords (md_cf md) <> cf_aidcoords cf.
Proof.
  assert (E : xbCheck (fun cf it md md' => (if list_eq_dec Z.eq_dec (cf_aid (md_cf md)) (cf_aid cf) then false else true) && negb (forallb (fun ab => ceqb (fst ab) (snd ab)) (combine (cf_aidcoords (md_cf md)) (cf_aidcoords cf)))) = true) by (vm_compute; reflexivity).
  unfold xbCheck in E. apply userCheck_sound in E. destruct E as (cf & it & md & md' & US & E). apply andb_true_iff in E. destruct E as [E1 E2].
  exists 2, xhash, x1L, cf, it, (rowsIn xbSpecs), md. split; [eapply userSystem_plain; [reflexivity|exact US]|]. split; [intros i p _; apply hop_show|]. split; [intros i p _; apply hop_show|]. split; [intros i p _; apply hop_carries|].
  split; [reached US|]. split; [destruct (list_eq_dec _ _ _) as [|N] in E1; [discriminate|exact N]|]. intros EQ. rewrite EQ in E2. apply negb_true_iff in E2.
  assert (X : forallb (fun ab => ceqb (fst ab) (snd ab)) (combine (cf_aidcoords cf) (cf_aidcoords cf)) = true); [|congruence].
  apply forallb_forall. intros [a b] Hin. apply In_zget in Hin. destruct Hin as [k Ek]. apply combine_get in Ek. destruct Ek as [K1 K2]. cbn [fst snd]. assert (a = b) by congruence. subst. apply ceqb_refl.
Qed.

(** ** What happens without the conditions *)
(** The atoms of [lossRows] start at three places and end at two of them; the rows meet every check of the constructor of processes. *)
Definition lossRows : list row := [mkRow (xcell 0 0 0) "A" "A" (Some (xcell 0 1 0)); mkRow (xcell 1 0 0) "A" "B" None; mkRow (xcell 0 1 0) "B" "A" (Some (xcell 1 (-1) 0))].
Definition xeTypes : list string := ["A"; "B"; "B";  "A"; "A"; "B";  "B"; "B"; "B";  "A"; "A"; "B"].
(** A label is found at two sites, another one is lost. *)
Theorem C21_not_permuting_refuted : exists ranks hash L cf it rowsOf md y y' id,
  plainUser ranks L cf it rowsOf /\ reachable ranks hash L cf it md /\ y <> y' /\ zget (cf_aid (md_cf md)) y = Some id /\ zget (cf_aid (md_cf md)) y' = Some id.
Proof.
  assert (E : userCheck 2 xhash x1L x1sites (one xeTypes) x1pt [plain lossRows 3] true false norc [] (dev 1 3) (dev 1 3)
    (fun cf it md md' => existsb (fun y => somewhere (zget (cf_aid (md_cf md')) y) (fun id => existsb (fun y' => negb (y =? y') && somewhere (zget (cf_aid (md_cf md')) y') (Z.eqb id)) (zrange 0 11))) (zrange 0 11)) = true) by (vm_compute; reflexivity).
  apply userCheck_sound in E. destruct E as (cf & it & md & md' & US & E). apply existsb_exists in E. destruct E as (y & _ & E). apply somewhere_Some in E. destruct E as (id & Ey & E). apply existsb_exists in E. destruct E as (y' & _ & E).
  apply andb_true_iff in E. destruct E as [E1 E]. apply somewhere_Some in E. destruct E as (id' & Ey' & E). apply Z.eqb_eq in E. subst id'.
  exists 2, xhash, x1L, cf, it, (rowsIn [plain lossRows 3]), md', y, y', id. split; [eapply userSystem_plain; [reflexivity|exact US]|]. split; [reached US|]. split; [|auto]. apply negb_true_iff, Z.eqb_neq in E1. exact E1.
Qed.
(** a ring of three atoms; the middle one is replaced by an atom of its own type *)
Definition ringRows : list row := [mkRow (xcell 0 0 0) "A" "B" (Some (xcell 1 0 0)); mkRow (xcell 1 0 0) "A" "A" (Some (xcell (-1) 1 0)); mkRow (xcell 0 1 0) "B" "A" (Some (xcell 0 (-1) 0))].
(** The move vectors permute the places and carry every type to a place where it is found, but the label of the middle atom moves
    while its coordinate stays. *)
Theorem C22_on_site_refuted : exists ranks hash L cf it rowsOf md y id a c,
  plainUser ranks L cf it rowsOf /\ allProcs it (fun i => Plain (rowsOf i)) permuting /\ reachable ranks hash L cf it md /\
  zget (cf_aid (md_cf md)) y = Some id /\ zget (cf_coords (md_cf md)) y = Some a /\ zget (cf_aidcoords (md_cf md)) id = Some c /\ ~ sameDisp L a c.
Proof.
  assert (E : userCheck 2 xhash x1L x1sites (one xeTypes) x1pt [plain ringRows 3] true false norc [] (dev 1 3) (dev 1 3)
    (fun cf it md md' => existsb (fun y => somewhere (zget (cf_aid (md_cf md')) y) (fun id => somewhere (zget (cf_coords (md_cf md')) y) (fun a => somewhere (zget (cf_aidcoords (md_cf md')) id) (fun c =>
       negb ((cx c - cx a) mod (lt_ra x1L * lt_unit x1L) =? 0))))) (zrange 0 11)) = true) by (vm_compute; reflexivity).
  apply userCheck_sound in E. destruct E as (cf & it & md & md' & US & E). apply existsb_exists in E. destruct E as (y & _ & E). apply somewhere_Some in E. destruct E as (id & Ey & E). apply somewhere_Some in E. destruct E as (a & Ea & E).
  apply somewhere_Some in E. destruct E as (c & Ec & E). exists 2, xhash, x1L, cf, it, (rowsIn [plain ringRows 3]), md', y, id, a, c.
  split; [eapply userSystem_plain; [reflexivity|exact US]|]. split.
  { intros i p _. cbn [permuting]. apply (rowsIn_all _ movesPermute movesPermuteb movesPermuteb_sound); [constructor|reflexivity]. }
  split; [reached US|]. split; [exact Ey|]. split; [exact Ea|]. split; [exact Ec|]. intros (H & _). apply negb_true_iff, Z.eqb_neq in E. apply E. destruct H as [n Hn].
  replace (cx c - cx a) with (n * (lt_ra x1L * lt_unit x1L)) by lia. apply Z.mod_mul. discriminate.
Qed.

Print Assumptions C21_labels.
Print Assumptions C21_not_permuting_refuted.
Print Assumptions C22_sum_of_moves.
Print Assumptions C22_step.
Print Assumptions C22_on_site_partial.
Print Assumptions C22_on_site_refuted.
Print Assumptions C23_elements.
