(** C05, C06, C07, C08, C51: which events are listed. *)
From Verif Require Import PBase SModel SGeo PLattice PProcess PMatcher PPerform PStep PGeo PPossible PRun PEffect PRematch XCheck XSystems.
Open Scope Z_scope.
Open Scope list_scope.

(** ** C05: a listed event is possible *)
(** For every input, every history and every listed pair (process i, site x): x is on a basis point of the
    process and for every entry of the process as given (wildcards apart) some site at the position of the
    entry relative to x holds the required particles. *)
Theorem C05_listed_is_possible ranks hash L cf it md i p x :
  wfInput ranks L cf it -> reachable ranks hash L cf it md -> zget (in_procs it) i = Some p -> listed md i x ->
  forall e, In e (pr_ml p) ->
  0 <= x < nsites L /\ In (basisSiteFromIndex L x) (pr_basis p) /\
  (wildEntry e \/ exists y, nearSites L (maxRange it) x y /\ suits L (md_cf md) x e y).
Proof. intros WI HR Ep HL e He. eapply listed_suits; eauto. Qed.

(** ** C06: on uniform lattices exactly the possible events are listed *)
Theorem C06_listed_iff_possible ranks hash L basis W cf it md i p x :
  wfInput ranks L cf it -> geoInput L basis (maxRange it) W cf -> in_wild it = true ->
  reachable ranks hash L cf it md ->
  zget (in_procs it) i = Some p -> regular L basis (maxRange it) W p -> 0 <= x < nsites L ->
  (listed md i x <-> possible L (cf_coords (md_cf md)) (cf_types (md_cf md)) p x).
Proof. apply listed_possible. Qed.

(** The range of a process is read off its coordinates rounded towards zero, not off the cells they lead to: a process
    that looks from the basis point 0.5 to the point 1.5 further on reaches two cells but has range one.  It is
    possible everywhere on the lattice and listed nowhere. *)
Definition x5L : lattice := mkLat 2 5 1 1 true false false xS.
Definition x5basis : list coord := [czero; mkC 5 0 0].
Definition x5pt : tmap := [("*"%string, 0); ("A"%string, 1); ("B"%string, 2)].
Definition x5sites : list coord := generateLatticeSites x5L x5basis.
Definition x5procs : option (list process) :=
  omap (fun p => p) [ xplain x5pt 1 3 0 [czero; mkC 15 0 0] [["A"%string]; ["A"%string]] [["A"%string]; ["B"%string]] [] [] ].
Definition x5in : option interactions := ps <- x5procs ;; Some (mkInteractions ps true false norc).
Definition x5cf : option config := mkConfiguration x5sites (map (fun _ => ["A"%string]) x5sites) x5pt.
(** decides [possible] from above for entries whose displaced site is given *)
Definition possibleAtb (L : lattice) (coords : list coord) (types : list bucket) (p : process) (x : Z) (ys : list Z) : bool :=
  zmem (basisSiteFromIndex L x) (pr_basis p) && (zlen ys =? zlen (pr_ml p)) &&
  forallb (fun ey => let '(e, y) := ey in
    somewhere (zget coords x) (fun c => somewhere (zget coords y) (fun d => ceqb (wrapCoord L (csub d c)) (pe_c e))) &&
    somewhere (zget types y) (fun t => somewhere (bmatch (pe_match e) t) (fun b => b))) (combine (pr_ml p) ys).
Lemma possibleAtb_sound L coords types p x ys : possibleAtb L coords types p x ys = true -> possible L coords types p x.
Proof.
  unfold possibleAtb. rewrite !andb_true_iff. intros ((H1 & H2) & H3). split; [apply zmem_In; exact H1|].
  intros e He. right. apply In_zget in He. destruct He as [k Ek]. apply Z.eqb_eq in H2.
  destruct (zget_lt ys k) as [y Ey]; [rewrite H2; eapply zget_range; eauto|].
  rewrite forallb_forall in H3. specialize (H3 (e, y)).
  assert (Hin : In (e, y) (combine (pr_ml p) ys)).
  { clear -Ek Ey. revert ys k Ek Ey. generalize (pr_ml p). induction l as [|a l IH]; intros ys k Ek Ey; [rewrite zget_nil in Ek; discriminate|].
    destruct ys as [|b ys]; [rewrite zget_nil in Ey; discriminate|]. rewrite zget_cons in Ek. rewrite zget_cons in Ey. cbn [combine].
    destruct (k =? 0); [inversion Ek; inversion Ey; left; reflexivity|right; eapply IH; eauto]. }
  specialize (H3 Hin). cbn beta iota in H3. apply andb_true_iff in H3. destruct H3 as [H3 H4].
  apply somewhere_Some in H3. destruct H3 as (c & Ec & H3). apply somewhere_Some in H3. destruct H3 as (d & Ed & H3).
  apply somewhere_Some in H4. destruct H4 as (t & Et & H4). apply somewhere_Some in H4. destruct H4 as (b & Eb & ->).
  exists y, t. split; [|split; [exact Et|]].
  - exists c, d. split; [exact Ec|]. split; [exact Ed|]. apply ceqb_eq in H3. rewrite <- H3. apply wrapCoord_same.
  - apply bmatch_contains. exact Eb.
Qed.
Theorem C06_fractional_range_refuted : exists ranks hash L basis cf it md p,
  wfInput ranks L cf it /\ wf_basis L basis /\ cf_coords cf = generateLatticeSites L basis /\ uniform L 2 /\ in_wild it = true /\
  mkLatticeModel ranks hash L cf it = Some md /\ zget (in_procs it) 0 = Some p /\
  possible L (cf_coords (md_cf md)) (cf_types (md_cf md)) p 1 /\ forall x, ~ listed md 0 x.
Proof.
  assert (E : somewhere x5cf (fun cf => somewhere x5in (fun it => somewhere (mkLatticeModel 1 xhash x5L cf it) (fun md =>
     somewhere (zget (in_procs it) 0) (fun p => somewhere (zget (in_procs (md_in md)) 0) (fun p' =>
       wfInputb 1 x5L cf it && wf_basisb x5L x5basis && coords_eqb (cf_coords cf) (generateLatticeSites x5L x5basis) &&
       uniformb x5L 2 && in_wild it && possibleAtb x5L (cf_coords (md_cf md)) (cf_types (md_cf md)) p 1 [1; 4] && (zlen (pr_sites p') =? 0)))))) = true)
    by (vm_compute; reflexivity).
  apply somewhere_Some in E. destruct E as (cf & _ & E). apply somewhere_Some in E. destruct E as (it & _ & E).
  apply somewhere_Some in E. destruct E as (md & Em & E). apply somewhere_Some in E. destruct E as (p & Ep & E).
  apply somewhere_Some in E. destruct E as (p' & Ep' & E). rewrite !andb_true_iff in E. destruct E as ((((((H1 & H2) & H3) & H4) & H5) & H6) & H7).
  exists 1, xhash, x5L, x5basis, cf, it, md, p. split; [apply wfInputb_sound; exact H1|]. split; [apply wf_basisb_sound; exact H2|].
  split; [apply coords_eqb_sound; exact H3|]. split; [apply uniformb_sound; exact H4|]. split; [exact H5|]. split; [exact Em|]. split; [exact Ep|].
  split; [eapply possibleAtb_sound; eauto|]. intros x (r & q & Eq & Hin). assert (q = p') by congruence. subst q.
  apply in_events_sites in Hin. apply Z.eqb_eq in H7. destruct (pr_sites p'); [exact Hin|]. rewrite zlen_cons in H7. pose proof (zlen_nonneg l). lia.
Qed.

(** ** C07: implicit wildcards *)
(** the process the model works with is the process given, with inert entries between the given ones; the
    moves of labels refer to the same entries *)
Theorem C07_only_inert_entries_added ranks hash L cf it md i p p' :
  wfInput ranks L cf it -> (forall t, In t (cf_types cf) -> t <> []) -> reachable ranks hash L cf it md ->
  zget (in_procs it) i = Some p -> zget (in_procs (md_in md)) i = Some p' ->
  (exists pos, paddedBy pos (pr_ml p) (pr_ml p') /\
     pr_idmoves p' = map (fun ab : Z * Z => (pos (fst ab), pos (snd ab))) (pr_idmoves p)) /\
  pr_rate p' = pr_rate p /\ pr_number p' = pr_number p /\ pr_basis p' = pr_basis p /\ pr_custom p' = pr_custom p /\ pr_bucket p' = pr_bucket p.
Proof.
  intros WI HT HR Ep Ep'. split; [eapply reachable_padded; eauto|].
  destruct (reachable_info _ _ _ _ _ _ WI HR) as (cf1 & it2 & RI).
  destruct (reachable_proc _ _ _ _ _ _ _ _ _ _ RI Ep') as (p2 & q & Ep2 & Eq & Hs & HQ). assert (p2 = p) by congruence. subst p2.
  apply pstatic_fields in Hs. destruct Hs as (-> & _ & -> & _ & -> & _ & _ & -> & _ & -> & _).
  destruct HQ as [->|[_ HQ]]; [repeat split; reflexivity|]. apply expand_fields in HQ. destruct HQ as (-> & _ & -> & _ & -> & _ & _ & _ & _ & _ & _ & -> & -> & _).
  repeat split; reflexivity.
Qed.
(** the padded process matches exactly when every given entry matches at the place it was moved to *)
Theorem C07_same_requirements S pos l l' cl : paddedBy pos l l' ->
  (whateverMatch S l' cl = Some true <-> zlen l' <= zlen cl /\
     forall j e c, zget l j = Some e -> zget cl (pos j) = Some c ->
       wildEntry e \/ (~ wildEntry e /\ pe_match e <> [] /\ contains (ce_types c) (pe_match e) /\
                       samePoint S (pe_d2 e) (pe_c e) (ce_d2 c) (ce_c c) = true)).
Proof.
  intros HP. rewrite (padded_match S pos l l' cl HP). split; intros [A B]; (split; [exact A|]); intros j e c E1 E2; apply peMatch_true; eapply B; eauto.
Qed.

(** ** C08: rematching after any history *)
(** the list of events of a reachable state is what matching everything from scratch gives *)
Theorem C08_listed_iff_matched_from_scratch ranks hash L cf it md i x :
  wfInput ranks L cf it -> reachable ranks hash L cf it md -> 0 <= x < nsites L ->
  (listed md i x <-> scratchMatch L (md_in md) (md_cf md) i x).
Proof. apply listed_scratch. Qed.
(** ... and what a new model built from the present configuration lists *)
Theorem C08_rebuilt_model_lists_the_same ranks hash L cf it md ranks' hash' md2 i x :
  wfInput ranks L cf it -> reachable ranks hash L cf it md -> 1 <= ranks' ->
  mkLatticeModel ranks' hash' L (md_cf md) it = Some md2 -> 0 <= x < nsites L ->
  (listed md i x <-> listed md2 i x).
Proof. apply rebuilt_same. Qed.
(** the event a step performs was listed in the state before the step, hence applies there *)
Theorem C08_performed_event_applies ranks hash L cf it md u1 u2 md' :
  wfInput ranks L cf it -> reachable ranks hash L cf it md -> singleStep md u1 u2 = Some md' ->
  exists i p x, zget (in_procs it) i = Some p /\ cf_lastproc (md_cf md') = pr_number p /\ cf_lastsite (md_cf md') = x /\
    listed md i x /\ scratchMatch L (md_in md) (md_cf md) i x.
Proof.
  intros WI HR HS. destruct (reachable_info _ _ _ _ _ _ WI HR) as (cf1 & it2 & RI).
  destruct (step_of _ _ _ _ _ _ _ _ _ _ _ WI RI HS) as (i & p & p' & x & sl & cf2 & cfl & p1 & aff & ups & SO). destruct SO.
  exists i, p, x. split; [exact so_orig|]. split; [apply so_last|]. split; [apply so_last|]. split; [exact so_listed|].
  rewrite (ri_lat _ _ _ _ _ _ _ _ RI) in so_range. apply (listed_scratch _ _ _ _ _ _ i x WI HR so_range). exact so_listed.
Qed.

(** ** C51: the rematched sites cover the influence of an event *)
(** in state md some process compares one of its entries at site z with the contents of site y *)
Definition looksAt (md : model) (z y : Z) : Prop :=
  exists i p k e cl c, pairIn (md_lat md) (md_in md) z i /\ zget (in_procs (md_in md)) i = Some p /\ zget (pr_ml p) k = Some e /\
    zget (cf_mlists (md_cf md)) z = Some cl /\ zget cl k = Some c /\ ce_index c = y.
Theorem C51_rematching_covers_influence ranks hash L cf it md u1 u2 md' :
  wfInput ranks L cf it -> reachable ranks hash L cf it md -> singleStep md u1 u2 = Some md' ->
  exists it1 cf1 it' idx, calculateMatching L (md_mt md) it1 cf1 idx = Some (md_mt md', it', md_cf md') /\
    forall y z, zget (cf_types (md_cf md')) y <> zget (cf_types (md_cf md)) y -> looksAt md z y -> In z idx.
Proof.
  intros WI HR HS. destruct (reachable_info _ _ _ _ _ _ WI HR) as (cf0 & it2 & RI). pose proof (ri_inv _ _ _ _ _ _ _ _ RI) as IV.
  pose proof (ri_lat _ _ _ _ _ _ _ _ RI) as EL. pose proof (wi_lat _ _ _ _ WI) as WF. subst L. set (L := md_lat md) in *.
  assert (LM : zlen (cf_mlists (md_cf md)) = nsites L) by apply IV.
  destruct (singleStep_info _ _ _ _ HS) as (i & p & site & cf1 & p1 & SI & it1 & SP & HB & EV & HPr & mt' & it' & cf' & CM & ->).
  destruct SI as (_ & Ep & q & Eq & _ & Eperf & _).
  destruct (perform_spec _ _ _ _ _ Eperf) as (sl & cfl & aff & ups & PX). cbn [md_cf md_mt].
  exists it1, cf1, it', (supersetNeighbourIndices L (pr_aff p1) (maxRange it1)). split; [exact CM|].
  intros y z Hy (j & pj & k & e & cl & c & HPI & Epj & Ek & Ecl & Ec & Ey).
  destruct (calculateMatching_cf _ _ _ _ _ _ _ _ CM) as [mls Ecf']. rewrite Ecf' in Hy. cbn [set_mlists cf_types] in Hy.
  destruct (in_dec Z.eq_dec y (map (fun x => ce_index (snd x)) (activeList (pr_ml q) sl))) as [Hin|Hn].
  2: { exfalso. apply Hy. eapply perform_types_frame; eauto. intros x Hx Hxy. apply Hn. apply in_map_iff. exists x. auto. }
  apply in_map_iff in Hin. destruct Hin as (x & Hx & Hin).
  assert (Hz : 0 <= z < nsites L).
  { apply zget_range in Ecl. lia. }
  assert (Haff : forall a, In a (pr_aff p1) -> 0 <= a < nsites L).
  { pose proof (step_inv _ _ _ _ IV HS) as (IV' & _ & _). intros a Ha.
    assert (Hsl : forall c0, In c0 sl -> 0 <= ce_index c0 < nsites L).
    { intros c0 Hc0. pose proof (px_sl _ _ _ _ _ _ _ _ _ PX) as Esl.
      assert (Hs0 : 0 <= site < nsites L) by (apply zget_range in Esl; lia).
      destruct (iv_geom _ IV site) as (cl' & g & G1 & G2 & G3); [exact Hs0|]. assert (cl' = sl) by congruence. subst cl'.
      assert (Hi : In (ce_index c0) (map ce_index sl)) by (apply in_map; exact Hc0).
      rewrite (geom_eq_index _ _ G3) in Hi. apply (Permutation_in _ (scratchGeo_index _ _ _ _ _ G2)) in Hi.
      refine (neighbour_range _ WF site _ _ Hs0 _ Hi). pose proof (maxRange_pos (md_in md)); lia. }
    destruct (perform_aff_inv _ _ _ _ _ _ _ _ _ _ PX Ha) as [([pe ce] & Hx' & ->)|Hold].
    - apply Hsl. unfold activeList in Hx'. apply filter_In in Hx'. destruct Hx' as [Hx' _]. apply in_combine_r in Hx'. exact Hx'.
    - destruct (updateRateTable_spec _ _ Eq) as (inc & Einc). rewrite Einc in Hold. cbn [set_inc pr_aff] in Hold.
      exact (iv_aff _ IV _ _ _ Ep Hold). }
  apply superset_spec; auto; [apply Forall_forall; exact Haff|pose proof (maxRange_pos it1); lia|].
  exists y. split; [rewrite <- Hx; eapply perform_aff; eauto|]. apply nearSites_sym.
  rewrite (sameP_maxRange _ _ SP).
  assert (HU : usedBy L (md_in md) z) by (exists j; exact HPI).
  destruct (scratch_at _ _ _ _ _ _ _ _ _ WI RI Hz HU) as (cl' & g & M1 & M2 & M3 & M4 & M5). assert (cl' = cl) by congruence. subst cl'.
  rewrite (ri_range _ _ _ _ _ _ _ _ RI).
  destruct (scratchML_In L (maxRange it) (md_cf md) z cl c) as (? & ? & _ & _ & _ & _ & _ & HN); auto; [pose proof (maxRange_pos it); lia|eapply zget_In; eauto|].
  rewrite <- Ey. exact HN.
Qed.

(** ** Examples *)
(** System 1 after three steps: the hypotheses hold, events are listed and events are not, and the padded
    processes are longer than the given ones. *)
Example C05_C06_C08_example : exists cf it md md' p p', system 2 xhash x1L x1basis 3 cf it x1us (dev 1 100) (dev 1 2) md md' /\
  reachable 2 xhash x1L cf it md /\ zget (in_procs it) 0 = Some p /\ regular x1L x1basis (maxRange it) 3 p /\
  zget (in_procs (md_in md)) 0 = Some p' /\ zlen (pr_ml p) = 2 /\ zlen (pr_ml p') = 5 /\
  (forall t, In t (cf_types cf) -> t <> []) /\
  (exists x, 0 <= x < nsites x1L /\ listed md 0 x) /\ (exists x, 0 <= x < nsites x1L /\ ~ listed md 0 x).
Proof.
  assert (E : x1check (fun cf it md md' => somewhere (zget (in_procs it) 0) (fun p => somewhere (zget (in_procs (md_in md)) 0) (fun p' =>
     (zlen (pr_ml p) =? 2) && (zlen (pr_ml p') =? 5) && forallb (fun t => negb (zlen t =? 0)) (cf_types cf) &&
     match pr_sites p' with [] => false | x :: _ => (0 <=? x) && (x <? nsites x1L) && somewhere (zget (events p') 0) (fun e => fst e =? x) end &&
     negb (zmem 1 (pr_sites p'))))) = true) by (vm_compute; reflexivity).
  unfold x1check in E. apply sysCheck_sound in E. destruct E as (cf & it & md & md' & _ & _ & SY & E).
  apply somewhere_Some in E. destruct E as (p & Ep & E). apply somewhere_Some in E. destruct E as (p' & Ep' & E).
  rewrite !andb_true_iff in E. destruct E as ((((E1 & E2) & E3) & E4) & E5). apply Z.eqb_eq in E1, E2.
  exists cf, it, md, md', p, p'. split; [exact SY|]. split; [apply (system_reach _ _ _ _ _ _ _ _ _ _ _ _ SY)|]. split; [exact Ep|].
  split; [eapply sy_regular; eauto|]. split; [exact Ep'|]. split; [exact E1|]. split; [exact E2|].
  split; [intros t Ht ->; rewrite forallb_forall in E3; specialize (E3 _ Ht); discriminate|]. split.
  - destruct (pr_sites p') as [|x l] eqn:Es; [discriminate|]. rewrite !andb_true_iff in E4. destruct E4 as ((E4 & E6) & E7).
    apply somewhere_Some in E7. destruct E7 as ([y r] & Ee & E7). apply Z.eqb_eq in E7. cbn [fst] in E7. subst y.
    exists x. split; [lia|]. exists r, p'. split; [exact Ep'|eapply zget_In; eauto].
  - exists 1. split; [unfold nsites; cbn; lia|]. intros (r & q & Eq & Hin). assert (q = p') by congruence. subst q.
    apply in_events_sites in Hin. apply zmem_In in Hin. rewrite Hin in E5. discriminate.
Qed.
(** System 2 (two basis points, bucket processes): a step changes the occupation of a site. *)
Example C51_example : exists cf it md md' y, system 3 xhash x2L x2basis 4 cf it x2us (dev 99 100) (dev 1 2) md md' /\
  zget (cf_types (md_cf md')) y <> zget (cf_types (md_cf md)) y /\ exists z, z <> y /\ looksAt md z y.
Proof.
  assert (E : x2check (fun cf it md md' => existsb (fun y =>
     somewhere (zget (cf_types (md_cf md')) y) (fun t' => somewhere (zget (cf_types (md_cf md)) y) (fun t => negb (list_eqb t t'))) &&
     existsb (fun z => negb (z =? y) && existsb (fun i => somewhere (zget (in_procs (md_in md)) i) (fun p =>
        zmem (basisSiteFromIndex (md_lat md) z) (pr_basis p) && somewhere (zget (cf_mlists (md_cf md)) z) (fun cl =>
        existsb (fun k => somewhere (zget (pr_ml p) k) (fun e => somewhere (zget cl k) (fun c => ce_index c =? y))) [1]))) [0]) [24]) [5]) = true)
    by (vm_compute; reflexivity).
  unfold x2check in E. apply sysCheck_sound in E. destruct E as (cf & it & md & md' & _ & _ & SY & E).
  apply existsb_exists in E. destruct E as (y & _ & E). apply andb_true_iff in E. destruct E as [E1 E2].
  apply existsb_exists in E2. destruct E2 as (z & _ & E2). apply andb_true_iff in E2. destruct E2 as [E2 E3].
  apply existsb_exists in E3. destruct E3 as (i & _ & E3). apply somewhere_Some in E3. destruct E3 as (p & Ep & E3).
  apply andb_true_iff in E3. destruct E3 as [E3 E4]. apply somewhere_Some in E4. destruct E4 as (cl & Ecl & E4).
  apply existsb_exists in E4. destruct E4 as (k & _ & E4). apply somewhere_Some in E4. destruct E4 as (e & Ee & E4).
  apply somewhere_Some in E4. destruct E4 as (c & Ec & E4). apply Z.eqb_eq in E4.
  exists cf, it, md, md', y. split; [exact SY|]. split.
  - apply somewhere_Some in E1. destruct E1 as (t' & -> & E1). apply somewhere_Some in E1. destruct E1 as (t & -> & E1).
    intros H. inversion H; subst t'. assert (R : forall a, list_eqb a a = true) by (induction a as [|v a IH]; cbn [list_eqb]; [|rewrite Z.eqb_refl, IH]; reflexivity).
    rewrite R in E1. discriminate.
  - exists z. split; [intros ->; rewrite Z.eqb_refl in E2; discriminate|]. exists i, p, k, e, cl, c.
    split; [exists p; split; [exact Ep|apply zmem_In; exact E3]|]. auto 10.
Qed.

Print Assumptions C05_listed_is_possible.
Print Assumptions C06_listed_iff_possible.
Print Assumptions C06_fractional_range_refuted.
Print Assumptions C07_only_inert_entries_added.
Print Assumptions C07_same_requirements.
Print Assumptions C08_listed_iff_matched_from_scratch.
Print Assumptions C08_rebuilt_model_lists_the_same.
Print Assumptions C08_performed_event_applies.
Print Assumptions C51_rematching_covers_influence.
