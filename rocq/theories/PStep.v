(** The invariant of the lattice model and its preservation by construction and by every step. *)
From Verif Require Import PBase SModel PLattice PProcess PMpi PRateTable PMatcher PPerform.
Open Scope Z_scope.
Open Scope list_scope.

(** ** match lists: geometry and types *)
Definition geom (cl : list centry) : list (Z * Z * coord) := map (fun e => (ce_index e, ce_d2 e, ce_c e)) cl.
Definition geoEntry (L : lattice) (coords : list coord) (center : coord) (index : Z) : option centry :=
  ci <- zget coords index ;;
  let c := wrapCoord L (csub ci center) in Some (mkCE index (cnorm2 c) c []).
Definition scratchGeo (L : lattice) (R : Z) (coords : list coord) (x : Z) : option (list centry) :=
  center <- zget coords x ;;
  gs <- omap (geoEntry L coords center) (neighbourIndices L x R) ;;
  Some (isort (ceLt (lt_unit L)) gs).

Definition withTypes (types : list bucket) (e : centry) : centry :=
  mkCE (ce_index e) (ce_d2 e) (ce_c e) (match zget types (ce_index e) with Some t => t | None => [] end).

Lemma refresh_total types l : (forall e, In e l -> 0 <= ce_index e < zlen types) ->
  omap (refreshEntry types) l = Some (map (withTypes types) l).
Proof.
  intros H. rewrite <- omap_Some_map. apply omap_ext. intros e He. unfold refreshEntry, withTypes.
  destruct (zget_lt types (ce_index e) (H e He)) as [t Et]. rewrite Et. reflexivity.
Qed.

Lemma refresh_geom types l l' : omap (refreshEntry types) l = Some l' -> geom l' = geom l.
Proof.
  intros H. apply omap_Forall2 in H. induction H; cbn [geom map]; [reflexivity|].
  unfold geom in *. rewrite IHForall2. f_equal. unfold refreshEntry in H. ob H as t Et. inversion H. reflexivity.
Qed.
Lemma refresh_of_geom types l l' : geom l = geom l' -> omap (refreshEntry types) l = omap (refreshEntry types) l'.
Proof.
  revert l'; induction l as [|e l IH]; intros [|e' l'] H; try discriminate; [reflexivity|].
  cbn [geom map] in H. inversion H. cbn [omap]. rewrite (IH l') by assumption.
  unfold refreshEntry. rewrite H1, H2, H3. reflexivity.
Qed.

Lemma scratch_eq L R cf x : wf_lattice L -> 0 <= R -> zlen (cf_coords cf) = nsites L -> zlen (cf_types cf) = nsites L ->
  0 <= x < nsites L ->
  exists g, scratchGeo L R (cf_coords cf) x = Some g /\ (forall e, In e g -> 0 <= ce_index e < nsites L) /\
    scratchML L R cf x = omap (refreshEntry (cf_types cf)) g /\
    omap (refreshEntry (cf_types cf)) g = Some (map (withTypes (cf_types cf)) g).
Proof.
  intros WF HR Hc Ht Hx. unfold scratchGeo, scratchML, configMatchList.
  destruct (zget_lt (cf_coords cf) x ltac:(lia)) as [center Ec]. rewrite Ec. cbn [obind].
  set (idx := neighbourIndices L x R).
  assert (Hidx : forall y, In y idx -> 0 <= y < nsites L) by (intros y Hy; eapply neighbour_range; eauto).
  destruct (omap_total (geoEntry L (cf_coords cf) center) idx) as [gs Egs].
  { intros y Hy. specialize (Hidx y Hy). destruct (zget_lt (cf_coords cf) y ltac:(lia)) as [c E].
    unfold geoEntry. rewrite E. cbn [obind]. eauto. }
  rewrite Egs. cbn [obind]. eexists. split; [reflexivity|].
  assert (Hgs : forall e, In e gs -> 0 <= ce_index e < nsites L).
  { intros e He. destruct (omap_In _ _ _ _ Egs He) as (y & Hy & E). unfold geoEntry in E. ob E as c Ecy. inversion E. cbn [ce_index]. auto. }
  assert (Hs : forall e, In e (isort (ceLt (lt_unit L)) gs) -> 0 <= ce_index e < nsites L).
  { intros e He. apply Hgs. apply (proj1 (isort_In _ _ _)) in He. exact He. }
  split; [exact Hs|].
  assert (ER : omap (refreshEntry (cf_types cf)) (isort (ceLt (lt_unit L)) gs) =
               Some (map (withTypes (cf_types cf)) (isort (ceLt (lt_unit L)) gs))).
  { apply refresh_total. intros e He. rewrite Ht. auto. }
  split; [|exact ER]. rewrite ER.
  assert (EC : omap (configEntry L (cf_coords cf) (cf_types cf) center) idx = Some (map (withTypes (cf_types cf)) gs)).
  { apply omap_Forall2. apply omap_Forall2 in Egs. clear -Egs Hgs Ht. induction Egs; cbn [map]; constructor.
    - unfold configEntry. unfold geoEntry in H. ob H as c Ec. inversion H; subst. rewrite Ec. cbn [obind].
      specialize (Hgs _ (or_introl eq_refl)). cbn [ce_index] in Hgs. rewrite <- Ht in Hgs.
      unfold withTypes. cbn [ce_index ce_d2 ce_c]. destruct (zget_lt _ _ Hgs) as [t Et]. rewrite Et. reflexivity.
    - apply IHEgs. intros e He. apply Hgs. right; auto. }
  rewrite EC. cbn [obind]. f_equal. apply isort_map. reflexivity.
Qed.

(** the entries of a list from scratch are exactly the neighbours *)
Lemma scratchGeo_index L R coords x g : scratchGeo L R coords x = Some g ->
  Permutation (map ce_index g) (neighbourIndices L x R).
Proof.
  unfold scratchGeo. intros H. ob H as center Ec. ob H as gs Egs. inversion H; subst.
  rewrite (Permutation_map ce_index (isort_perm _ gs)).
  replace (map ce_index gs) with (neighbourIndices L x R); [reflexivity|].
  apply omap_Forall2 in Egs. clear H. induction Egs as [|a b l l' H0 HF IH]; cbn [map]; [reflexivity|]. f_equal; [|exact IH].
  unfold geoEntry in H0. ob H0 as c E. inversion H0. reflexivity.
Qed.
Lemma scratchGeo_entry L R coords x g e : scratchGeo L R coords x = Some g -> In e g ->
  exists cx0 cy0, zget coords x = Some cx0 /\ zget coords (ce_index e) = Some cy0 /\
    ce_c e = wrapCoord L (csub cy0 cx0) /\ ce_d2 e = cnorm2 (ce_c e).
Proof.
  unfold scratchGeo. intros H He. ob H as center Ec. ob H as gs Egs. inversion H; subst.
  apply (proj1 (isort_In _ _ _)) in He. destruct (omap_In _ _ _ _ Egs He) as (y & Hy & E).
  unfold geoEntry in E. ob E as c Ecy. inversion E; subst. cbn [ce_index ce_c ce_d2]. exists center, c. auto.
Qed.

Lemma geom_index l : map (fun g : Z * Z * coord => fst (fst g)) (geom l) = map ce_index l.
Proof. unfold geom. rewrite map_map. reflexivity. Qed.
Lemma geom_eq_index l l' : geom l = geom l' -> map ce_index l = map ce_index l'.
Proof. intros H. rewrite <- !geom_index, H. reflexivity. Qed.

(** ** statics *)
Definition sameP (it it' : interactions) : Prop :=
  map pstatic (in_procs it') = map pstatic (in_procs it) /\
  in_wild it' = in_wild it /\ in_custom it' = in_custom it /\ in_rc it' = in_rc it.
Lemma sameP_refl it : sameP it it. Proof. repeat split. Qed.
Lemma sameP_trans a b c : sameP a b -> sameP b c -> sameP a c.
Proof. intros (A & B & C & D) (A' & B' & C' & D'). repeat split; congruence. Qed.
Lemma sameP_sym a b : sameP a b -> sameP b a.
Proof. intros (A & B & C & D). repeat split; congruence. Qed.
Lemma sameStatic_sameP a b : sameStatic a b -> sameP a b.
Proof.
  intros (A & B & C & D). split; [|auto]. assert (E : map fst (map pstat2 (in_procs b)) = map fst (map pstat2 (in_procs a))) by congruence.
  rewrite !map_map in E. exact E.
Qed.
Lemma sameP_get it it' i p' : sameP it it' -> zget (in_procs it') i = Some p' ->
  exists p, zget (in_procs it) i = Some p /\ pstatic p' = pstatic p.
Proof.
  intros (A & _) E. assert (E2 : zget (map pstatic (in_procs it')) i = Some (pstatic p')) by (rewrite zget_map, E; reflexivity).
  rewrite A, zget_map in E2. destruct (zget (in_procs it) i) as [p|]; [|discriminate]. exists p. split; [auto|].
  simpl in E2. congruence.
Qed.
Lemma sameP_set it i p p' ps : zget (in_procs it) i = Some p -> zset (in_procs it) i p' = Some ps ->
  pstatic p' = pstatic p -> sameP it (set_procs it ps).
Proof.
  intros E Es Hp. repeat split. cbn [set_procs in_procs]. apply zget_ext. intros j. rewrite !zget_map.
  rewrite (zset_get _ _ _ _ j Es). destruct (Z.eqb_spec j i); [|reflexivity]. subst. rewrite E. simpl. congruence.
Qed.
Lemma sameP_len a b : sameP a b -> zlen (in_procs b) = zlen (in_procs a).
Proof. intros (A & _). rewrite <- (zlen_map pstatic), A, zlen_map. reflexivity. Qed.
Lemma pstatic_fields p q : pstatic p = pstatic q ->
  pr_custom p = pr_custom q /\ pr_cache p = pr_cache q /\ pr_number p = pr_number q /\ pr_range p = pr_range q /\
  pr_rate p = pr_rate q /\ pr_cut2 p = pr_cut2 q /\ pr_ml p = pr_ml q /\ pr_basis p = pr_basis q /\
  pr_idmoves p = pr_idmoves q /\ pr_bucket p = pr_bucket q /\ length (pr_aff p) = length (pr_aff q).
Proof. unfold pstatic. intros H. inversion H. auto 20. Qed.

Lemma sameP_pairIn L a b x i : sameP a b -> (pairIn L a x i <-> pairIn L b x i).
Proof.
  intros H. split; intros (p & E & Hb).
  - destruct (sameP_get _ _ _ _ (sameP_sym _ _ H) E) as (q & Eq & Hs). apply pstatic_fields in Hs.
    exists q. split; [exact Eq|]. destruct Hs as (_ & _ & _ & _ & _ & _ & _ & Hb' & _). congruence.
  - destruct (sameP_get _ _ _ _ H E) as (q & Eq & Hs). apply pstatic_fields in Hs.
    exists q. split; [exact Eq|]. destruct Hs as (_ & _ & _ & _ & _ & _ & _ & Hb' & _). congruence.
Qed.
Lemma sameP_usedBy L a b x : sameP a b -> (usedBy L a x <-> usedBy L b x).
Proof. intros H. split; intros (i & Hi); exists i; [rewrite <- (sameP_pairIn L a b)|rewrite (sameP_pairIn L a b)]; auto. Qed.
Lemma sameP_matchAt S a b cf i x : sameP a b -> (matchAt S a cf i x <-> matchAt S b cf i x).
Proof.
  intros H. split; intros (p & cl & E & Ec & Hm).
  - destruct (sameP_get _ _ _ _ (sameP_sym _ _ H) E) as (q & Eq & Hs). apply pstatic_fields in Hs.
    exists q, cl. destruct Hs as (_ & _ & _ & _ & _ & _ & Hb' & _). rewrite Hb' in Hm. auto.
  - destruct (sameP_get _ _ _ _ H E) as (q & Eq & Hs). apply pstatic_fields in Hs.
    exists q, cl. destruct Hs as (_ & _ & _ & _ & _ & _ & Hb' & _). rewrite Hb' in Hm. auto.
Qed.
Lemma sameP_maxRange a b : sameP a b -> maxRange b = maxRange a.
Proof.
  intros (A & _). unfold maxRange.
  assert (E : map pr_range (in_procs b) = map pr_range (in_procs a)).
  { assert (E2 : map (fun t => snd (fst (fst (fst (fst (fst (fst (fst t)))))))) (map pstatic (in_procs b)) =
                 map (fun t => snd (fst (fst (fst (fst (fst (fst (fst t)))))))) (map pstatic (in_procs a))) by congruence.
    rewrite !map_map in E2. exact E2. }
  revert E. generalize 1. generalize (in_procs a) (in_procs b).
  induction l as [|p l IH]; intros [|q l'] m E; try discriminate; [reflexivity|].
  cbn [map] in E. inversion E. cbn [fold_left]. rewrite H0. apply IH. exact H1.
Qed.
Lemma sameP_custOK a b : sameP a b -> custOK a -> custOK b.
Proof.
  intros H HC i p E. destruct (sameP_get _ _ _ _ H E) as (q & Eq & Hs). apply pstatic_fields in Hs.
  destruct H as (_ & _ & Hc & _). rewrite Hc. rewrite <- (HC _ _ Eq). tauto.
Qed.
Lemma maxRange_pos it : 1 <= maxRange it.
Proof.
  unfold maxRange. assert (H : forall l m, 1 <= m -> 1 <= fold_left (fun m p => Z.max m (pr_range p)) l m).
  { induction l; intros m Hm; cbn [fold_left]; [exact Hm|]. apply IHl. lia. }
  apply H. lia.
Qed.
Lemma maxRange_ge it p : In p (in_procs it) -> pr_range p <= maxRange it.
Proof.
  unfold maxRange. assert (H : forall l m p, In p l \/ pr_range p <= m -> pr_range p <= fold_left (fun m p => Z.max m (pr_range p)) l m).
  { induction l as [|q l IH]; intros m r Hr; cbn [fold_left]; [destruct Hr as [[]|Hr]; exact Hr|].
    apply IH. destruct Hr as [[->|Hr]|Hr]; [right; lia|left; exact Hr|right; lia]. }
  intros Hp. apply H. auto.
Qed.

(** replacing a process by one with the same events *)
Lemma evt_set_same it i p p' ps j x r : zget (in_procs it) i = Some p -> zset (in_procs it) i p' = Some ps ->
  events p' = events p -> (evt (set_procs it ps) j x r <-> evt it j x r).
Proof.
  intros E Es He. rewrite (evt_set _ _ _ _ _ _ _ Es). destruct (Z.eqb_spec j i); [|tauto]. subst. rewrite He.
  split; [intros Hin; exists p; auto|]. intros (q & Eq & Hin). congruence.
Qed.
Lemma Binv_set_same it inv i p p' ps : Binv it inv -> zget (in_procs it) i = Some p -> zset (in_procs it) i p' = Some ps ->
  events p' = events p -> pInv p' -> Binv (set_procs it ps) inv.
Proof.
  intros [B1 B2 B3] E Es He Hp. constructor.
  - intros j q. cbn [set_procs in_procs]. rewrite (zset_get _ _ _ _ j Es). destruct (Z.eqb_spec j i).
    + intros Eq; inversion Eq; subst; exact Hp.
    + intros Eq. eapply B1; eauto.
  - intros x j b Hb. rewrite (B2 _ _ _ Hb). split; intros (r & Hr); exists r; apply (evt_set_same it i p p' ps j x r E Es He); exact Hr.
  - intros j x r Hr. apply (B3 j x r). apply (evt_set_same it i p p' ps j x r E Es He). exact Hr.
Qed.

(** ** the invariant *)
Record Inv (md : model) : Prop := {
  iv_wf : wf_lattice (md_lat md);
  iv_ranks : 1 <= mt_ranks (md_mt md);
  iv_lc : zlen (cf_coords (md_cf md)) = nsites (md_lat md);
  iv_lt : zlen (cf_types (md_cf md)) = nsites (md_lat md);
  iv_le : zlen (cf_elements (md_cf md)) = nsites (md_lat md);
  iv_lm : zlen (cf_mlists (md_cf md)) = nsites (md_lat md);
  iv_cust : custOK (md_in md);
  iv_rt : rtInv (mt_rt (md_mt md));
  iv_geom : forall x, 0 <= x < nsites (md_lat md) -> exists cl g, zget (cf_mlists (md_cf md)) x = Some cl /\
     scratchGeo (md_lat md) (maxRange (md_in md)) (cf_coords (md_cf md)) x = Some g /\ geom cl = geom g;
  iv_fresh : forall x, 0 <= x < nsites (md_lat md) -> usedBy (md_lat md) (md_in md) x ->
     zget (cf_mlists (md_cf md)) x = scratchML (md_lat md) (maxRange (md_in md)) (md_cf md) x;
  iv_binv : Binv (md_in md) (mt_inv (md_mt md));
  iv_shape : forall x i, invAt (mt_inv (md_mt md)) x i <> None <->
     (0 <= x < nsites (md_lat md) /\ 0 <= i < zlen (in_procs (md_in md)));
  iv_evt : forall i x r, evt (md_in md) i x r -> 0 <= x < nsites (md_lat md) /\ pairIn (md_lat md) (md_in md) x i;
  iv_listed : forall i x, 0 <= x < nsites (md_lat md) -> pairIn (md_lat md) (md_in md) x i ->
     ((exists r, evt (md_in md) i x r) <-> matchAt (lt_unit (md_lat md)) (md_in md) (md_cf md) i x);
  iv_rate : in_custom (md_in md) = false -> forall i x r, evt (md_in md) i x r ->
     exists p, zget (in_procs (md_in md)) i = Some p /\ r = pr_rate p;
  iv_table : in_table (md_in md) = probTable 0 (in_procs (md_in md));
  iv_aff : forall i p a, zget (in_procs (md_in md)) i = Some p -> In a (pr_aff p) -> 0 <= a < nsites (md_lat md) }.

Lemma set_table_evt it t i x r : evt (set_table it t) i x r <-> evt it i x r.
Proof. reflexivity. Qed.
Lemma set_table_binv it t inv : Binv it inv -> Binv (set_table it t) inv.
Proof. intros [A B C]. constructor; assumption. Qed.
Lemma set_table_sameP it t : sameP it (set_table it t).
Proof. repeat split. Qed.

(** What holds before a matching round over the sites [idx] is run *)
Record PreInv (L : lattice) (cf : config) (it : interactions) (mt : matcher) (idx : list Z) : Prop := {
  pv_wf : wf_lattice L;
  pv_ranks : 1 <= mt_ranks mt;
  pv_lc : zlen (cf_coords cf) = nsites L;
  pv_lt : zlen (cf_types cf) = nsites L;
  pv_le : zlen (cf_elements cf) = nsites L;
  pv_lm : zlen (cf_mlists cf) = nsites L;
  pv_cust : custOK it;
  pv_rt : rtInv (mt_rt mt);
  pv_geom : forall x, 0 <= x < nsites L -> exists cl g, zget (cf_mlists cf) x = Some cl /\
     scratchGeo L (maxRange it) (cf_coords cf) x = Some g /\ geom cl = geom g;
  pv_fresh : forall x, 0 <= x < nsites L -> ~ In x idx -> usedBy L it x ->
     zget (cf_mlists cf) x = scratchML L (maxRange it) cf x;
  pv_binv : Binv it (mt_inv mt);
  pv_shape : forall x i, invAt (mt_inv mt) x i <> None <-> (0 <= x < nsites L /\ 0 <= i < zlen (in_procs it));
  pv_evt : forall i x r, evt it i x r -> 0 <= x < nsites L /\ pairIn L it x i;
  pv_listed : forall i x, 0 <= x < nsites L -> ~ In x idx -> pairIn L it x i ->
     ((exists r, evt it i x r) <-> matchAt (lt_unit L) it cf i x);
  pv_rate : in_custom it = false -> forall i x r, evt it i x r -> exists p, zget (in_procs it) i = Some p /\ r = pr_rate p;
  pv_aff : forall i p a, zget (in_procs it) i = Some p -> In a (pr_aff p) -> 0 <= a < nsites L;
  pv_nodup : NoDup idx;
  pv_idx : forall x, In x idx -> 0 <= x < nsites L }.

Lemma scratchML_mlists L R cf mls x : scratchML L R (set_mlists cf mls) x = scratchML L R cf x.
Proof. reflexivity. Qed.

Lemma usedBy_dec L it x : usedBy L it x \/ ~ usedBy L it x.
Proof.
  destruct (pairsOf L (in_procs it) x) eqn:E.
  - right. apply pairsOf_nil. exact E.
  - left. destruct p as [y i]. exists i. assert (Hin : In (y, i) (pairsOf L (in_procs it) x)) by (rewrite E; left; reflexivity).
    apply In_pairsOf in Hin. tauto.
Qed.
Lemma pairIn_dec L it x i : pairIn L it x i \/ ~ pairIn L it x i.
Proof.
  unfold pairIn. destruct (zget (in_procs it) i) as [p|].
  - destruct (in_dec Z.eq_dec (basisSiteFromIndex L x) (pr_basis p)).
    + left. exists p. auto.
    + right. intros (q & E & H). inversion E; subst. auto.
  - right. intros (q & E & _). discriminate.
Qed.

Lemma matching_round L cf it mt idx mt' it' cf' : PreInv L cf it mt idx ->
  calculateMatching L mt it cf idx = Some (mt', it', cf') ->
  Inv (mkMD L cf' (updateProbabilityTable it') mt') /\ sameP it it' /\ cmOK L mt it cf idx mt' it' cf'.
Proof.
  intros PV H. pose proof PV as PV0. destruct PV.
  pose proof (calculateMatching_spec _ _ _ _ _ _ _ _ pv_ranks0 pv_nodup0 pv_cust0 pv_rt0 pv_binv0 H) as CM.
  pose proof (sameStatic_sameP _ _ (cm_static _ _ _ _ _ _ _ _ CM)) as SP.
  split; [|auto]. destruct (cm_cf _ _ _ _ _ _ _ _ CM) as (mls & Ecf & Hlen & Hml).
  pose proof (sameP_maxRange _ _ SP) as HR.
  assert (HR' : maxRange (updateProbabilityTable it') = maxRange it) by exact HR.
  assert (Hused : forall x, usedBy L (updateProbabilityTable it') x <-> usedBy L it x)
    by (intros x; symmetry; apply sameP_usedBy; exact SP).
  assert (Hpair : forall x i, pairIn L (updateProbabilityTable it') x i <-> pairIn L it x i)
    by (intros x i; symmetry; apply sameP_pairIn; exact SP).
  assert (Hmatch : forall c x i, matchAt (lt_unit L) (updateProbabilityTable it') c i x <-> matchAt (lt_unit L) it c i x)
    by (intros c x i; symmetry; apply sameP_matchAt; exact SP).
  assert (Hpos : 0 <= maxRange it) by (pose proof (maxRange_pos it); lia).
  subst cf'. constructor; cbn [md_lat md_cf md_in md_mt]; try assumption.
  - rewrite (cm_ranks _ _ _ _ _ _ _ _ CM). assumption.
  - cbn [set_mlists cf_mlists]. lia.
  - apply (sameP_custOK it it'); assumption.
  - apply CM.
  - intros x Hx. rewrite HR'. cbn [set_mlists cf_mlists cf_coords]. destruct (pv_geom0 x Hx) as (cl & g & E1 & E2 & E3).
    destruct (Hml x) as [(_ & _ & (ml & ml' & A & B & C))|[_ A]].
    + exists ml', g. assert (ml = cl) by congruence. subst ml. rewrite (refresh_geom _ _ _ B). auto.
    + exists cl, g. rewrite A. auto.
  - intros x Hx Hu. rewrite HR'. apply Hused in Hu. rewrite scratchML_mlists. cbn [set_mlists cf_mlists].
    destruct (Hml x) as [(_ & _ & (ml & ml' & A & B & C))|[Hn A]].
    + rewrite C. destruct (pv_geom0 x Hx) as (cl & g & E1 & E2 & E3).
      destruct (scratch_eq L (maxRange it) cf x) as (g' & F1 & F2 & F3 & F4); auto.
      assert (g' = g) by congruence. subst g'. rewrite F3. rewrite <- B. symmetry.
      assert (ml = cl) by congruence. subst ml. apply refresh_of_geom. congruence.
    + rewrite A. apply pv_fresh0; auto.
  - apply set_table_binv. apply CM.
  - intros x i. cbn [updateProbabilityTable set_table in_procs]. rewrite (sameP_len _ _ SP). rewrite <- pv_shape0.
    rewrite (cm_shape _ _ _ _ _ _ _ _ CM x i). tauto.
  - intros i x r Hev. change (evt it' i x r) in Hev. rewrite Hpair.
    destruct (in_dec Z.eq_dec x idx) as [Hin|Hn].
    + split; [auto|]. destruct (pairIn_dec L it x i) as [Hp|Hp]; [exact Hp|].
      exfalso. apply (proj1 (cm_out _ _ _ _ _ _ _ _ CM x i r ltac:(tauto))) in Hev. apply pv_evt0 in Hev. tauto.
    + apply (proj1 (cm_out _ _ _ _ _ _ _ _ CM x i r ltac:(tauto))) in Hev. apply pv_evt0 in Hev. tauto.
  - intros i x Hx Hp. apply Hpair in Hp. rewrite Hmatch.
    change ((exists r, evt it' i x r) <-> matchAt (lt_unit L) it (set_mlists cf mls) i x).
    destruct (in_dec Z.eq_dec x idx) as [Hin|Hn].
    + apply (cm_in _ _ _ _ _ _ _ _ CM); auto.
    + assert (E1 : (exists r, evt it' i x r) <-> exists r, evt it i x r).
      { split; intros (r & Hr); exists r; apply (cm_out _ _ _ _ _ _ _ _ CM x i r); tauto. }
      rewrite E1, pv_listed0 by auto. unfold matchAt. cbn [set_mlists cf_mlists].
      destruct (Hml x) as [(A & _)|[_ A]]; [tauto|]. rewrite A. tauto.
  - cbn [updateProbabilityTable set_table in_custom in_procs]. intros Hc i x r Hev. change (evt it' i x r) in Hev.
    destruct SP as (SP1 & SP2 & SP3 & SP4). rewrite SP3 in Hc.
    assert (exists p, zget (in_procs it) i = Some p /\ r = pr_rate p) as (p & Ep & ->).
    { destruct (in_dec Z.eq_dec x idx) as [Hin|Hn].
      - destruct (pairIn_dec L it x i) as [Hp|Hp].
        + pose proof (cm_rate _ _ _ _ _ _ _ _ CM x i r Hin Hp Hev) as Hr. rewrite Hc in Hr. exact Hr.
        + apply (proj1 (cm_out _ _ _ _ _ _ _ _ CM x i r ltac:(tauto))) in Hev. eapply pv_rate0; eauto.
      - apply (proj1 (cm_out _ _ _ _ _ _ _ _ CM x i r ltac:(tauto))) in Hev. eapply pv_rate0; eauto. }
    destruct (sameP_get it' it i p) as (q & Eq & Hs); [repeat split; congruence|exact Ep|].
    exists q. split; [exact Eq|]. apply pstatic_fields in Hs. tauto.
  - reflexivity.
  - cbn [updateProbabilityTable set_table in_procs]. intros i p a Ep Ha.
    destruct (sameStatic_get _ _ _ _ (cm_static _ _ _ _ _ _ _ _ CM) Ep) as (q & Eq & Hs).
    unfold pstat2 in Hs. inversion Hs. eapply pv_aff0; eauto. congruence.
Qed.

(** ** one step *)
Definition stepInfo (md : model) (u1 u2 : deviate) (md' : model) (i : Z) (p : process) (site : Z)
           (cf1 : config) (p1 : process) : Prop :=
  pickProcessIndex (md_in md) u1 = Some i /\ zget (in_procs (md_in md)) i = Some p /\
  exists q, updateRateTable p = Some q /\ pickSite q u2 = Some site /\
    performBucketProcess (md_cf md) q site = Some (cf1, p1) /\
    exists it1 mt' it' cf', sameP (md_in md) it1 /\
      (forall j x r, evt it1 j x r <-> evt (md_in md) j x r) /\
      calculateMatching (md_lat md) (md_mt md) it1 cf1
         (supersetNeighbourIndices (md_lat md) (pr_aff p1) (maxRange it1)) = Some (mt', it', cf') /\
      md' = mkMD (md_lat md) cf' (updateProbabilityTable it') mt' /\
      (forall j q', zget (in_procs it1) j = Some q' -> if j =? i then q' = p1 else zget (in_procs (md_in md)) j = Some q').

Lemma updateRateTable_spec p q : updateRateTable p = Some q -> exists inc, q = set_inc p inc.
Proof. unfold updateRateTable. intros H. ob H as rs E. inversion H. eauto. Qed.
Lemma set_inc_facts p inc : events (set_inc p inc) = events p /\ pstatic (set_inc p inc) = pstatic p /\
  pr_aff (set_inc p inc) = pr_aff p /\ (pInv p -> pInv (set_inc p inc)).
Proof. split; [reflexivity|]. split; [reflexivity|]. split; [reflexivity|]. intros []; constructor; assumption. Qed.
Lemma set_aff_facts p aff : events (set_aff p aff) = events p /\ (zlen aff = zlen (pr_aff p) -> pstatic (set_aff p aff) = pstatic p) /\
  (pInv p -> pInv (set_aff p aff)).
Proof.
  split; [reflexivity|]. split; [|intros []; constructor; assumption]. intros H. unfold pstatic. cbn [set_aff pr_custom pr_cache pr_number pr_range pr_rate pr_cut2 pr_ml pr_basis pr_idmoves pr_bucket pr_aff].
  unfold zlen in H. replace (length aff) with (length (pr_aff p)) by lia. reflexivity.
Qed.

(** a step is an event followed by a matching round *)
Definition eventPart (md : model) (u1 u2 : deviate) : option (interactions * config * list Z) :=
  r <- pickProcess (md_in md) u1 ;;
  p <- zget (in_procs (snd r)) (fst r) ;;
  site <- pickSite p u2 ;;
  cp <- performBucketProcess (md_cf md) p site ;;
  ps <- zset (in_procs (snd r)) (fst r) (snd cp) ;;
  Some (set_procs (snd r) ps, fst cp, supersetNeighbourIndices (md_lat md) (pr_aff (snd cp)) (maxRange (set_procs (snd r) ps))).
Lemma singleStep_split md u1 u2 : singleStep md u1 u2 =
  (e <- eventPart md u1 u2 ;; r <- calculateMatching (md_lat md) (md_mt md) (fst (fst e)) (snd (fst e)) (snd e) ;;
   Some (mkMD (md_lat md) (snd r) (updateProbabilityTable (snd (fst r))) (fst (fst r)))).
Proof.
  unfold singleStep, eventPart. cbv zeta. destruct (pickProcess (md_in md) u1) as [[i it]|]; [|reflexivity]. cbn [obind fst snd].
  destruct (zget (in_procs it) i) as [p|]; [|reflexivity]. cbn [obind]. destruct (pickSite p u2) as [site|]; [|reflexivity]. cbn [obind].
  destruct (performBucketProcess (md_cf md) p site) as [[cf1 p1]|]; [|reflexivity]. cbn [obind fst snd]. destruct (zset (in_procs it) i p1) as [ps|]; [|reflexivity]. cbn [obind fst snd].
  destruct (calculateMatching _ _ _ _ _) as [[[mt it'] cf']|]; reflexivity.
Qed.
Lemma event_info md u1 u2 it1 cf1 idx : eventPart md u1 u2 = Some (it1, cf1, idx) ->
  exists i p q site p1, pickProcessIndex (md_in md) u1 = Some i /\ zget (in_procs (md_in md)) i = Some p /\ updateRateTable p = Some q /\ pickSite q u2 = Some site /\
    performBucketProcess (md_cf md) q site = Some (cf1, p1) /\ sameP (md_in md) it1 /\ (Binv (md_in md) (mt_inv (md_mt md)) -> Binv it1 (mt_inv (md_mt md))) /\
    (forall j x r, evt it1 j x r <-> evt (md_in md) j x r) /\
    (forall j q', zget (in_procs it1) j = Some q' -> if j =? i then q' = p1 else zget (in_procs (md_in md)) j = Some q') /\
    idx = supersetNeighbourIndices (md_lat md) (pr_aff p1) (maxRange it1).
Proof.
  unfold eventPart. intros H. ob H as r Epp. destruct r as [i it]. cbn [fst snd] in H.
  ob H as q Eq. ob H as site Es. ob H as cp Ecp. destruct cp as [cf p1]. cbn [fst snd] in H. ob H as ps Eps. inversion H; subst; clear H.
  unfold pickProcess in Epp. ob Epp as i' Ei. ob Epp as p Ep. ob Epp as p' Ep'. ob Epp as ps0 Eps0. inversion Epp; subst; clear Epp.
  cbn [set_procs in_procs] in Eq. assert (q = p').
  { rewrite (zset_get _ _ _ _ i Eps0), Z.eqb_refl in Eq. congruence. }
  subst q. destruct (updateRateTable_spec _ _ Ep') as (inc & Einc).
  destruct (set_inc_facts p inc) as (FE & FS & FA & FI). rewrite <- Einc in *.
  destruct (perform_spec _ _ _ _ _ Ecp) as (sl & cfl & aff & ups & PX).
  assert (Hp1 : p1 = set_aff p' aff) by apply PX.
  assert (Hlaff : zlen aff = zlen (pr_aff p')) by (apply (lx_laff _ _ _ _ _ _ _ (px_loop _ _ _ _ _ _ _ _ _ PX))).
  destruct (set_aff_facts p' aff) as (GE & GS & GI). rewrite <- Hp1 in *. specialize (GS Hlaff).
  set (it0 := set_procs (md_in md) ps0) in *. set (it1 := set_procs it0 ps) in *.
  assert (S0 : sameP (md_in md) it0) by (eapply sameP_set; eauto).
  assert (S1 : sameP it0 it1) by (eapply sameP_set; eauto).
  assert (S : sameP (md_in md) it1) by (eapply sameP_trans; eauto).
  assert (EV : forall j x r, evt it1 j x r <-> evt (md_in md) j x r).
  { intros j x r. unfold it1. rewrite (evt_set_same it0 i p' p1 ps); auto. unfold it0. apply (evt_set_same _ i p p'); auto. }
  assert (HP : forall j q', zget (in_procs it1) j = Some q' -> if j =? i then q' = p1 else zget (in_procs (md_in md)) j = Some q').
  { intros j q'. unfold it1, it0. cbn [set_procs in_procs]. rewrite (zset_get _ _ _ _ j Eps).
    destruct (Z.eqb_spec j i); [congruence|]. unfold it0. cbn [set_procs in_procs]. rewrite (zset_get _ _ _ _ j Eps0).
    destruct (Z.eqb_spec j i); [congruence|auto]. }
  exists i, p, p', site, p1. split; [exact Ei|]. split; [exact Ep|]. split; [exact Ep'|]. split; [exact Es|]. split; [exact Ecp|]. split; [exact S|]. split; [|auto].
  intros HB. unfold it1. eapply (Binv_set_same it0 _ i p' p1); eauto.
  - unfold it0. eapply (Binv_set_same _ _ i p p'); eauto. apply FI. eapply bi_proc; eauto.
  - apply GI, FI. eapply bi_proc; eauto.
Qed.
Lemma singleStep_info md u1 u2 md' : singleStep md u1 u2 = Some md' ->
  exists i p site cf1 p1, stepInfo md u1 u2 md' i p site cf1 p1 /\
   exists it1, sameP (md_in md) it1 /\ (Binv (md_in md) (mt_inv (md_mt md)) -> Binv it1 (mt_inv (md_mt md))) /\
      (forall j x r, evt it1 j x r <-> evt (md_in md) j x r) /\
      (forall j q', zget (in_procs it1) j = Some q' -> if j =? i then q' = p1 else zget (in_procs (md_in md)) j = Some q') /\
      exists mt' it' cf', calculateMatching (md_lat md) (md_mt md) it1 cf1
         (supersetNeighbourIndices (md_lat md) (pr_aff p1) (maxRange it1)) = Some (mt', it', cf') /\
      md' = mkMD (md_lat md) cf' (updateProbabilityTable it') mt'.
Proof.
  intros H. rewrite singleStep_split in H. ob H as e Ee. destruct e as [[it1 cf1] idx]. ob H as r Er. destruct r as [[mt' it'] cf']. inversion H; subst; clear H. cbn [fst snd] in *.
  destruct (event_info _ _ _ _ _ _ Ee) as (i & p & q & site & p1 & A1 & A2 & A3 & A4 & A5 & A6 & A7 & A8 & A9 & ->).
  exists i, p, site, cf1, p1. split; [|exists it1; repeat (split; [assumption|]); exists mt', it', cf'; auto].
  split; [exact A1|]. split; [exact A2|]. exists q. split; [exact A3|]. split; [exact A4|]. split; [exact A5|]. exists it1, mt', it', cf'. auto 10.
Qed.

(** the parts of a step: the event, then a matching round over the sites that may see the change *)
Record eventParts (md : model) (it1 : interactions) (cf1 : config) (idx : list Z) : Prop := {
  ep_same : sameP (md_in md) it1;
  ep_evt : forall j x r, evt it1 j x r <-> evt (md_in md) j x r;
  ep_pre : PreInv (md_lat md) cf1 it1 (md_mt md) idx;
  ep_frame : pframe (md_cf md) cf1;
  ep_out : forall x cl e, 0 <= x < nsites (md_lat md) -> ~ In x idx -> zget (cf_mlists (md_cf md)) x = Some cl -> In e cl ->
     zget (cf_types cf1) (ce_index e) = zget (cf_types (md_cf md)) (ce_index e) /\
     zget (cf_elements cf1) (ce_index e) = zget (cf_elements (md_cf md)) (ce_index e) }.
Record stepParts (md md' : model) (it1 it' : interactions) (cf1 cf' : config) (mt' : matcher) (idx : list Z) : Prop := {
  sq_same : sameP (md_in md) it1;
  sq_evt : forall j x r, evt it1 j x r <-> evt (md_in md) j x r;
  sq_pre : PreInv (md_lat md) cf1 it1 (md_mt md) idx;
  sq_cm : calculateMatching (md_lat md) (md_mt md) it1 cf1 idx = Some (mt', it', cf');
  sq_md : md' = mkMD (md_lat md) cf' (updateProbabilityTable it') mt';
  sq_frame : pframe (md_cf md) cf1;
  sq_out : forall x cl e, 0 <= x < nsites (md_lat md) -> ~ In x idx -> zget (cf_mlists (md_cf md)) x = Some cl -> In e cl ->
     zget (cf_types cf1) (ce_index e) = zget (cf_types (md_cf md)) (ce_index e) /\
     zget (cf_elements cf1) (ce_index e) = zget (cf_elements (md_cf md)) (ce_index e) }.

Lemma event_parts md u1 u2 it1 cf1 idx : Inv md -> eventPart md u1 u2 = Some (it1, cf1, idx) -> eventParts md it1 cf1 idx.
Proof.
  intros IV H. destruct (event_info _ _ _ _ _ _ H) as (i & p & q & site & p1 & _ & Ep & Eq & _ & Eperf & SP & HB & EV & HPr & ->). clear H.
  destruct (perform_spec _ _ _ _ _ Eperf) as (sl & cfl & aff & ups & PX).
  destruct IV. set (L := md_lat md) in *. set (N := nsites L) in *.
  pose proof (sameP_maxRange _ _ SP) as HR.
  assert (Hpos : 0 <= maxRange (md_in md)) by (pose proof (maxRange_pos (md_in md)); lia).
  pose proof (px_frame _ _ _ _ _ _ _ _ _ PX) as PF.
  destruct (updateRateTable_spec _ _ Eq) as (inc & Einc).
  assert (Hml : pr_ml q = pr_ml p) by (rewrite Einc; reflexivity).
  assert (Haffq : pr_aff q = pr_aff p) by (rewrite Einc; reflexivity).
  (* the match list of the event site *)
  pose proof (px_sl _ _ _ _ _ _ _ _ _ PX) as Esl.
  assert (Hsite : 0 <= site < N) by (apply zget_range in Esl; lia).
  destruct (iv_geom0 site Hsite) as (cl & g & G1 & G2 & G3). assert (cl = sl) by congruence. subst cl.
  assert (Hslidx : forall e, In e sl -> 0 <= ce_index e < N).
  { intros e He. assert (Hin : In (ce_index e) (map ce_index sl)) by (apply in_map; exact He).
    rewrite (geom_eq_index _ _ G3) in Hin. apply (Permutation_in _ (scratchGeo_index _ _ _ _ _ G2)) in Hin.
    eapply neighbour_range; eauto. }
  assert (Hact : forall x, In x (activeList (pr_ml q) sl) -> 0 <= ce_index (snd x) < N).
  { intros [a b] Hx. apply Hslidx. unfold activeList in Hx. apply filter_In in Hx. destruct Hx as [Hx _].
    apply in_combine_r in Hx. exact Hx. }
  assert (Haff1 : forall a, In a (pr_aff p1) -> 0 <= a < N).
  { intros a Ha. destruct (perform_aff_inv _ _ _ _ _ _ _ _ _ _ PX Ha) as [(x & Hx & ->)|Hold]; [auto|].
    rewrite Haffq in Hold. eapply iv_aff0; eauto. }
  set (idx := supersetNeighbourIndices L (pr_aff p1) (maxRange it1)) in *.
  assert (Hidx : forall y, In y idx <-> exists a, In a (pr_aff p1) /\ nearSites L (maxRange it1) a y).
  { intros y. apply superset_spec; auto; [apply Forall_forall; auto|lia]. }
  (* sites outside idx do not see any change *)
  assert (Hout : forall x, 0 <= x < N -> ~ In x idx -> scratchML L (maxRange it1) cf1 x = scratchML L (maxRange it1) (md_cf md) x).
  { intros x Hx Hn.
    destruct (scratch_eq L (maxRange it1) (md_cf md) x) as (g1 & A1 & A2 & A3 & A4); auto; [lia|].
    destruct (scratch_eq L (maxRange it1) cf1 x) as (g2 & B1 & B2 & B3 & B4); auto;
      [lia|rewrite (pf_coords _ _ PF); auto|rewrite (pf_lt _ _ PF); auto|].
    rewrite (pf_coords _ _ PF) in B1. assert (g2 = g1) by congruence. subst g2. rewrite A3, B3.
    apply omap_ext. intros e He. unfold refreshEntry.
    rewrite (perform_types_frame _ _ _ _ _ _ _ _ _ (ce_index e) PX); [reflexivity|].
    intros y Hy Heq. apply Hn. apply Hidx. exists (ce_index (snd y)). split; [eapply perform_aff; eauto|].
    rewrite Heq. apply nearSites_sym. apply neighbour_spec; auto; [lia|].
    eapply Permutation_in; [apply (scratchGeo_index _ _ _ _ _ A1)|apply in_map; exact He]. }
  assert (PV : PreInv L cf1 it1 (md_mt md) idx).
  { constructor; auto.
    - rewrite (pf_coords _ _ PF); auto.
    - rewrite (pf_lt _ _ PF); auto.
    - rewrite (pf_le _ _ PF); auto.
    - rewrite (pf_mlists _ _ PF); auto.
    - eapply sameP_custOK; eauto.
    - intros x Hx. rewrite (pf_mlists _ _ PF), (pf_coords _ _ PF), HR. auto.
    - intros x Hx Hn Hu. rewrite (pf_mlists _ _ PF). rewrite Hout by auto. rewrite HR. apply iv_fresh0; auto.
      eapply sameP_usedBy; eauto.
    - intros x j. rewrite (sameP_len _ _ SP). auto.
    - intros j x r Hev. apply EV in Hev. apply iv_evt0 in Hev. destruct Hev. split; [auto|].
      rewrite <- (sameP_pairIn L (md_in md) it1); auto.
    - intros j x Hx Hn Hp. apply (sameP_pairIn L (md_in md) it1) in Hp; [|exact SP].
      assert (EE : (exists r, evt it1 j x r) <-> exists r, evt (md_in md) j x r) by (split; intros (r & Hr); exists r; apply EV; auto).
      rewrite EE, iv_listed0 by auto. rewrite (sameP_matchAt _ (md_in md) it1) by auto.
      unfold matchAt. rewrite (pf_mlists _ _ PF). tauto.
    - intros Hc j x r Hev. destruct SP as (SP1 & SP2 & SP3 & SP4). rewrite SP3 in Hc. apply EV in Hev.
      destruct (iv_rate0 Hc _ _ _ Hev) as (p0 & E0 & ->).
      destruct (sameP_get it1 (md_in md) j p0) as (q' & Eq' & Hs); [repeat split; congruence|exact E0|].
      exists q'. split; [exact Eq'|]. apply pstatic_fields in Hs. tauto.
    - intros j q' a Ej Ha. specialize (HPr _ _ Ej). destruct (j =? i); [subst q'; auto|]. eapply iv_aff0; eauto.
    - apply superset_NoDup.
    - intros x Hx. apply Hidx in Hx. destruct Hx as (a & _ & Hnear). apply nearSites_range in Hnear; [tauto|auto]. }
  constructor; auto.
  intros x cl e Hx Hn Ecl He.
  assert (HE : forall y, In y (activeList (pr_ml q) sl) -> ce_index (snd y) <> ce_index e).
  { intros y Hy Heq. apply Hn. apply Hidx. exists (ce_index (snd y)). split; [eapply perform_aff; eauto|].
    rewrite Heq. apply nearSites_sym. apply neighbour_spec; auto; [lia|].
    destruct (iv_geom0 x Hx) as (cl' & g' & A1 & A2 & A3). assert (cl' = cl) by congruence. subst cl'. rewrite HR.
    eapply Permutation_in; [apply (scratchGeo_index _ _ _ _ _ A2)|]. rewrite <- (geom_eq_index _ _ A3). apply in_map; exact He. }
  split; [eapply perform_types_frame; eauto|].
  rewrite (px_elements _ _ _ _ _ _ _ _ _ PX). pose proof (lx_elements _ _ _ _ _ _ _ (px_loop _ _ _ _ _ _ _ _ _ PX) (ce_index e)) as HX.
  assert (E0 : atSite (ce_index e) (activeList (pr_ml q) sl) = []).
  { unfold atSite. revert HE. generalize (activeList (pr_ml q) sl). clear. induction l as [|y l IH]; intros HE; [reflexivity|].
    cbn [filter]. destruct (Z.eqb_spec (ce_index (snd y)) (ce_index e)) as [E|E]; [exfalso; apply (HE y); [left; auto|exact E]|].
    apply IH. intros z Hz. apply HE. right; auto. }
  rewrite E0 in HX. exact HX.
Qed.
Lemma step_parts md u1 u2 md' : Inv md -> singleStep md u1 u2 = Some md' ->
  exists it1 it' cf1 cf' mt' idx, stepParts md md' it1 it' cf1 cf' mt' idx.
Proof.
  intros IV H. rewrite singleStep_split in H. ob H as e Ee. destruct e as [[it1 cf1] idx]. ob H as r Er. destruct r as [[mt' it'] cf']. inversion H; subst; clear H. cbn [fst snd] in *.
  destruct (event_parts _ _ _ _ _ _ IV Ee). exists it1, it', cf1, cf', mt', idx. constructor; auto.
Qed.

Theorem step_inv md u1 u2 md' : Inv md -> singleStep md u1 u2 = Some md' ->
  Inv md' /\ sameP (md_in md) (md_in md') /\ md_lat md' = md_lat md.
Proof.
  intros IV H. destruct (step_parts _ _ _ _ IV H) as (it1 & it' & cf1 & cf' & mt' & idx & []). subst md'.
  destruct (matching_round _ _ _ _ _ _ _ _ sq_pre0 sq_cm0) as (IV' & SP' & _).
  split; [exact IV'|]. split; [|reflexivity]. cbn [md_in]. eapply sameP_trans; [exact sq_same0|].
  eapply sameP_trans; [exact SP'|]. apply set_table_sameP.
Qed.

Theorem run_inv us : forall md md', Inv md -> runSteps md us = Some md' ->
  Inv md' /\ sameP (md_in md) (md_in md') /\ md_lat md' = md_lat md.
Proof.
  induction us as [|u us IH]; intros md md' IV H; unfold runSteps in H; cbn [ofold] in H.
  - inversion H; subst. split; [auto|]. split; [apply sameP_refl|reflexivity].
  - ob H as md1 E. destruct (step_inv _ _ _ _ IV E) as (IV1 & S1 & L1).
    destruct (IH _ _ IV1 H) as (IV2 & S2 & L2). split; [auto|]. split; [eapply sameP_trans; eauto|congruence].
Qed.

(** ** construction *)
Lemma expand_fields L cf p p' : expandProcess L cf p = Some p' ->
  pr_custom p' = pr_custom p /\ pr_cache p' = pr_cache p /\ pr_number p' = pr_number p /\ pr_range p' = pr_range p /\
  pr_rate p' = pr_rate p /\ pr_cut2 p' = pr_cut2 p /\ pr_sites p' = pr_sites p /\ pr_mult p' = pr_mult p /\
  pr_srates p' = pr_srates p /\ pr_inc p' = pr_inc p /\ pr_aff p' = pr_aff p /\ pr_basis p' = pr_basis p /\
  pr_bucket p' = pr_bucket p /\ pr_total p' = pr_total p.
Proof.
  unfold expandProcess. destruct (pr_basis p) as [|b [|b' l]] eqn:Eb; intros H; try (inversion H; subst; auto 20).
  ob H as index Ei. ob H as cl Ecl. destruct (insertWildcards (lt_unit L) (pr_ml p) cl 0) as [l mapping].
  ob H as idm Eid. inversion H; subst. cbn [set_ml pr_custom pr_cache pr_number pr_range pr_rate pr_cut2 pr_sites pr_mult pr_srates pr_inc pr_aff pr_basis pr_bucket pr_total]. auto 20.
Qed.

Lemma updateML_get L cf it it' : updateProcessMatchLists L cf it = Some it' ->
  zlen (in_procs it') = zlen (in_procs it) /\ in_wild it' = in_wild it /\ in_custom it' = in_custom it /\ in_rc it' = in_rc it /\
  forall i p', zget (in_procs it') i = Some p' -> exists p, zget (in_procs it) i = Some p /\
     (p' = p \/ (in_wild it = true /\ expandProcess L cf p = Some p')).
Proof.
  unfold updateProcessMatchLists. destruct (in_wild it) eqn:Ew; intros H.
  - ob H as ps E. inversion H; subst. cbn [set_procs in_procs in_wild in_custom in_rc].
    split; [eapply omap_zlen; eauto|]. split; [exact Ew|]. split; [reflexivity|]. split; [reflexivity|].
    intros i p' Ep. rewrite (omap_zget _ _ _ i E) in Ep. ob Ep as p Ep0. exists p. auto.
  - inversion H; subst. split; [reflexivity|]. split; [exact Ew|]. split; [reflexivity|]. split; [reflexivity|]. eauto.
Qed.

Lemma maxRange_ext it it' : map pr_range (in_procs it') = map pr_range (in_procs it) -> maxRange it' = maxRange it.
Proof.
  intros E. unfold maxRange. revert E. generalize 1. generalize (in_procs it) (in_procs it').
  induction l as [|p l IH]; intros [|q l'] m E; try discriminate; [reflexivity|].
  cbn [map] in E. inversion E. cbn [fold_left]. rewrite H0. apply IH. exact H1.
Qed.

Lemma zget_repeat_if {A} (a : A) n i : zget (repeat a n) i = if (0 <=? i) && (i <? Z.of_nat n) then Some a else None.
Proof.
  destruct (Z.leb_spec 0 i), (Z.ltb_spec i (Z.of_nat n)); cbn [andb]; try (apply zget_repeat; lia);
    apply zget_None; unfold zlen; rewrite repeat_length; lia.
Qed.

Lemma start_pre ranks hash L cf it cf1 it2 : wfInput ranks L cf it -> initMatchLists L (maxRange it) cf = Some cf1 ->
  updateProcessMatchLists L cf1 (clearMatching it) = Some it2 -> maxRange it2 = maxRange it /\
  PreInv L cf1 it2 (mkMatcher ranks hash (length (cf_coords cf)) (length (in_procs it))) (zrange 0 (zlen (cf_elements cf1) - 1)).
Proof.
  intros [WF Hrk Hc Ht He HC HA] Ecf1 Eit2.
  unfold initMatchLists in Ecf1. ob Ecf1 as mls Emls. inversion Ecf1; subst cf1; clear Ecf1.
  set (cf1 := set_moved (set_mlists cf mls) _ _ _) in *.
  assert (Fc : cf_coords cf1 = cf_coords cf) by reflexivity.
  assert (Ft : cf_types cf1 = cf_types cf) by reflexivity.
  assert (Fe : cf_elements cf1 = cf_elements cf) by reflexivity.
  assert (Fm : cf_mlists cf1 = mls) by reflexivity.
  clearbody cf1.
  set (mt0 := mkMatcher ranks hash (length (cf_coords cf)) (length (in_procs it))) in *.
  set (it1 := clearMatching it) in *.
  destruct (updateML_get _ _ _ _ Eit2) as (Hlen & Hw & Hcu & Hrc & Hget).
  assert (Hproc : forall i p', zget (in_procs it2) i = Some p' -> exists p, zget (in_procs it) i = Some p /\
     pr_custom p' = pr_custom p /\ pr_range p' = pr_range p /\ pr_basis p' = pr_basis p /\ pr_aff p' = pr_aff p /\
     pr_sites p' = [] /\ pr_mult p' = [] /\ pr_srates p' = [] /\ pr_total p' = 0).
  { intros i p' Ep'. destruct (Hget i p' Ep') as (p1 & Ep1 & Hcase).
    unfold it1, clearMatching in Ep1. cbn [set_procs in_procs] in Ep1. rewrite zget_map in Ep1.
    destruct (zget (in_procs it) i) as [p|] eqn:Ep; [|discriminate]. simpl in Ep1. inversion Ep1; subst p1; clear Ep1.
    exists p. split; [reflexivity|]. destruct Hcase as [->|[_ Hx]].
    - repeat split; reflexivity.
    - apply expand_fields in Hx. destruct Hx as (A1 & A2 & A3 & A4 & A5 & A6 & A7 & A8 & A9 & A10 & A11 & A12 & A13 & A14).
      cbn [clearSites set_sites pr_custom pr_range pr_basis pr_aff pr_sites pr_mult pr_srates pr_total] in *. auto 20. }
  assert (Hlen0 : zlen (in_procs it2) = zlen (in_procs it)).
  { rewrite Hlen. unfold it1, clearMatching. cbn [set_procs in_procs]. apply zlen_map. }
  assert (HR : maxRange it2 = maxRange it).
  { apply maxRange_ext. apply zget_ext. intros i. rewrite !zget_map.
    destruct (zget (in_procs it2) i) as [p'|] eqn:Ep'.
    - destruct (Hproc i p' Ep') as (p & Ep & _ & Hr & _). rewrite Ep. simpl. congruence.
    - destruct (zget (in_procs it) i) as [p|] eqn:Ep; [|reflexivity].
      apply zget_range in Ep. rewrite <- Hlen0 in Ep. destruct (zget_lt _ _ Ep) as [q Eq]. congruence. }
  assert (Hev0 : forall p', pr_sites p' = [] -> events p' = []).
  { intros p' Hs. unfold events. rewrite Hs. reflexivity. }
  assert (Hnoevt : forall i x r, ~ evt it2 i x r).
  { intros i x r (p' & Ep' & Hin). destruct (Hproc i p' Ep') as (p & _ & _ & _ & _ & _ & Hs & _).
    rewrite (Hev0 _ Hs) in Hin. exact Hin. }
  assert (Hinv0 : forall x i, invAt (mt_inv mt0) x i =
      if ((0 <=? x) && (x <? nsites L)) && ((0 <=? i) && (i <? zlen (in_procs it))) then Some false else None).
  { intros x i. unfold invAt, mt0, mkMatcher. cbn [mt_inv]. rewrite zget_repeat_if.
    replace (Z.of_nat (length (cf_coords cf))) with (nsites L) by (unfold zlen in Hc; lia).
    destruct ((0 <=? x) && (x <? nsites L)); cbn [andb obind]; [|reflexivity]. rewrite zget_repeat_if. reflexivity. }
  assert (PV : PreInv L cf1 it2 mt0 (zrange 0 (zlen (cf_elements cf1) - 1))).
  { assert (Hidx : forall x, In x (zrange 0 (zlen (cf_elements cf1) - 1)) <-> 0 <= x < nsites L).
    { intros x. rewrite In_zrange, Fe. lia. }
    constructor; auto.
    - rewrite Fc; auto.
    - rewrite Ft; auto.
    - rewrite Fe; auto.
    - rewrite Fm. rewrite (omap_zlen _ _ _ Emls). unfold zrange. unfold zlen. rewrite zseq_length. unfold zlen in Ht. lia.
    - intros i p' Ep'. destruct (Hproc i p' Ep') as (p & Ep & -> & _). rewrite Hcu. eapply HC; eauto.
    - apply rtEmpty_inv.
    - intros x Hx. rewrite Fc, Fm, HR.
      rewrite (omap_zget _ _ _ x Emls). rewrite zget_zrange by lia. cbn [obind].
      replace (0 + x) with x by lia.
      destruct (scratch_eq L (maxRange it) cf x WF) as (g & A1 & A2 & A3 & A4); auto; [pose proof (maxRange_pos it); lia|].
      unfold scratchML in A3. rewrite A3, A4. exists (map (withTypes (cf_types cf)) g), g. split; [reflexivity|]. split; [exact A1|].
      apply refresh_geom in A4. exact A4.
    - intros x Hx Hn. exfalso. apply Hn. apply Hidx. exact Hx.
    - constructor.
      + intros i p' Ep'. destruct (Hproc i p' Ep') as (p & _ & _ & _ & _ & _ & S1 & S2 & S3 & S4).
        constructor; rewrite ?Hev0 by exact S1; unfold prates; rewrite ?S1, ?S2, ?S3, ?S4; try reflexivity; [constructor|].
        destruct (pr_custom p'); reflexivity.
      + intros x i b Hb. rewrite Hinv0 in Hb. destruct (((0 <=? x) && (x <? nsites L)) && ((0 <=? i) && (i <? zlen (in_procs it)))); [|discriminate].
        inversion Hb; subst. split; [discriminate|]. intros (r & Hr). exfalso. eapply Hnoevt; eauto.
      + intros i x r Hr. exfalso. eapply Hnoevt; eauto.
    - intros x i. rewrite Hinv0, Hlen0.
      destruct (Z.leb_spec 0 x), (Z.ltb_spec x (nsites L)), (Z.leb_spec 0 i), (Z.ltb_spec i (zlen (in_procs it))); cbn [andb];
        (split; [intros HH; try (exfalso; apply HH; reflexivity); lia|intros HH; try discriminate; lia]).
    - intros i x r Hr. exfalso. eapply Hnoevt; eauto.
    - intros i x Hx Hn. exfalso. apply Hn. apply Hidx. exact Hx.
    - intros _ i x r Hr. exfalso. eapply Hnoevt; eauto.
    - intros i p' a Ep' Ha. destruct (Hproc i p' Ep') as (p & Ep & _ & _ & _ & Haf & _). rewrite Haf in Ha.
      rewrite (HA _ _ _ Ep Ha). destruct WF. unfold nsites. split; [lia|]. repeat apply Z.mul_pos_pos; auto.
    - apply NoDup_zrange.
    - intros x Hx. apply Hidx. exact Hx. }
  split; [exact HR|exact PV].
Qed.
Lemma mkLatticeModel_inv ranks hash L cf it md : wfInput ranks L cf it ->
  mkLatticeModel ranks hash L cf it = Some md -> Inv md /\ md_lat md = L /\
  exists cf1 it2 it' mt' mls, initMatchLists L (maxRange it) cf = Some cf1 /\
    updateProcessMatchLists L cf1 (clearMatching it) = Some it2 /\ maxRange it2 = maxRange it /\
    md_in md = updateProbabilityTable it' /\ sameP it2 it' /\ md_cf md = set_mlists cf1 mls /\
    cmOK L (mkMatcher ranks hash (length (cf_coords cf)) (length (in_procs it))) it2 cf1
         (zrange 0 (zlen (cf_elements cf1) - 1)) mt' it' (md_cf md) /\ mt' = md_mt md.
Proof.
  intros WI H. unfold mkLatticeModel in H. ob H as md1 E. inversion H; subst md; clear H.
  unfold calculateInitialMatching in E. cbn [md_lat md_cf md_in md_mt] in E.
  ob E as cf1 Ecf1. ob E as it2 Eit2. ob E as r Ecm. destruct r as [[mt' it'] cf']. inversion E; subst md1; clear E.
  cbn [md_lat md_cf md_in md_mt]. destruct (start_pre ranks hash L cf it cf1 it2 WI Ecf1 Eit2) as [HR PV].
  destruct (matching_round _ _ _ _ _ _ _ _ PV Ecm) as (IV & SP & CM). split; [exact IV|]. split; [reflexivity|].
  destruct (cm_cf _ _ _ _ _ _ _ _ CM) as (mls' & -> & _). cbn [md_cf md_in md_mt].
  exists cf1, it2, it', mt', mls'. split; [exact Ecf1|]. split; [exact Eit2|]. split; [exact HR|].
  split; [reflexivity|]. split; [exact SP|]. split; [reflexivity|]. split; [exact CM|reflexivity].
Qed.
