(** Proofs: the rates of custom rate processes follow the surroundings. *)
From Verif Require Import PBase SModel PLattice PProcess PMpi PRateTable PMatcher PPerform PStep PRun.
Open Scope Z_scope.
Open Scope list_scope.

(** ** the rate depends on the sites of the match list only *)
Lemma withinCutoff_geom cut l : forall l', geom l = geom l' ->
  match withinCutoff cut l, withinCutoff cut l' with Some e, Some e' => geom e = geom e' | None, None => True | _, _ => False end.
Proof.
  induction l as [|e l IH]; intros [|e' l'] H; try discriminate; [exact I|].
  cbn [geom map] in H. inversion H. specialize (IH l' H4). cbn [withinCutoff]. rewrite H2. destruct (ce_d2 e' <=? cut).
  - destruct (withinCutoff cut l), (withinCutoff cut l'); cbn [obind]; auto. unfold geom in *. cbn [map]. congruence.
  - reflexivity.
Qed.
Lemma withinCutoff_In cut l : forall env e, withinCutoff cut l = Some env -> In e env -> In e l.
Proof.
  induction l as [|a l IH]; intros env e H He; cbn [withinCutoff] in H; [discriminate|]. destruct (ce_d2 a <=? cut).
  - ob H as r Er. inversion H; subst. destruct He as [<-|He]; [left; reflexivity|right; eauto].
  - inversion H; subst. destruct He.
Qed.
Lemma omap_geom {B} (f f' : centry -> option B) l : forall l', geom l = geom l' ->
  (forall e e', In e l -> ce_index e = ce_index e' -> f e = f' e') -> omap f l = omap f' l'.
Proof.
  induction l as [|e l IH]; intros [|e' l'] H Hf; try discriminate; [reflexivity|]. cbn [geom map] in H. inversion H.
  cbn [omap]. rewrite (Hf e e') by (try (left; reflexivity); assumption). rewrite (IH l' H4) by (intros; apply Hf; [right|]; assumption). reflexivity.
Qed.
Lemma afterStep_names cf cf' : cf_names cf = cf_names cf' -> forall l acc, ofold (afterStep cf) l acc = ofold (afterStep cf') l acc.
Proof.
  intros E. induction l as [|x l IH]; intros acc; [reflexivity|]. cbn [ofold].
  replace (afterStep cf' acc x) with (afterStep cf acc x); [destruct (afterStep cf acc x); cbn [obind]; auto|].
  unfold afterStep. rewrite E. reflexivity.
Qed.

Lemma usr_ext cf cf' rc p p' x cl cl' : zget (cf_mlists cf) x = Some cl -> zget (cf_mlists cf') x = Some cl' -> geom cl = geom cl' ->
  cf_coords cf = cf_coords cf' -> cf_names cf = cf_names cf' -> pstatic p = pstatic p' ->
  (forall e, In e cl -> zget (cf_types cf) (ce_index e) = zget (cf_types cf') (ce_index e) /\
                        zget (cf_elements cf) (ce_index e) = zget (cf_elements cf') (ce_index e)) ->
  updateSingleRate cf rc p x = updateSingleRate cf' rc p' x.
Proof.
  intros E E' HG HC HN HS Hsame. unfold updateSingleRate. rewrite E, E'. cbn [obind]. apply pstatic_fields in HS.
  destruct HS as (_ & _ & S3 & _ & S5 & S6 & S7 & _ & _ & S10 & _). rewrite S3, S5, S6, S7, S10.
  pose proof (withinCutoff_geom (pr_cut2 p') cl cl' HG) as HW.
  destruct (withinCutoff (pr_cut2 p') cl) as [env|] eqn:Ew, (withinCutoff (pr_cut2 p') cl') as [env'|]; try contradiction; [|reflexivity].
  cbn [obind]. rewrite HC, HN.
  assert (E1 : omap (fun e => els <- zget (cf_elements cf) (ce_index e) ;; zget els 0) env = omap (fun e => els <- zget (cf_elements cf') (ce_index e) ;; zget els 0) env').
  { apply omap_geom; [exact HW|]. intros e e' He Hi. rewrite <- Hi. destruct (Hsame e (withinCutoff_In _ _ _ _ Ew He)) as [_ ->]. reflexivity. }
  assert (E2 : omap (fun e => zget (cf_types cf) (ce_index e)) env = omap (fun e => zget (cf_types cf') (ce_index e)) env').
  { apply omap_geom; [exact HW|]. intros e e' He Hi. rewrite <- Hi. destruct (Hsame e (withinCutoff_In _ _ _ _ Ew He)) as [-> _]. reflexivity. }
  rewrite E1, E2. destruct (omap (fun e => els <- zget (cf_elements cf') (ce_index e) ;; zget els 0) env') as [tb|]; [|reflexivity]. cbn [obind].
  destruct (omap (fun e => zget (cf_types cf') (ce_index e)) env') as [oc|]; [|reflexivity]. cbn [obind].
  destruct (zget oc 0) as [o0|]; [|reflexivity]. cbn [obind].
  assert (EL : length env = length env') by (rewrite <- (map_length (fun e => (ce_index e, ce_d2 e, ce_c e)) env), <- (map_length (fun e => (ce_index e, ce_d2 e, ce_c e)) env'); f_equal; exact HW).
  assert (EC : map ce_c env = map ce_c env').
  { clear -HW. revert env' HW. induction env as [|e env IH]; intros [|e' env'] HW; try discriminate; [reflexivity|]. cbn [geom map] in HW. inversion HW. cbn [map]. f_equal; auto. }
  rewrite EL, EC, (afterStep_names cf cf' HN). reflexivity.
Qed.

(** ** no caching *)
Definition noneCached (it : interactions) : Prop := forall i p, zget (in_procs it) i = Some p -> pr_cache p = false.
Definition noneStored (md : model) : Prop := forall k v, ~ rtHas (mt_rt (md_mt md)) k v.
(** every listed event carries the rate the calculator gives for the present surroundings *)
Definition ratesNow (md : model) : Prop := forall i x r p, evt (md_in md) i x r -> zget (in_procs (md_in md)) i = Some p ->
  updateSingleRate (md_cf md) (in_rc (md_in md)) p x = Some r.

Lemma sameP_cached a b : sameP a b -> noneCached a -> noneCached b.
Proof. intros S H i p E. destruct (sameP_get _ _ _ _ S E) as (q & Eq & Hs). apply pstatic_fields in Hs. destruct Hs as (_ & -> & _). eapply H; eauto. Qed.

Lemma round_rates L mt it cf idx mt' it' cf' : noneCached it -> (forall k v, ~ rtHas (mt_rt mt) k v) -> in_custom it = true -> cmOK L mt it cf idx mt' it' cf' ->
  (forall k v, ~ rtHas (mt_rt mt') k v) /\
  forall x i r, In x idx -> pairIn L it x i -> evt it' i x r -> exists p, zget (in_procs it) i = Some p /\ updateSingleRate cf' (in_rc it) p x = Some r.
Proof.
  intros HN HS HC CM. split.
  - intros k v Hh. apply (cm_rt _ _ _ _ _ _ _ _ CM) in Hh. destruct Hh as [Hh|(_ & x & i & p & q & _ & _ & _ & _ & Eq & Ec)]; [exact (HS _ _ Hh)|].
    rewrite (HN _ _ Eq) in Ec. discriminate.
  - intros x i r Hx Hp Hev. pose proof (cm_rate _ _ _ _ _ _ _ _ CM x i r Hx Hp Hev) as HR. rewrite HC in HR.
    destruct HR as (p & Ep & key & Ek & [[_ Hr]|[_ Hr]]); [|exists p; auto]. exfalso. apply rtRetrieve_has in Hr. exact (HS _ _ Hr).
Qed.

Lemma refreshed_geom L mt it cf idx mt' it' cf' x cl : cmOK L mt it cf idx mt' it' cf' -> zget (cf_mlists cf) x = Some cl ->
  exists cl', zget (cf_mlists cf') x = Some cl' /\ geom cl' = geom cl.
Proof.
  intros CM E. destruct (cm_cf _ _ _ _ _ _ _ _ CM) as (mls & -> & _ & H). cbn [set_mlists cf_mlists].
  destruct (H x) as [(_ & _ & ml & ml' & A & B & C)|[_ A]].
  - exists ml'. split; [exact C|]. rewrite (refresh_geom _ _ _ B). congruence.
  - exists cl. rewrite A. auto.
Qed.

Theorem step_rates md u1 u2 md' : Inv md -> in_custom (md_in md) = true -> noneCached (md_in md) -> noneStored md -> ratesNow md ->
  singleStep md u1 u2 = Some md' -> noneCached (md_in md') /\ noneStored md' /\ ratesNow md'.
Proof.
  intros IV HC HN HS HR H. destruct (step_parts _ _ _ _ IV H) as (it1 & it' & cf1 & cf' & mt' & idx & []). subst md'.
  destruct (matching_round _ _ _ _ _ _ _ _ sq_pre sq_cm) as (IV' & SP' & CM).
  assert (HC1 : in_custom it1 = true) by (destruct sq_same as (_ & _ & -> & _); exact HC).
  assert (HN1 : noneCached it1) by (eapply sameP_cached; eauto).
  destruct (round_rates _ _ _ _ _ _ _ _ HN1 HS HC1 CM) as [HS' HR'].
  assert (Erc : in_rc it' = in_rc it1) by apply SP'. assert (Erc1 : in_rc it1 = in_rc (md_in md)) by apply sq_same.
  split; [apply (sameP_cached it1); [exact SP'|exact HN1]|]. split; [exact HS'|].
  intros i x r p Hev Ep. cbn [md_in md_cf updateProbabilityTable set_table in_rc in_procs] in *. change (evt it' i x r) in Hev.
  destruct (sameP_get _ _ _ _ SP' Ep) as (p1 & Ep1 & Hs1). rewrite Erc.
  assert (PI : In x idx -> pairIn (md_lat md) it1 x i).
  { intros Hin. destruct (pairIn_dec (md_lat md) it1 x i) as [|Hp]; [assumption|].
    apply (proj1 (cm_out _ _ _ _ _ _ _ _ CM x i r ltac:(tauto))) in Hev. apply (pv_evt _ _ _ _ _ sq_pre) in Hev. tauto. }
  destruct (in_dec Z.eq_dec x idx) as [Hin|Hout].
  - destruct (HR' x i r Hin (PI Hin) Hev) as (q & Eq & HU). assert (q = p1) by congruence. subst q. rewrite <- HU.
    destruct (pv_geom _ _ _ _ _ sq_pre x (pv_idx _ _ _ _ _ sq_pre x Hin)) as (cl & g & E1 & _).
    destruct (refreshed_geom _ _ _ _ _ _ _ _ _ _ CM E1) as (cl' & E2 & _). eapply usr_ext; eauto.
  - apply (proj1 (cm_out _ _ _ _ _ _ _ _ CM x i r ltac:(tauto))) in Hev. apply sq_evt in Hev.
    destruct (iv_evt _ IV _ _ _ Hev) as [Hx _]. destruct (sameP_get _ _ _ _ sq_same Ep1) as (p0 & Ep0 & Hs0).
    rewrite Erc1, <- (HR _ _ _ _ Hev Ep0). destruct (iv_geom _ IV x Hx) as (cl & g & E1 & _).
    assert (E1' : zget (cf_mlists cf1) x = Some cl) by (rewrite (pf_mlists _ _ sq_frame); exact E1).
    destruct (refreshed_geom _ _ _ _ _ _ _ _ _ _ CM E1') as (cl' & E2 & HG).
    destruct (cm_cf _ _ _ _ _ _ _ _ CM) as (mls & Ecf & _).
    symmetry. apply (usr_ext (md_cf md) cf' (in_rc (md_in md)) p0 p x cl cl'); [exact E1|exact E2|congruence| | |congruence|].
    + rewrite Ecf. cbn [set_mlists cf_coords]. symmetry. apply sq_frame.
    + rewrite Ecf. cbn [set_mlists cf_names]. symmetry. apply sq_frame.
    + intros e He. rewrite Ecf. cbn [set_mlists cf_types cf_elements]. destruct (sq_out x cl e Hx Hout E1 He) as [A B]. split; congruence.
Qed.

Theorem run_rates us : forall md md', Inv md -> in_custom (md_in md) = true -> noneCached (md_in md) -> noneStored md -> ratesNow md ->
  runSteps md us = Some md' -> ratesNow md'.
Proof.
  induction us as [|u us IH]; intros md md' IV HC HN HS HR H; unfold runSteps in H; cbn [ofold] in H.
  - inversion H; subst. exact HR.
  - ob H as md1 E. destruct (step_inv _ _ _ _ IV E) as (IV1 & S1 & _). destruct (step_rates _ _ _ _ IV HC HN HS HR E) as (A & B & C).
    eapply IH; eauto. destruct S1 as (_ & _ & -> & _). exact HC.
Qed.

Theorem start_rates ranks hash L cf it md : wfInput ranks L cf it -> in_custom it = true -> noneCached it ->
  mkLatticeModel ranks hash L cf it = Some md -> noneCached (md_in md) /\ noneStored md /\ ratesNow md.
Proof.
  intros WI HC HN H. destruct (mkLatticeModel_inv _ _ _ _ _ _ WI H) as (IV & EL & cf1 & it2 & it' & mt' & mls & E1 & E2 & E3 & E4 & E5 & E6 & CM & Em).
  destruct (updateML_get _ _ _ _ E2) as (_ & _ & Hc & _ & HG). assert (HC2 : in_custom it2 = true) by (rewrite Hc; exact HC).
  assert (HN2 : noneCached it2).
  { intros i p Ep. destruct (HG i p Ep) as (p0 & E0 & H0). unfold clearMatching in E0. cbn [set_procs in_procs] in E0. rewrite zget_map in E0.
    destruct (zget (in_procs it) i) as [q|] eqn:Eq; [|discriminate]. cbn [option_map] in E0. inversion E0; subst p0. specialize (HN _ _ Eq).
    destruct H0 as [->|[_ Hx]]; [exact HN|]. apply expand_fields in Hx. destruct Hx as (_ & -> & _). exact HN. }
  assert (HS0 : forall k v, ~ rtHas (mt_rt (mkMatcher ranks hash (length (cf_coords cf)) (length (in_procs it)))) k v) by (intros k v; apply rtEmpty_has).
  destruct (round_rates _ _ _ _ _ _ _ _ HN2 HS0 HC2 CM) as [HS' HR']. rewrite Em in *.
  split; [rewrite E4; apply (sameP_cached it2); assumption|]. split; [exact HS'|].
  intros i x r p Hev Ep. destruct (iv_evt _ IV _ _ _ Hev) as [Hx HP]. rewrite E4 in *. change (evt it' i x r) in Hev. cbn [updateProbabilityTable set_table in_rc in_procs] in *.
  assert (Hin : In x (zrange 0 (zlen (cf_elements cf1) - 1))).
  { apply In_zrange. rewrite EL in Hx. destruct (initMatchLists_fields _ _ _ _ E1) as (ml0 & n & _ & _ & ->). cbn [set_moved set_mlists cf_elements].
    rewrite (wi_elements _ _ _ _ WI). lia. }
  destruct (sameP_get _ _ _ _ E5 Ep) as (p1 & Ep1 & Hs1).
  destruct (HR' x i r Hin) as (q & Eq & HU); [|exact Hev|].
  { rewrite EL in HP. apply (sameP_pairIn L it2 it' x i E5). exact HP. }
  assert (q = p1) by congruence. subst q. destruct E5 as (_ & _ & _ & Erc). rewrite Erc, <- HU.
  destruct (iv_geom _ IV x Hx) as (cl & g & A & _). eapply usr_ext; eauto.
Qed.
