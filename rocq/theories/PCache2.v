(** Proofs: what the rate table stores is what would be calculated. *)
From Verif Require Import PBase SModel SGeo SEvent SBuild SPlain SStep SBucket SCache PLattice PProcess PMpi PRateTable PMatcher PPerform PStep PGeo PPossible PRun PEffect PRematch PEvent PBuild PPlain PStepInv PRates PCache.
Open Scope Z_scope.
Open Scope list_scope.

(** ** the rate in terms of occupations *)
Definition rateFrom (cfn : config) (rc : ratecalc) (p : process) (occs : list bucket) : option Z :=
  tb <- omap (fun t => els <- elementsOf (cf_names cfn) t ;; zget els 0) occs ;;
  o0 <- zget occs 0 ;;
  r <- ofold (afterStep cfn) (combine (zrange 0 (zlen (pr_ml p) - 1)) (pr_ml p)) (tb, repeat (repeat 0 (length o0)) (length occs)) ;;
  if pr_bucket p then Some (rc_bucket rc [] occs (snd r) (cf_names cfn) (pr_rate p) (pr_number p) czero)
  else Some (rc_plain rc [] tb (fst r) (pr_rate p) (pr_number p) czero).
Lemma rateFrom_ext cfn cfn' rc p p' occs : cf_names cfn = cf_names cfn' -> pstatic p = pstatic p' -> rateFrom cfn rc p occs = rateFrom cfn' rc p' occs.
Proof.
  intros HN HS. unfold rateFrom. apply pstatic_fields in HS. destruct HS as (_ & _ & S3 & _ & S5 & _ & S7 & _ & _ & S10 & _). rewrite S3, S5, S7, S10, HN.
  destruct (omap _ occs) as [tb|]; [|reflexivity]. cbn [obind]. destruct (zget occs 0) as [o|]; [|reflexivity]. cbn [obind]. rewrite (afterStep_names cfn cfn' HN). reflexivity.
Qed.
Lemma zset_some {A} (l l' : list A) i a b : length l = length l' -> match zset l i a, zset l' i b with Some r, Some r' => length r = length r' | None, None => True | _, _ => False end.
Proof.
  intros H. destruct (zset l i a) as [r|] eqn:E, (zset l' i b) as [r'|] eqn:E'; auto.
  - pose proof (zset_len _ _ _ _ E). pose proof (zset_len _ _ _ _ E'). unfold zlen in *. lia.
  - unfold zset, zlen in E, E'. rewrite <- H in E'. destruct ((0 <=? i) && (i <? Z.of_nat (length l))); discriminate.
  - unfold zset, zlen in E, E'. rewrite <- H in E'. destruct ((0 <=? i) && (i <? Z.of_nat (length l))); discriminate.
Qed.
Lemma afterStep_len cf x tb tb' up : length tb = length tb' ->
  match afterStep cf (tb, up) x, afterStep cf (tb', up) x with Some r, Some r' => length (fst r) = length (fst r') /\ snd r = snd r' | None, None => True | _, _ => False end.
Proof.
  intros H. destruct x as [i pe]. unfold afterStep. cbn [fst snd].
  destruct (zset up i (pe_upd pe)) as [up'|]; cbn [obind]; [|exact I]. destruct (_ =? 0); [auto|].
  destruct (beqi (pe_upd pe) 0) as [[]|]; cbn [obind]; auto. destruct (firstOne (pe_upd pe) 0) as [j|]; cbn [obind]; auto.
  destruct (zget (cf_names cf) j) as [s|]; cbn [obind]; [|exact I]. pose proof (zset_some tb tb' i s s H) as X. destruct (zset tb i s), (zset tb' i s); cbn [obind]; try contradiction; auto.
Qed.
Lemma afterFold_len cf l : forall tb tb' up, length tb = length tb' ->
  match ofold (afterStep cf) l (tb, up), ofold (afterStep cf) l (tb', up) with Some r, Some r' => snd r = snd r' | None, None => True | _, _ => False end.
Proof.
  induction l as [|x l IH]; intros tb tb' up H; [reflexivity|]. cbn [ofold]. pose proof (afterStep_len cf x tb tb' up H) as X.
  destruct (afterStep cf (tb, up) x) as [[a b]|], (afterStep cf (tb', up) x) as [[a' b']|]; try contradiction; cbn [obind]; [|exact I]. cbn [fst snd] in X. destruct X as [X1 ->]. apply IH. exact X1.
Qed.

(** the names at a site against the names its occupation gives *)
Definition headsOK (strict : bool) (cf : config) : Prop :=
  forall y t els, zget (cf_types cf) y = Some t -> zget (cf_elements cf) y = Some els ->
    exists els', elementsOf (cf_names cf) t = Some els' /\ (els' = els \/ strict = false /\ zget els 0 <> None /\ zget els' 0 <> None).
Definition currentAt (cf : config) (x : Z) : Prop := forall cl e, zget (cf_mlists cf) x = Some cl -> In e cl -> zget (cf_types cf) (ce_index e) = Some (ce_types e).
Lemma omap_heads {A} (f g : A -> option string) l : (forall a, In a l -> f a = None <-> g a = None) ->
  match omap f l, omap g l with Some r, Some r' => length r = length r' | None, None => True | _, _ => False end.
Proof.
  induction l as [|a l IH]; intros H; [reflexivity|]. cbn [omap]. specialize (IH (fun b Hb => H b (or_intror Hb))). pose proof (H a (or_introl eq_refl)) as Ha.
  destruct (f a), (g a); try (destruct Ha as [A1 A2]; (discriminate (A1 eq_refl) || discriminate (A2 eq_refl))); cbn [obind]; [|exact I].
  destruct (omap f l), (omap g l); cbn [obind]; auto. cbn [length]. congruence.
Qed.
Lemma omap_map {A B C} (f : B -> option C) (h : A -> B) l : omap f (map h l) = omap (fun a => f (h a)) l.
Proof. induction l as [|a l IH]; [reflexivity|]. cbn [map omap]. rewrite IH. reflexivity. Qed.
Lemma omap_ident {A B} (f : A -> option B) (h : A -> B) l : (forall a, In a l -> f a = Some (h a)) -> omap f l = Some (map h l).
Proof. induction l as [|a l IH]; intros H; [reflexivity|]. cbn [map omap]. rewrite (H a) by (left; reflexivity). rewrite IH by (intros; apply H; right; assumption). reflexivity. Qed.

Lemma usr_rateFrom strict cf rc p x cl env : zget (cf_mlists cf) x = Some cl -> withinCutoff (pr_cut2 p) cl = Some env -> currentAt cf x -> headsOK strict cf ->
  zlen (cf_elements cf) = zlen (cf_types cf) -> (exists g, zget (cf_coords cf) x = Some g) -> (strict = true \/ pr_bucket p = true) -> occupationOnly rc p ->
  updateSingleRate cf rc p x = rateFrom cf rc p (map ce_types env).
Proof.
  intros Ecl Ew HC HH HL (g & Eg) HS [OP OB]. unfold updateSingleRate, rateFrom. rewrite Ecl. cbn [obind]. rewrite Ew. cbn [obind]. rewrite omap_map.
  assert (HE : forall e, In e env -> zget (cf_types cf) (ce_index e) = Some (ce_types e)) by (intros e He; eapply HC; [exact Ecl|]; eapply withinCutoff_In; eauto).
  assert (HX : forall e, In e env -> exists els els', zget (cf_elements cf) (ce_index e) = Some els /\ elementsOf (cf_names cf) (ce_types e) = Some els' /\ (els' = els \/ strict = false /\ zget els 0 <> None /\ zget els' 0 <> None)).
  { intros e He. pose proof (HE e He) as Et. destruct (zget_lt (cf_elements cf) (ce_index e)) as [els Eels]; [rewrite HL; eapply zget_range; eauto|]. destruct (HH _ _ _ Et Eels) as (els' & A & B). eauto. }
  rewrite (omap_ident (fun e => zget (cf_types cf) (ce_index e)) ce_types) by exact HE.
  assert (HO : match omap (fun e => els <- zget (cf_elements cf) (ce_index e) ;; zget els 0) env, omap (fun e => els <- elementsOf (cf_names cf) (ce_types e) ;; zget els 0) env with
    Some r, Some r' => length r = length r' /\ (strict = true -> r = r') | None, None => True | _, _ => False end).
  { destruct strict.
    - replace (omap (fun e => els <- elementsOf (cf_names cf) (ce_types e) ;; zget els 0) env) with (omap (fun e => els <- zget (cf_elements cf) (ce_index e) ;; zget els 0) env); [destruct (omap _ env); auto|].
      apply omap_ext. intros e He. destruct (HX e He) as (els & els' & -> & -> & [->|(D & _)]); [reflexivity|discriminate].
    - pose proof (omap_heads (fun e => els <- zget (cf_elements cf) (ce_index e) ;; zget els 0) (fun e => els <- elementsOf (cf_names cf) (ce_types e) ;; zget els 0) env) as X.
      destruct (omap (fun e => els <- zget (cf_elements cf) (ce_index e) ;; zget els 0) env), (omap (fun e => els <- elementsOf (cf_names cf) (ce_types e) ;; zget els 0) env); auto;
      try (split; [|discriminate]); apply X; intros e He; destruct (HX e He) as (els & els' & -> & -> & [->|(_ & D1 & D2)]); cbn [obind]; tauto. }
  destruct (omap (fun e => els <- zget (cf_elements cf) (ce_index e) ;; zget els 0) env) as [tb|], (omap (fun e => els <- elementsOf (cf_names cf) (ce_types e) ;; zget els 0) env) as [tb'|]; try contradiction; [|reflexivity].
  cbn [obind]. destruct (zget (map ce_types env) 0) as [o0|]; [|reflexivity]. cbn [obind]. rewrite map_length. destruct HO as [HO1 HO2].
  pose proof (afterFold_len cf (combine (zrange 0 (zlen (pr_ml p) - 1)) (pr_ml p)) tb tb' (repeat (repeat 0 (length o0)) (length env)) HO1) as AF.
  destruct HS as [->|HS].
  - rewrite (HO2 eq_refl) in *. destruct (ofold _ _ _) as [r|]; [|reflexivity]. cbn [obind]. rewrite Eg. cbn [obind]. destruct (pr_bucket p); f_equal; auto.
  - rewrite HS. destruct (ofold _ _ (tb, _)) as [r|], (ofold _ _ (tb', _)) as [r'|]; try contradiction; [|reflexivity]. cbn [obind]. rewrite Eg. cbn [obind]. rewrite AF. f_equal. apply OB.
Qed.

(** ** keys *)
Lemma concat_inj (W : Z) : 0 < W -> forall l l' : list (list Z), (forall t, In t l -> zlen t = W) -> (forall t, In t l' -> zlen t = W) -> concat l = concat l' -> l = l'.
Proof.
  intros HW. assert (NE : forall t, zlen t = W -> t <> @nil Z) by (intros t Ht E; subst; change (zlen (@nil Z)) with 0 in HW; lia).
  induction l as [|a l IH]; intros [|b l'] H H' E; [reflexivity| | |].
  - exfalso. cbn [concat] in E. symmetry in E. apply app_eq_nil in E. destruct E as [E _]. exact (NE b (H' b (or_introl eq_refl)) E).
  - exfalso. cbn [concat] in E. apply app_eq_nil in E. destruct E as [E _]. exact (NE a (H a (or_introl eq_refl)) E).
  - cbn [concat] in E. assert (HL : length a = length b). { pose proof (H a (or_introl eq_refl)). pose proof (H' b (or_introl eq_refl)). unfold zlen in *. lia. }
    assert (X : a = b /\ concat l = concat l').
    { revert HL E. generalize (concat l) (concat l'). clear. revert b. induction a as [|x a IH]; intros [|y b] u v HL E; try discriminate; [auto|]. cbn [app length] in *. inversion E. destruct (IH b u v) as [-> ->]; auto. }
    destruct X as [-> X]. f_equal. apply IH; auto; intros t Ht; [apply H|apply H']; right; exact Ht.
Qed.
Lemma flat_map_concat {A B} (f : A -> list B) l : flat_map f l = concat (map f l).
Proof. induction l as [|a l IH]; [reflexivity|]. cbn [flat_map map concat]. rewrite IH. reflexivity. Qed.

(** what is stored: rates of occupations of width W, under their keys *)
Definition tabOK (D : list Z -> Prop) (hash : list Z -> Z) (W : Z) (cfn : config) (it : interactions) (rt : ratetable) : Prop :=
  forall k v, rtHas rt k v -> exists i p occs, zget (in_procs it) i = Some p /\ pr_cache p = true /\ (forall t, In t occs -> zlen t = W) /\
    k = hash (pr_number p :: concat occs) /\ D (pr_number p :: concat occs) /\ rateFrom cfn (in_rc it) p occs = Some v.
Lemma tabOK_same D hash W cfn cfn' it it' rt : sameP it it' -> cf_names cfn' = cf_names cfn -> tabOK D hash W cfn it rt -> tabOK D hash W cfn' it' rt.
Proof.
  intros S HN H k v Hh. destruct (H k v Hh) as (i & p & occs & Ep & Ec & HW & Hk & Hd & Hv). destruct (sameP_get _ _ _ _ (sameP_sym _ _ S) Ep) as (q & Eq & Hs). exists i, q, occs.
  pose proof (pstatic_fields _ _ Hs) as (_ & F2 & F3 & _). split; [exact Eq|]. split; [congruence|]. split; [exact HW|]. split; [congruence|]. split; [congruence|]. rewrite <- Hv. destruct S as (_ & _ & _ & ->). apply rateFrom_ext; [auto|congruence].
Qed.

(** the conditions on the cached processes *)
Definition cacheable (strict : bool) (it : interactions) : Prop := forall i p, zget (in_procs it) i = Some p -> pr_cache p = true -> occupationOnly (in_rc it) p /\ (strict = true \/ pr_bucket p = true).
Lemma sameP_cacheable strict a b : sameP a b -> cacheable strict a -> cacheable strict b.
Proof.
  intros S H i p E Ec. destruct (sameP_get _ _ _ _ S E) as (q & Eq & Hs). apply pstatic_fields in Hs. destruct Hs as (_ & F2 & F3 & _ & F5 & _ & _ & _ & _ & F10 & _). destruct S as (_ & _ & _ & ->).
  destruct (H i q Eq) as [A B]; [congruence|]. unfold occupationOnly in *. rewrite F3, F5, F10. auto.
Qed.
(** the state of the configuration at a matching round *)
Record roundCf (strict : bool) (W : Z) (L : lattice) (it : interactions) (cf : config) : Prop := {
  rf_heads : headsOK strict cf;
  rf_current : forall x, 0 <= x < nsites L -> usedBy L it x -> currentAt cf x;
  rf_lens : zlen (cf_elements cf) = zlen (cf_types cf);
  rf_coords : zlen (cf_coords cf) = nsites L;
  rf_width : forall t, In t (cf_types cf) -> zlen t = W }.
Lemma env_occs strict W L it cf x i cl cut env : roundCf strict W L it cf -> 0 <= x < nsites L -> pairIn L it x i -> zget (cf_mlists cf) x = Some cl -> withinCutoff cut cl = Some env ->
  forall t, In t (map ce_types env) -> zlen t = W.
Proof.
  intros RF Hx HP Ecl Ew t Ht. apply in_map_iff in Ht. destruct Ht as (e & <- & He). eapply (rf_width _ _ _ _ _ RF). eapply zget_In. eapply (rf_current _ _ _ _ _ RF x Hx (ex_intro _ i HP) _ _ Ecl). eapply withinCutoff_In; eauto.
Qed.
(** the environments of a round are among D *)
Definition hashesIn (D : list Z -> Prop) (L : lattice) (it : interactions) (cf : config) (idx : list Z) : Prop :=
  forall x i p d, In x idx -> pairIn L it x i -> zget (in_procs it) i = Some p -> hashData cf p x = Some d -> D d.
Lemma hits_good D strict W L m it cf idx : 0 < W -> distinctKeys D (mt_hash m) -> hashesIn D L it cf idx -> numbered it -> cacheable strict it -> roundCf strict W L it cf -> (forall x, In x idx -> 0 <= x < nsites L) ->
  tabOK D (mt_hash m) W cf it (mt_rt m) -> hitsAt L m it cf idx.
Proof.
  intros HW DK HD HN HC RF HI HT x i p d r Hx HP Ep Ed Er. apply rtRetrieve_has in Er. destruct (HT _ _ Er) as (i0 & p0 & occs & Ep0 & Ec0 & HW0 & Hk & Hd0 & Hv).
  pose proof (HD x i p d Hx HP Ep Ed) as Hd.
  unfold hashData in Ed. ob Ed as cl Ecl. ob Ed as env Ew. inversion Ed; subst d; clear Ed. apply DK in Hk; [|exact Hd|exact Hd0]. inversion Hk as [[E1 E2]]. rewrite (HN _ _ Ep), (HN _ _ Ep0) in E1. subst i0. assert (p0 = p) by congruence. subst p0.
  rewrite flat_map_concat in E2. apply (concat_inj W HW) in E2; [|eapply env_occs; eauto|exact HW0]. subst occs. rewrite <- Hv.
  destruct (HC _ _ Ep Ec0) as [OC HS]. apply (usr_rateFrom strict _ _ _ _ cl); auto.
  - apply (rf_current _ _ _ _ _ RF); [auto|exists i; exact HP].
  - apply RF.
  - apply RF.
  - apply zget_lt. rewrite (rf_coords _ _ _ _ _ RF). auto.
Qed.
Lemma tab_round D strict W L m it cf idx m' it' cf' : hashesIn D L it cf' idx -> numbered it -> cacheable strict it -> roundCf strict W L it cf' -> (forall x, In x idx -> 0 <= x < nsites L) -> cf_names cf' = cf_names cf ->
  cmOK L m it cf idx m' it' cf' -> tabOK D (mt_hash m) W cf it (mt_rt m) -> tabOK D (mt_hash m') W cf' it' (mt_rt m').
Proof.
  intros HD HN HC RF HI HNM CM HT. rewrite (cm_hash _ _ _ _ _ _ _ _ CM). pose proof (sameStatic_sameP _ _ (cm_static _ _ _ _ _ _ _ _ CM)) as SP. apply (tabOK_same _ _ _ cf' _ it); [exact SP|reflexivity|].
  intros k v Hh. apply (cm_rt _ _ _ _ _ _ _ _ CM) in Hh. destruct Hh as [Hh|(_ & x & i & p & q & Hin & Ep & Ek & Ev & Eq & Ec)].
  - apply (tabOK_same _ _ _ cf cf' it it _ (sameP_refl it) HNM HT). exact Hh.
  - rewrite (HN _ _ Ep) in Eq. assert (q = p) by congruence. subst q. apply In_pairs in Hin. destruct Hin as [Hx HP]. unfold hashCustomRateInput in Ek. ob Ek as d Ed. inversion Ek; subst k; clear Ek. pose proof (HD x i p d Hx HP Ep Ed) as Hd.
    unfold hashData in Ed. ob Ed as cl Ecl. ob Ed as env Ew. inversion Ed; subst d; clear Ed. exists i, p, (map ce_types env). split; [exact Ep|]. split; [exact Ec|]. split; [eapply env_occs; eauto|].
    rewrite flat_map_concat in *. split; [reflexivity|]. split; [exact Hd|]. rewrite <- Ev. symmetry. destruct (HC _ _ Ep Ec) as [OC HS]. apply (usr_rateFrom strict _ _ _ _ cl); auto.
    + apply (rf_current _ _ _ _ _ RF); [auto|exists i; exact HP].
    + apply RF.
    + apply RF.
    + apply zget_lt. rewrite (rf_coords _ _ _ _ _ RF). auto.
Qed.

(** ** the names at the sites of a running simulation *)
Section Heads.
Context (ranks : Z) (hash : list Z -> Z) (L : lattice) (cf : config) (it : interactions) (ST : stdInput ranks L cf it).
Context (strict : bool) (HS : strict = true -> forall e, In e (cf_elements cf) -> exists s, e = [s]).
Lemma heads_start : headsOK strict cf.
Proof using ST HS.
  destruct (st_cf _ _ _ _ ST) as (coords & els & E). pose proof (st_pt _ _ _ _ ST) as WP. apply mkConfiguration_info in E. pose proof (names_wf _ _ WP (ci_names _ _ _ _ E)) as [N1 N2].
  intros y t e Et Ee. assert (Ey : bucketOf (cf_ptypes cf) (zlen (cf_names cf)) e = Some t).
  { pose proof (omap_zget _ _ _ y (ci_types _ _ _ _ E)) as X. rewrite (ci_elements _ _ _ _ E) in Ee. rewrite Ee, Et in X. symmetry. exact X. }
  destruct strict eqn:Es.
  - destruct (HS eq_refl e (zget_In _ _ _ Ee)) as [s ->]. assert (K : exists k, tfind (cf_ptypes cf) s = Some k).
    { unfold bucketOf in Ey. cbn [ofold] in Ey. ob Ey as tb Etb. ob Etb as k Ek. eauto. }
    destruct K as [k Ek]. destruct (bucketOf_one _ _ _ _ _ Ek Ey) as [U R]. exists [s]. split; [|left; reflexivity]. apply (elementsOf_unit _ _ k _ _ U); [lia|auto].
  - assert (Hne : exists s e', e = s :: e').
    { rewrite (ci_elements _ _ _ _ E) in Ee. assert (Hy : 0 <= y < zlen coords).
      { apply zget_range in Ee. pose proof (wi_coords _ _ _ _ (st_wf _ _ _ _ ST)) as A1. pose proof (wi_elements _ _ _ _ (st_wf _ _ _ _ ST)) as A2.
        rewrite (ci_coords _ _ _ _ E) in A1. rewrite (ci_elements _ _ _ _ E) in A2. lia. }
      destruct (ci_aidel _ _ _ _ E y Hy) as (e0 & s & A & B & _). assert (e0 = e) by congruence. subst e0. destruct e as [|a e]; [rewrite zget_nil in B; discriminate|eauto]. }
    destruct Hne as (s & e' & ->). assert (K : exists k, tfind (cf_ptypes cf) s = Some k).
    { unfold bucketOf in Ey. cbn [ofold] in Ey. ob Ey as tb Etb. ob Etb as k Ek. eauto. }
    destruct K as [k Ek]. pose proof (bucketOf_len _ _ _ _ Ey) as HL. pose proof (tfind_range _ _ _ WP Ek) as Rk. destruct (zget_lt t k) as [n En]; [pose proof (zlen_nonneg (cf_names cf)); unfold bucket in *; lia|].
    pose proof (bucketOf_count _ _ _ _ WP Ey s k n Ek En) as Hn. cbn [filter] in Hn. rewrite String.eqb_refl, zlen_cons in Hn. pose proof (zlen_nonneg (filter (String.eqb s) e')).
    assert (X : exists els', elementsOf (cf_names cf) t = Some els').
    { unfold elementsOf. match goal with |- context [omap ?f ?l] => assert (Y : exists r, omap f l = Some r) end.
      { apply omap_total. intros j Hj. apply In_zrange in Hj. unfold bget. destruct (zget_lt t j) as [m ->]; [lia|]. cbn [obind]. destruct (0 <? m); [|eauto]. destruct (zget_lt (cf_names cf) j) as [s' ->]; [unfold bucket in *; lia|]. cbn [obind]. eauto. }
      destruct Y as [r ->]. cbn [obind]. eauto. }
    destruct X as [els' Ee']. exists els'. split; [exact Ee'|]. right. split; [reflexivity|]. split; [discriminate|]. pose proof (elementsOf_count _ _ _ _ WP (ci_names _ _ _ _ E) Ee' s k n Ek En) as HC.
    intros HZ. destruct els' as [|a els']; [|discriminate]. cbn in HC. lia.
Qed.
Lemma heads_reach md : reachable ranks hash L cf it md -> headsOK strict (md_cf md).
Proof using ST HS.
  revert md. apply (std_ind ranks hash L cf it ST (headsOK strict)).
  - apply heads_start.
  - intros a b [] H y t els. rewrite sc_types, sc_elements, sc_names. apply H.
  - intros md md' i p x ys HR HR' Ep EF H y t els Et Ee.
    destruct (ef_same _ _ _ _ _ _ EF) as (_ & EN & _). rewrite EN.
    assert (D : (exists j e, zget (pr_ml p) j = Some e /\ zget ys j = Some y /\ changes e) \/ (zget (cf_types (md_cf md')) y = zget (cf_types (md_cf md)) y /\ zget (cf_elements (md_cf md')) y = zget (cf_elements (md_cf md)) y)).
    { destruct (in_dec Z.eq_dec y ys) as [Hi|Hi].
      - apply In_zget in Hi. destruct Hi as [j Ej]. destruct (zget_lt (pr_ml p) j) as [e Ee0]; [rewrite <- (ef_len _ _ _ _ _ _ EF); eapply zget_range; eauto|].
        destruct (changes_dec e) as [C|C]; [left; eauto|right]. split.
        + destruct (ef_types _ _ _ _ _ _ EF j e y Ee0 Ej) as (t0 & t1 & T1 & T2 & _ & T3). rewrite T1, T2, (T3 C). reflexivity.
        + apply (ef_elements_other _ _ _ _ _ _ EF). intros j' e' E1 E2. assert (j' = j) by (eapply NoDup_zget_inj; [apply EF|exact E2|exact Ej]). subst j'. congruence.
      - right. split; [apply EF; exact Hi|]. apply (ef_elements_other _ _ _ _ _ _ EF). intros j e _ E. exfalso. apply Hi. eapply zget_In; eauto. }
    destruct D as [(j & e & E1 & E2 & C)|[E1 E2]]; [|rewrite E1 in Et; rewrite E2 in Ee; eapply H; eauto].
    destruct (ef_elements _ _ _ _ _ _ EF j e y E1 E2 C) as (t' & els' & X1 & X2 & X3). assert (t' = t) by congruence. assert (els' = els) by congruence. subst t' els'. eauto.
Qed.
Lemma round_reach md : reachable ranks hash L cf it md -> roundCf strict (zlen (cf_ptypes cf)) L (md_in md) (md_cf md).
Proof using ST HS.
  intros HR. destruct (reachable_info _ _ _ _ _ _ (st_wf _ _ _ _ ST) HR) as (cf1 & it2 & RI). pose proof (ri_inv _ _ _ _ _ _ _ _ RI) as IV. pose proof (ri_lat _ _ _ _ _ _ _ _ RI) as EL. constructor.
  - apply heads_reach. exact HR.
  - intros x Hx HU cl e Ecl He. pose proof (iv_fresh _ IV x) as F. rewrite EL in F. rewrite (F Hx HU) in Ecl. pose proof (iv_wf _ IV) as WF. rewrite EL in WF.
    destruct (scratchML_In L (maxRange (md_in md)) (md_cf md) x cl e WF) as (a & b & _ & _ & _ & _ & R & _); auto. pose proof (maxRange_pos (md_in md)). lia.
  - rewrite (iv_le _ IV), (iv_lt _ IV). reflexivity.
  - rewrite (iv_lc _ IV), EL. reflexivity.
  - eapply reach_width; eauto.
Qed.
End Heads.

(** ** the two simulations *)
Section Sim.
Context (ranks : Z) (hash : list Z -> Z) (L : lattice) (cf : config) (it : interactions) (ST : stdInput ranks L cf it).
Context (strict : bool) (HS : strict = true -> forall e, In e (cf_elements cf) -> exists s, e = [s]).
Context (DD : list Z -> Prop) (DK : distinctKeys DD hash) (HN : numbered it) (HC : cacheable strict it).
Let W := zlen (cf_ptypes cf).
Lemma Wpos : 0 < W. Proof using ST. pose proof (pt_pos _ _ _ _ ST). unfold W. lia. Qed.
Lemma std_uncached : stdInput ranks L cf (uncached it).
Proof using ST.
  destruct ST as [[A1 A2 A3 A4 A5 A6 A7] B C D E]. constructor; auto.
  - constructor; auto.
    + intros i p Ep. rewrite uncached_get in Ep. destruct (zget (in_procs it) i) as [q|] eqn:Eq; [|discriminate]. inversion Ep; subst. exact (A6 _ _ Eq).
    + intros i p a Ep. rewrite uncached_get in Ep. destruct (zget (in_procs it) i) as [q|] eqn:Eq; [|discriminate]. inversion Ep; subst. exact (A7 _ _ _ Eq).
  - rewrite maxRange_uncached. exact D.
  - intros p Hp. unfold uncached in Hp. cbn [set_procs in_procs] in Hp. apply in_map_iff in Hp. destruct Hp as (q & <- & Hq). destruct (E q Hq). constructor; assumption.
Qed.
Lemma it2_facts cf1 it2 : updateProcessMatchLists L cf1 (clearMatching it) = Some it2 -> numbered it2 /\ cacheable strict it2.
Proof using HN HC.
  intros E. destruct (updateML_get _ _ _ _ E) as (_ & _ & _ & Erc & HG).
  assert (G : forall i p', zget (in_procs it2) i = Some p' -> exists p, zget (in_procs it) i = Some p /\ pr_number p' = pr_number p /\ pr_rate p' = pr_rate p /\ pr_cache p' = pr_cache p /\ pr_bucket p' = pr_bucket p).
  { intros i p' Ep'. destruct (HG i p' Ep') as (p1 & Ep1 & H1). unfold clearMatching in Ep1. cbn [set_procs in_procs] in Ep1. rewrite zget_map in Ep1. destruct (zget (in_procs it) i) as [p|] eqn:Ep; [|discriminate]. simpl in Ep1. inversion Ep1; subst p1; clear Ep1.
    exists p. split; [reflexivity|]. destruct H1 as [->|[_ Hx]]; [auto|]. apply expand_fields in Hx. destruct Hx as (_ & X2 & X3 & _ & X5 & _ & _ & _ & _ & _ & _ & _ & X13 & _). auto. }
  split.
  - intros i p' Ep'. destruct (G i p' Ep') as (p & Ep & -> & _). exact (HN _ _ Ep).
  - intros i p' Ep' Ec. destruct (G i p' Ep') as (p & Ep & G1 & G2 & G3 & G4). rewrite Erc. change (in_rc (clearMatching it)) with (in_rc it). destruct (HC i p Ep) as [X Y]; [congruence|]. unfold occupationOnly in *. rewrite G1, G2, G4. auto.
Qed.
Lemma expand_uncached cf1 p : expandProcess L cf1 (uncache p) = option_map uncache (expandProcess L cf1 p).
Proof using.
  unfold expandProcess. cbn [uncache pr_basis pr_ml pr_idmoves]. destruct (pr_basis p) as [|b [|]]; try reflexivity. destruct (zget _ b) as [ix|]; [|reflexivity]. cbn [obind]. destruct (zget (cf_mlists cf1) ix) as [cl|]; [|reflexivity]. cbn [obind].
  destruct (insertWildcards _ _ _ _) as [l mp]. destruct (omap _ (pr_idmoves p)) as [idm|]; reflexivity.
Qed.
Lemma expandAll_uncached cf1 : updateProcessMatchLists L cf1 (clearMatching (uncached it)) = option_map uncached (updateProcessMatchLists L cf1 (clearMatching it)).
Proof using.
  unfold updateProcessMatchLists, clearMatching, uncached. cbn [set_procs in_procs in_wild]. destruct (in_wild it).
  - rewrite !omap_map. cbn [set_procs in_procs]. change (fun a => expandProcess L cf1 (clearSites (uncache a))) with (fun a => expandProcess L cf1 (uncache (clearSites a))).
    assert (X : forall l, omap (fun a => expandProcess L cf1 (uncache (clearSites a))) l = option_map (map uncache) (omap (fun a => expandProcess L cf1 (clearSites a)) l)).
    { induction l as [|a l IH]; [reflexivity|]. cbn [omap]. rewrite expand_uncached, IH. destruct (expandProcess L cf1 (clearSites a)); [|reflexivity]. cbn [option_map obind]. destruct (omap (fun a => expandProcess L cf1 (clearSites a)) l); reflexivity. }
    rewrite X. destruct (omap (fun a => expandProcess L cf1 (clearSites a)) (in_procs it)); reflexivity.
  - cbn [option_map set_procs in_procs]. rewrite !map_map. reflexivity.
Qed.
Lemma start_uncached : mkLatticeModel ranks hash L cf (uncached it) = option_map plainMd (mkLatticeModel ranks hash L cf it).
Proof using ST HN HC.
  pose proof (wi_ranks _ _ _ _ (st_wf _ _ _ _ ST)) as Hr. unfold mkLatticeModel, calculateInitialMatching. cbn [md_lat md_cf md_in md_mt]. rewrite maxRange_uncached.
  destruct (initMatchLists L (maxRange it) cf) as [cf1|]; [|reflexivity]. cbn [obind]. rewrite expandAll_uncached. destruct (updateProcessMatchLists L cf1 (clearMatching it)) as [it2|] eqn:E2; [|reflexivity]. cbn [option_map obind].
  destruct (it2_facts _ _ E2) as [HN2 _]. replace (length (in_procs (uncached it))) with (length (in_procs it)) by (unfold uncached; cbn [set_procs in_procs]; rewrite map_length; reflexivity).
  set (m0 := mkMatcher ranks hash (length (cf_coords cf)) (length (in_procs it))). set (idx := zrange 0 (zlen (cf_elements cf1) - 1)).
  assert (HE : m0 = set_rt m0 rtEmpty) by reflexivity. assert (HH : forall c, hitsAt L m0 it2 c idx).
  { intros c x i p d r _ _ _ _ H. exfalso. apply rtRetrieve_has in H. exact (rtEmpty_has _ _ H). }
  destruct (calculateMatching L m0 it2 cf1 idx) as [[[m' it'] cf']|] eqn:Ec.
  - pose proof (calc_fwd L m0 it2 cf1 idx Hr (NoDup_zrange _ _) HN2 rtEmpty_inv _ _ _ Ec (HH _)) as Eu. rewrite <- HE in Eu. rewrite Eu. cbn [obind option_map fst snd md_lat md_cf md_in md_mt]. rewrite table_uncached. reflexivity.
  - cbn [obind option_map]. destruct (calculateMatching L m0 (uncached it2) cf1 idx) as [[[mu iu] cu]|] eqn:Eu; [|reflexivity]. exfalso. rewrite HE in Eu.
    destruct (calc_bwd L m0 it2 cf1 idx Hr (NoDup_zrange _ _) HN2 rtEmpty_inv _ _ _ Eu (HH _)) as (m' & it' & X & _). congruence.
Qed.

(** the environments of a state are among those with different keys *)
Definition within (md : model) : Prop := forall d, environmentIn md d -> DD d.
Lemma environment_uncached md d : environmentIn (plainMd md) d <-> environmentIn md d.
Proof using.
  unfold environmentIn. cbn [plainMd md_lat md_cf md_in]. split.
  - intros (i & p & x & Ep & Hx & (q & Eq & Hb) & Hd). rewrite uncached_get in Ep, Eq. destruct (zget (in_procs (md_in md)) i) as [p0|] eqn:E0; [|discriminate]. inversion Ep; subst p. inversion Eq; subst q.
    exists i, p0, x. split; [exact E0|]. split; [exact Hx|]. split; [exists p0; auto|exact Hd].
  - intros (i & p & x & Ep & Hx & (q & Eq & Hb) & Hd). assert (q = p) by congruence. subst q. exists i, (uncache p), x. rewrite uncached_get, Ep. split; [reflexivity|]. split; [exact Hx|]. split; [|exact Hd].
    exists (uncache p). rewrite uncached_get, Ep. auto.
Qed.
Lemma hashes_within md it1 idx : md_lat md = L -> (forall x, In x idx -> 0 <= x < nsites L) -> within md ->
  (forall i p, zget (in_procs it1) i = Some p -> exists q, zget (in_procs (md_in md)) i = Some q /\ pr_number q = pr_number p /\ pr_cut2 q = pr_cut2 p /\ pr_basis q = pr_basis p) ->
  hashesIn DD L it1 (md_cf md) idx.
Proof using.
  intros EL HI HD HQ x i p d Hx (p0 & Ep0 & Hb) Ep Ed. assert (p0 = p) by congruence. subst p0. destruct (HQ i p Ep) as (q & Eq & Q1 & Q2 & Q3). apply HD. exists i, q, x. split; [exact Eq|]. rewrite EL. split; [auto|].
  split; [exists q; rewrite Q3; auto|]. unfold hashData in *. rewrite Q1, Q2. exact Ed.
Qed.
Lemma sameP_hashed md it1 : sameP (md_in md) it1 -> forall i p, zget (in_procs it1) i = Some p -> exists q, zget (in_procs (md_in md)) i = Some q /\ pr_number q = pr_number p /\ pr_cut2 q = pr_cut2 p /\ pr_basis q = pr_basis p.
Proof using. intros SP i p E. destruct (sameP_get _ _ _ _ SP E) as (q & Eq & Hs). exists q. split; [exact Eq|]. apply pstatic_fields in Hs. intuition congruence. Qed.

Record good (md : model) : Prop := {
  gd_numbered : numbered (md_in md); gd_cacheable : cacheable strict (md_in md); gd_hash : mt_hash (md_mt md) = hash;
  gd_tab : tabOK DD hash W (md_cf md) (md_in md) (mt_rt (md_mt md)) }.
Lemma good_start md0 : mkLatticeModel ranks hash L cf it = Some md0 -> within md0 -> good md0.
Proof using All.
  intros H0 HD. assert (HR : reachable ranks hash L cf it md0) by (exists md0, []; auto).
  destruct (mkLatticeModel_inv _ _ _ _ _ _ (st_wf _ _ _ _ ST) H0) as (IV & EL & cf1 & it2 & it' & mt' & mls & E1 & E2 & E3 & E4 & E5 & E6 & CM & E7). destruct (it2_facts _ _ E2) as [HN2 HC2].
  pose proof (round_reach _ hash _ _ _ ST strict HS _ HR) as RF. assert (SP : sameP it2 (md_in md0)) by (eapply sameP_trans; [exact E5|rewrite E4; apply set_table_sameP]).
  constructor.
  - eapply sameP_numbered; eauto.
  - eapply sameP_cacheable; eauto.
  - rewrite <- E7, (cm_hash _ _ _ _ _ _ _ _ CM). reflexivity.
  - rewrite E4. apply (tabOK_same _ _ _ (md_cf md0) _ it'); [apply set_table_sameP|reflexivity|]. rewrite <- E7.
    assert (RF2 : roundCf strict W L it2 (md_cf md0)) by (destruct RF; constructor; auto; intros x Hx HU; apply rf_current0; [exact Hx|]; rewrite <- (sameP_usedBy L it2); auto).
    change hash with (mt_hash (mkMatcher ranks hash (length (cf_coords cf)) (length (in_procs it)))). rewrite <- (cm_hash _ _ _ _ _ _ _ _ CM).
    assert (HI : forall x, In x (zrange 0 (zlen (cf_elements cf1) - 1)) -> 0 <= x < nsites L).
    { intros x Hx. apply In_zrange in Hx. destruct (initMatchLists_fields _ _ _ _ E1) as (ml0 & n & _ & _ & Ecf1). rewrite Ecf1 in Hx. cbn [set_moved set_mlists cf_elements] in Hx. rewrite (wi_elements _ _ _ _ (st_wf _ _ _ _ ST)) in Hx. lia. }
    eapply (tab_round DD strict W L _ it2 cf1); eauto.
    + apply hashes_within; auto. apply sameP_hashed. apply sameP_sym. exact SP.
    + rewrite E6. reflexivity.
    + intros k v Hh. exfalso. exact (rtEmpty_has _ _ Hh).
Qed.
Lemma roundCf_same md it1 c : sameP (md_in md) it1 -> roundCf strict W L (md_in md) c -> roundCf strict W L it1 c.
Proof using. intros SP []. constructor; auto. intros x Hx HU. apply rf_current0; [exact Hx|]. rewrite (sameP_usedBy L (md_in md) it1); auto. Qed.
Lemma sim_fwd md u1 u2 md' : reachable ranks hash L cf it md -> good md -> singleStep md u1 u2 = Some md' -> within md' -> singleStep (plainMd md) u1 u2 = Some (plainMd md') /\ good md'.
Proof using All.
  intros HR G H HD. pose proof (reach_step _ _ _ _ _ _ _ _ _ HR H) as HR'. destruct (reachable_info _ _ _ _ _ _ (st_wf _ _ _ _ ST) HR) as (cf1' & it2 & RI). pose proof (ri_inv _ _ _ _ _ _ _ _ RI) as IV. pose proof (ri_lat _ _ _ _ _ _ _ _ RI) as EL.
  pose proof H as H0. rewrite singleStep_split in H0. ob H0 as e Ee. destruct e as [[it1 cf1] idx]. ob H0 as r Er. destruct r as [[mt' it'] cf']. cbn [fst snd] in *. injection H0 as E.
  destruct (event_parts _ _ _ _ _ _ IV Ee). destruct (matching_round _ _ _ _ _ _ _ _ ep_pre Er) as (IV' & SP & CM). destruct G as [G1 G2 G3 G4].
  assert (SPM : sameP (md_in md) (md_in md')) by (subst md'; cbn [md_in]; eapply sameP_trans; [exact ep_same|]; eapply sameP_trans; [exact SP|apply set_table_sameP]).
  assert (RF : roundCf strict W L it1 (md_cf md')).
  { apply (roundCf_same md'); [|apply (round_reach _ hash _ _ _ ST strict HS _ HR')]. eapply sameP_trans; [apply sameP_sym; exact SPM|exact ep_same]. }
  destruct (reach_static _ _ _ _ _ _ HR) as (_ & N1 & _). destruct (reach_static _ _ _ _ _ _ HR') as (_ & N2 & _).
  assert (T1 : tabOK DD (mt_hash (md_mt md)) W (md_cf md') it1 (mt_rt (md_mt md))) by (rewrite G3; apply (tabOK_same _ _ _ (md_cf md) _ (md_in md)); auto; congruence).
  assert (HI : forall x, In x idx -> 0 <= x < nsites L) by (rewrite <- EL; apply ep_pre).
  assert (EL' : md_lat md' = L) by (rewrite <- E; cbn [md_lat]; exact EL).
  assert (HQ : hashesIn DD L it1 (md_cf md') idx).
  { apply hashes_within; auto. apply sameP_hashed. eapply sameP_trans; [apply sameP_sym; exact SPM|exact ep_same]. }
  pose proof (sameP_numbered _ _ ep_same G1) as G1'. pose proof (sameP_cacheable _ _ _ ep_same G2) as G2'.
  split.
  - pose proof (step_fwd md u1 u2 md' it1 cf1 idx IV G1 Ee H) as X. rewrite EL in X. apply X. clear X. apply (hits_good DD strict W); auto; [apply Wpos|rewrite G3; exact DK].
  - constructor.
    + eapply sameP_numbered; eauto.
    + eapply sameP_cacheable; eauto.
    + rewrite <- E. cbn [md_mt]. rewrite (cm_hash _ _ _ _ _ _ _ _ CM). exact G3.
    + rewrite <- E. cbn [md_cf md_in md_mt]. apply (tabOK_same _ _ _ cf' _ it'); [apply set_table_sameP|reflexivity|]. rewrite <- G3. rewrite <- (cm_hash _ _ _ _ _ _ _ _ CM). rewrite EL in CM. rewrite <- E in RF, HQ. cbn [md_cf] in RF, HQ.
      eapply (tab_round DD strict W L _ it1 cf1); eauto; [|].
      * destruct (cm_cf _ _ _ _ _ _ _ _ CM) as (mls & -> & _). reflexivity.
      * rewrite <- E in T1. cbn [md_cf] in T1. eapply tabOK_same; [apply sameP_refl| |exact T1]. destruct (cm_cf _ _ _ _ _ _ _ _ CM) as (mls & -> & _). reflexivity.
Qed.
Lemma sim_bwd md u1 u2 mdu : reachable ranks hash L cf it md -> reachable ranks hash L cf (uncached it) (plainMd md) -> good md -> singleStep (plainMd md) u1 u2 = Some mdu -> within mdu ->
  exists md', singleStep md u1 u2 = Some md' /\ mdu = plainMd md'.
Proof using All.
  intros HR HRu G H HD. pose proof (reach_step _ _ _ _ _ _ _ _ _ HRu H) as HRu'. pose proof std_uncached as STu.
  destruct (reachable_info _ _ _ _ _ _ (st_wf _ _ _ _ ST) HR) as (cf1' & it2 & RI). pose proof (ri_inv _ _ _ _ _ _ _ _ RI) as IV. pose proof (ri_lat _ _ _ _ _ _ _ _ RI) as EL.
  destruct (reachable_info _ _ _ _ _ _ (st_wf _ _ _ _ STu) HRu) as (cf1u & it2u & RIu). pose proof (ri_inv _ _ _ _ _ _ _ _ RIu) as IVu.
  pose proof H as H0. rewrite singleStep_split in H0. ob H0 as e Eeu. rewrite eventPart_uncached in Eeu. destruct (eventPart md u1 u2) as [[[it1 cf1] idx]|] eqn:Ee; [|discriminate]. cbn [option_map fst snd] in Eeu. inversion Eeu; subst e; clear Eeu H0.
  destruct (step_parts _ _ _ _ IVu H) as (it1u & itu' & c1 & c2 & mtu & idxu & SPu). destruct SPu.
  destruct (event_parts _ _ _ _ _ _ IV Ee). destruct G as [G1 G2 G3 G4].
  destruct (matching_round _ _ _ _ _ _ _ _ sq_pre sq_cm) as (_ & SPm & _).
  assert (SPM : sameP (uncached (md_in md)) (md_in mdu)) by (rewrite sq_md; cbn [md_in]; eapply sameP_trans; [exact sq_same|]; eapply sameP_trans; [exact SPm|apply set_table_sameP]).
  assert (RF : roundCf strict W L it1 (md_cf mdu)).
  { pose proof (round_reach _ hash _ _ _ STu strict HS _ HRu') as []. constructor; auto. intros x Hx HU. apply rf_current0; [exact Hx|]. rewrite <- (sameP_usedBy L _ _ x SPM). rewrite <- (sameP_usedBy L _ _ x ep_same) in HU.
    destruct HU as (i & p & Ep & Hb). exists i, (uncache p). rewrite uncached_get, Ep. auto. }
  destruct (reach_static _ _ _ _ _ _ HR) as (_ & N1 & _). destruct (reach_static _ _ _ _ _ _ HRu') as (_ & N2 & _).
  assert (T1 : tabOK DD (mt_hash (md_mt md)) W (md_cf mdu) it1 (mt_rt (md_mt md))) by (rewrite G3; apply (tabOK_same _ _ _ (md_cf md) _ (md_in md)); auto; congruence).
  apply (step_bwd md u1 u2 mdu it1 cf1 idx IV G1 Ee H). rewrite EL. apply (hits_good DD strict W); auto.
  - apply Wpos.
  - rewrite G3. exact DK.
  - apply hashes_within; auto; [rewrite sq_md; cbn [md_lat]; exact EL|rewrite <- EL; apply ep_pre|]. intros i p Ep. destruct (sameP_get _ _ _ _ ep_same Ep) as (p1 & Ep1 & Hs1).
    assert (Eu : zget (in_procs (uncached (md_in md))) i = Some (uncache p1)) by (rewrite uncached_get, Ep1; reflexivity). destruct (sameP_get _ _ _ _ (sameP_sym _ _ SPM) Eu) as (q & Eq & Hs2). exists q. split; [exact Eq|].
    apply pstatic_fields in Hs1. apply pstatic_fields in Hs2. cbn [uncache pr_number pr_cut2 pr_basis] in Hs2. intuition congruence.
  - eapply sameP_numbered; eauto.
  - eapply sameP_cacheable; eauto.
  - rewrite <- EL. apply ep_pre.
Qed.
Lemma run_fwd md0 us : mkLatticeModel ranks hash L cf it = Some md0 ->
  (forall before after md, us = before ++ after -> runSteps md0 before = Some md -> within md) ->
  forall md, runSteps md0 us = Some md -> good md /\ runSteps (plainMd md0) us = Some (plainMd md).
Proof using All.
  intros H0. induction us as [|[u1 u2] us IH] using rev_ind; intros HD md H.
  - inversion H; subst. split; [apply good_start; [exact H0|]|reflexivity]. apply (HD [] []); reflexivity.
  - pose proof (HD _ [] _ (eq_sym (app_nil_r _)) H) as HDm. unfold runSteps in *. rewrite ofold_app in *. ob H as md1 E1.
    assert (HD' : forall before after md, us = before ++ after -> ofold (fun m u => singleStep m (fst u) (snd u)) before md0 = Some md -> within md).
    { intros b a m Eq. apply (HD b (a ++ [(u1, u2)])). rewrite Eq, app_assoc. reflexivity. }
    destruct (IH HD' md1 E1) as [G IH']. rewrite IH'. cbn [obind ofold fst snd] in *. ob H as md2 E2. inversion H; subst md2.
    destruct (sim_fwd md1 u1 u2 md) as [X Y]; [exists md0, us; auto|exact G|exact E2|exact HDm|]. rewrite X. auto.
Qed.
Lemma run_bwd md0 us : mkLatticeModel ranks hash L cf it = Some md0 ->
  (forall before after md, us = before ++ after -> runSteps (plainMd md0) before = Some md -> within md) ->
  forall mdu, runSteps (plainMd md0) us = Some mdu -> exists md, good md /\ runSteps md0 us = Some md /\ mdu = plainMd md.
Proof using All.
  intros H0. induction us as [|[u1 u2] us IH] using rev_ind; intros HD mdu H.
  - inversion H; subst. exists md0. split; [|split; reflexivity]. apply good_start; [exact H0|]. intros d Hd. apply (HD [] [] (plainMd md0)); [reflexivity|reflexivity|]. apply environment_uncached. exact Hd.
  - pose proof (HD _ [] _ (eq_sym (app_nil_r _)) H) as HDm. unfold runSteps in *. rewrite ofold_app in *. ob H as md1u E1.
    assert (HD' : forall before after md, us = before ++ after -> ofold (fun m u => singleStep m (fst u) (snd u)) before (plainMd md0) = Some md -> within md).
    { intros b a m Eq. apply (HD b (a ++ [(u1, u2)])). rewrite Eq, app_assoc. reflexivity. }
    destruct (IH HD' md1u E1) as (md1 & G & R1 & ->). rewrite R1. cbn [obind ofold fst snd] in *. ob H as md2 E2. inversion H; subst md2.
    assert (HRu : reachable ranks hash L cf (uncached it) (plainMd md1)) by (exists (plainMd md0), us; split; [rewrite start_uncached, H0; reflexivity|exact E1]).
    assert (HR : reachable ranks hash L cf it md1) by (exists md0, us; auto).
    destruct (sim_bwd md1 u1 u2 mdu) as (md' & X & ->); auto. rewrite X. cbn [obind]. exists md'. split; [|auto].
    destruct (sim_fwd md1 u1 u2 md' HR G X) as [_ Y]; [|exact Y]. intros d Hd. apply HDm. apply environment_uncached. exact Hd.
Qed.
End Sim.
