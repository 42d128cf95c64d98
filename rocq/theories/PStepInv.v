(** What sequences of events preserve. *)
From Verif Require Import PBase SModel SGeo SEvent SBuild SPlain SStep PLattice PProcess PMpi PRateTable PMatcher PPerform PStep PGeo PPossible PRun PEffect PRematch PEvent PBuild PPlain PRow.
Open Scope string_scope.
Open Scope list_scope.
Open Scope Z_scope.

(** ** widths *)
Lemma ofold_inv {A B} (f : A -> B -> option A) (P : A -> Prop) l : (forall a b a', P a -> f a b = Some a' -> P a') -> forall a a', P a -> ofold f l a = Some a' -> P a'.
Proof.
  intros H. induction l as [|b l IH]; intros a a' Ha E; [inversion E; subst; exact Ha|]. cbn [ofold] in E. ob E as a1 E1. eapply IH; [|exact E]. eapply H; eauto.
Qed.
Lemma bucketOf_len pt size els t : bucketOf pt size els = Some t -> zlen t = Z.max 0 size.
Proof.
  unfold bucketOf. apply (ofold_inv _ (fun t => zlen t = Z.max 0 size)).
  - intros a b a' Ha E. ob E as k Ek. ob E as v Ev. rewrite (zset_len _ _ _ _ E). exact Ha.
  - unfold zlen. rewrite repeat_length. lia.
Qed.
Section Std.
Context (ranks : Z) (hash : list Z -> Z) (L : lattice) (cf : config) (it : interactions) (ST : stdInput ranks L cf it).
Let WI := st_wf _ _ _ _ ST.
Let pt := cf_ptypes cf.
Let WP := st_pt _ _ _ _ ST.

Lemma std_names : typeNamesOf pt = Some (cf_names cf).
Proof using ST. destruct (st_cf _ _ _ _ ST) as (coords & els & E). apply mkConfiguration_info in E. apply E. Qed.
Lemma std_width t : In t (cf_types cf) -> zlen t = zlen pt.
Proof using ST.
  intros Ht. destruct (st_cf _ _ _ _ ST) as (coords & els & E). apply mkConfiguration_info in E. destruct (omap_In _ _ _ _ (ci_types _ _ _ _ E) Ht) as (e & He & Eb).
  rewrite (bucketOf_len _ _ _ _ Eb). destruct (names_wf _ _ WP (ci_names _ _ _ _ E)) as [-> _]. apply Z.max_r, zlen_nonneg.
Qed.
Lemma pt_pos : 1 <= zlen pt.
Proof using ST. destruct WP as (_ & _ & W0). pose proof (tfind_range _ _ _ WP W0). fold pt in H. lia. Qed.
Lemma std_nonempty t : In t (cf_types cf) -> t <> [].
Proof using ST. intros Ht ->. apply std_width in Ht. pose proof pt_pos. unfold zlen in *. cbn in Ht. lia. Qed.
Lemma reach_width md : reachable ranks hash L cf it md -> forall t, In t (cf_types (md_cf md)) -> zlen t = zlen pt.
Proof using ST.
  intros HR t Ht. destruct (reachable_info _ _ _ _ _ _ WI HR) as (cf0 & it2 & RI). pose proof (ri_width _ _ _ _ _ _ _ _ RI) as E.
  assert (H : In (zlen t) (map zlen (cf_types (md_cf md)))) by (apply in_map; exact Ht). rewrite E in H. apply in_map_iff in H. destruct H as (t0 & <- & H). apply std_width. exact H.
Qed.
Lemma std_step md u1 u2 md' : reachable ranks hash L cf it md -> singleStep md u1 u2 = Some md' ->
  exists i p x ys, zget (in_procs it) i = Some p /\ pickProcessIndex (md_in md) u1 = Some i /\ listed md i x /\ 0 <= x < nsites L /\
    cf_lastproc (md_cf md') = pr_number p /\ cf_lastsite (md_cf md') = x /\ eventFx L (md_cf md) (md_cf md') p x ys.
Proof using ST. apply step_event; [exact WI|exact std_nonempty|apply ST|apply ST]. Qed.
Lemma std_ind (P : config -> Prop) : P cf -> (forall a b, sameCfg a b -> P a -> P b) ->
  (forall md md' i p x ys, reachable ranks hash L cf it md -> reachable ranks hash L cf it md' -> zget (in_procs it) i = Some p -> eventFx L (md_cf md) (md_cf md') p x ys -> P (md_cf md) -> P (md_cf md')) ->
  forall md, reachable ranks hash L cf it md -> P (md_cf md).
Proof using ST.
  intros H0 HC HS. apply (reach_ind _ _ _ _ _ (fun md => P (md_cf md))).
  - intros md0 E0. eapply HC; [eapply mkLatticeModel_cfg; eauto|exact H0].
  - intros md u1 u2 md' HR IH H. destruct (std_step _ _ _ _ HR H) as (i & p & x & ys & Ep & _ & _ & _ & _ & _ & EF). eapply HS; eauto. eapply reach_step; eauto.
Qed.
End Std.

(** ** particle numbers *)
Lemma amount_get t k n : zget t k = Some n -> amount t k = n. Proof. unfold amount. intros ->. reflexivity. Qed.
Lemma perTypeStep acc tb : zlen acc <= zlen tb -> exists acc', omap (fun j => a <- zget acc j ;; v <- bget tb j ;; Some (a + v)) (zrange 0 (zlen acc - 1)) = Some acc' /\
  zlen acc' = zlen acc /\ forall j a, zget acc j = Some a -> zget acc' j = Some (a + amount tb j).
Proof.
  intros HL. set (f := fun j => a <- zget acc j ;; v <- bget tb j ;; Some (a + v)).
  assert (HT : forall l, (forall j, In j l -> 0 <= j < zlen acc) -> exists r, omap f l = Some r).
  { induction l as [|j l IH]; intros H; [exists []; reflexivity|]. destruct IH as [r Er]; [intros; apply H; right; assumption|].
    assert (Hj := H j (or_introl eq_refl)). destruct (zget_lt acc j Hj) as [a Ea]. destruct (zget_lt tb j) as [v Ev]; [lia|]. exists ((a + v) :: r). cbn [omap]. rewrite Er.
    unfold f at 1, bget. rewrite Ea, Ev. reflexivity. }
  destruct (HT (zrange 0 (zlen acc - 1))) as [r Er]; [intros j Hj; apply In_zrange in Hj; lia|]. exists r. split; [exact Er|].
  split; [rewrite (omap_zlen _ _ _ Er), zlen_zrange; pose proof (zlen_nonneg acc); lia|].
  intros j a Ea. apply zget_range in Ea as Hj. rewrite (omap_zget _ _ _ j Er). rewrite zget_zrange by lia. cbn [obind]. rewrite Z.add_0_l. unfold f, bget. rewrite Ea. cbn [obind].
  destruct (zget_lt tb j) as [v Ev]; [lia|]. rewrite Ev. cbn [obind]. rewrite (amount_get _ _ _ Ev). reflexivity.
Qed.
Lemma perType_fold types : forall acc, (forall t, In t types -> zlen acc <= zlen t) ->
  exists acc', ofold (fun acc tb => omap (fun j => a <- zget acc j ;; v <- bget tb j ;; Some (a + v)) (zrange 0 (zlen acc - 1))) types acc = Some acc' /\
    zlen acc' = zlen acc /\ forall j a, zget acc j = Some a -> zget acc' j = Some (a + countOf types j).
Proof.
  induction types as [|t types IH]; intros acc H.
  - exists acc. cbn [ofold]. split; [reflexivity|]. split; [reflexivity|]. intros j a Ea. unfold countOf. cbn. rewrite Ea. f_equal. lia.
  - destruct (perTypeStep acc t) as (acc1 & E1 & L1 & G1); [apply H; left; reflexivity|].
    destruct (IH acc1) as (acc2 & E2 & L2 & G2); [intros t' Ht'; rewrite L1; apply H; right; exact Ht'|].
    exists acc2. cbn [ofold]. rewrite E1. cbn [obind]. split; [exact E2|]. split; [congruence|]. intros j a Ea. rewrite (G2 j _ (G1 j a Ea)). unfold countOf. cbn [map]. rewrite zsum_cons. f_equal. lia.
Qed.
Lemma perType_spec cf : (forall t, In t (cf_types cf) -> zlen t = zlen (cf_ptypes cf)) ->
  exists ns, particlesPerType cf = Some ns /\ zlen ns = zlen (cf_ptypes cf) /\ forall k, 0 <= k < zlen (cf_ptypes cf) -> zget ns k = Some (countOf (cf_types cf) k).
Proof.
  intros H. assert (HR : zlen (repeat 0 (length (cf_ptypes cf))) = zlen (cf_ptypes cf)) by (unfold zlen; rewrite repeat_length; reflexivity).
  destruct (perType_fold (cf_types cf) (repeat 0 (length (cf_ptypes cf)))) as (ns & E & LN & G); [intros t Ht; rewrite HR, (H t Ht); lia|].
  exists ns. split; [exact E|]. split; [congruence|]. intros k Hk. rewrite (G k 0); [f_equal; lia|].
  destruct (zget_lt (repeat 0 (length (cf_ptypes cf))) k) as [a Ea]; [lia|]. rewrite Ea. apply zget_In in Ea. apply repeat_spec in Ea. congruence.
Qed.

(** sums over the sites *)
Lemma zsum_split (m : list Z) (l : list Z) (f : Z -> Z) : NoDup m -> NoDup l -> incl l m -> (forall y, In y m -> ~ In y l -> f y = 0) -> zsum (map f m) = zsum (map f l).
Proof.
  intros NM NL HI H0. set (g := fun y => if in_dec Z.eq_dec y l then true else false).
  assert (HP : Permutation (filter g m) l).
  { apply NoDup_Permutation; [apply NoDup_filter; exact NM|exact NL|]. intros y. rewrite filter_In. unfold g. destruct (in_dec Z.eq_dec y l); split; intros; try tauto; [split; [apply HI|]; auto|destruct H; discriminate]. }
  rewrite <- (zsum_perm _ _ (Permutation_map f HP)). clear HP NM NL HI. unfold g. induction m as [|y m IH]; [reflexivity|]. cbn [map filter]. rewrite zsum_cons.
  rewrite IH by (intros; apply H0; [right|]; assumption). destruct (in_dec Z.eq_dec y l); [cbn [map]; rewrite zsum_cons; reflexivity|]. rewrite (H0 y) by (auto; left; reflexivity). lia.
Qed.
Lemma list_zrange {A} (l : list A) (d : A) : l = map (fun i => match zget l i with Some a => a | None => d end) (zrange 0 (zlen l - 1)).
Proof.
  apply zget_ext. intros i. rewrite zget_map. destruct (zget l i) as [a|] eqn:E.
  - apply zget_range in E as Hi. rewrite zget_zrange by lia. cbn. rewrite E. reflexivity.
  - apply zget_None in E. destruct (zget (zrange 0 (zlen l - 1)) i) as [z|] eqn:Ez; [|reflexivity]. apply zget_range in Ez. rewrite zlen_zrange in Ez. pose proof (zlen_nonneg l). lia.
Qed.
Lemma countOf_change L cf cf' p x ys k : eventFx L cf cf' p x ys -> zlen (cf_types cf) = nsites L ->
  (forall t, In t (cf_types cf) -> 0 <= k < zlen t) -> (forall e, In e (pr_ml p) -> 0 <= k < zlen (pe_upd e)) ->
  countOf (cf_types cf') k = countOf (cf_types cf) k + netChange p k.
Proof.
  intros EF LT HW HU. set (v := fun (ts : list bucket) y => match zget ts y with Some t => amount t k | None => 0 end).
  assert (HC : forall ts : list bucket, countOf ts k = zsum (map (v ts) (zrange 0 (zlen ts - 1)))).
  { intros ts. unfold countOf. rewrite (list_zrange ts []) at 1. rewrite map_map. f_equal. apply map_ext_in. intros y _. unfold v. destruct (zget ts y); [reflexivity|]. unfold amount. rewrite zget_nil. reflexivity. }
  rewrite !HC. rewrite (ef_ltypes _ _ _ _ _ _ EF). set (m := zrange 0 (zlen (cf_types cf) - 1)).
  assert (HD : zsum (map (fun y => v (cf_types cf') y - v (cf_types cf) y) m) = zsum (map (fun y => v (cf_types cf') y - v (cf_types cf) y) ys)).
  { apply zsum_split; [apply NoDup_zrange|apply EF| |].
    - intros y Hy. apply (ef_range _ _ _ _ _ _ EF) in Hy. apply In_zrange. unfold bucket in *. lia.
    - intros y _ Hy. unfold v. rewrite (ef_types_other _ _ _ _ _ _ EF y Hy). lia. }
  assert (HE : zsum (map (fun y => v (cf_types cf') y - v (cf_types cf) y) ys) = netChange p k).
  { unfold netChange. f_equal. apply zget_ext. intros j. rewrite !zget_map. pose proof (ef_len _ _ _ _ _ _ EF) as HL.
    destruct (zget ys j) as [y|] eqn:Ey.
    - apply zget_range in Ey as Hj. destruct (zget_lt (pr_ml p) j) as [e Ee]; [lia|]. rewrite Ee. cbn [option_map]. f_equal.
      destruct (ef_types _ _ _ _ _ _ EF j e y Ee Ey) as (t & t' & T1 & T2 & [T3 T4] & _). unfold v. rewrite T1, T2.
      destruct (zget_lt t k) as [a Ea]; [apply HW; eapply zget_In; eauto|]. destruct (zget_lt (pe_upd e) k) as [u Eu]; [apply HU; eapply zget_In; eauto|].
      rewrite (amount_get _ _ _ (T4 _ _ _ Ea Eu)), (amount_get _ _ _ Ea), (amount_get _ _ _ Eu). lia.
    - apply zget_None in Ey. destruct (zget (pr_ml p) j) as [e|] eqn:Ee; [|reflexivity]. apply zget_range in Ee. lia. }
  rewrite <- HE, <- HD. rewrite (map_ext (fun y => v (cf_types cf') y - v (cf_types cf) y) (fun y => v (cf_types cf') y + (-1) * v (cf_types cf) y)) by (intros; lia).
  rewrite zsum_map_add, zsum_map_mul. lia.
Qed.

(** ** names agree with numbers *)
Definition agrees (cf : config) : Prop :=
  forall y t els s k n, zget (cf_types cf) y = Some t -> zget (cf_elements cf) y = Some els -> tfind (cf_ptypes cf) s = Some k -> zget t k = Some n ->
    zlen (filter (String.eqb s) els) = Z.max 0 n.
Lemma bucketOf_count pt size els : forall t, wfPT pt -> bucketOf pt size els = Some t -> forall s k n, tfind pt s = Some k -> zget t k = Some n -> n = zlen (filter (String.eqb s) els).
Proof.
  intros t WP. unfold bucketOf.
  assert (G : forall els tb tb', ofold (fun tb e => t <- tfind pt e ;; v <- zget tb t ;; zset tb t (v + 1)) els tb = Some tb' ->
     forall s k n, tfind pt s = Some k -> zget tb' k = Some n -> exists m, zget tb k = Some m /\ n = m + zlen (filter (String.eqb s) els)).
  { clear t els. induction els as [|e els IH]; intros tb tb' H s k n Hs Hn.
    - inversion H; subst. exists n. split; [exact Hn|]. cbn. lia.
    - cbn [ofold] in H. ob H as tb1 E1. ob E1 as ke Eke. ob E1 as v Ev. destruct (IH _ _ H s k n Hs Hn) as (m & Em & ->). rewrite (zset_get _ _ _ _ k E1) in Em.
      cbn [filter]. destruct (Z.eqb_spec k ke) as [->|Hne].
      + assert (s = e) by (eapply tfind_inj; eauto). subst e. rewrite String.eqb_refl, zlen_cons. exists v. split; [exact Ev|]. inversion Em. lia.
      + destruct (String.eqb_spec s e) as [->|]; [congruence|]. eauto. }
  intros H s k n Hs Hn. destruct (G _ _ _ H s k n Hs Hn) as (m & Em & ->). apply zget_In in Em. apply repeat_spec in Em. lia.
Qed.
Lemma elementsOf_count pt names t els : wfPT pt -> typeNamesOf pt = Some names -> elementsOf names t = Some els ->
  forall s k n, tfind pt s = Some k -> zget t k = Some n -> zlen (filter (String.eqb s) els) = Z.max 0 n.
Proof.
  intros WP HN H s k n Hs Hn. destruct (names_wf _ _ WP HN) as [N1 N2]. unfold elementsOf in H. ob H as ns E. inversion H; subst els; clear H.
  assert (NI : forall j, zget names j = Some s -> j = k).
  { intros j Ej. pose proof (zget_range _ _ _ Ej) as Hj. assert (Hin : In j (map snd pt)).
    { destruct WP as (_ & HP & _). eapply Permutation_in; [apply Permutation_sym; exact HP|]. apply In_zrange. lia. }
    apply in_map_iff in Hin. destruct Hin as ([s' j'] & Ej' & Hin). cbn in Ej'. subst j'. apply In_tfind in Hin; [|apply WP]. pose proof (N2 _ _ Hin). assert (s' = s) by congruence. subst s'. congruence. }
  assert (G : forall l r, omap (fun i => n <- bget t i ;; if 0 <? n then (s <- zget names i ;; Some (repeat s (Z.to_nat n))) else Some []) l = Some r -> NoDup l ->
     zlen (filter (String.eqb s) (concat r)) = if in_dec Z.eq_dec k l then Z.max 0 n else 0).
  { induction l as [|j l IH]; intros r Hr ND; [inversion Hr; subst; reflexivity|]. cbn [omap] in Hr. ob Hr as a Ea. ob Hr as r' Er. inversion Hr; subst r; clear Hr. inversion ND as [|? ? Hni ND']; subst.
    cbn [concat]. rewrite filter_app. unfold zlen in *. rewrite app_length, Nat2Z.inj_add. rewrite (IH _ Er ND'). unfold bget in Ea. ob Ea as nj Enj.
    assert (HF : Z.of_nat (length (filter (String.eqb s) a)) = if Z.eq_dec k j then Z.max 0 n else 0).
    { destruct (Z.ltb_spec 0 nj) as [Hp|Hp].
      - ob Ea as sj Esj. inversion Ea; subst a; clear Ea. destruct (Z.eq_dec k j) as [<-|Hne].
        + assert (nj = n) by congruence. subst nj. pose proof (N2 _ _ Hs). assert (sj = s) by congruence. subst sj.
          assert (HR : forall q, length (filter (String.eqb s) (repeat s q)) = q) by (induction q; [reflexivity|]; cbn [repeat filter]; rewrite String.eqb_refl; cbn [length]; congruence). rewrite HR. lia.
        + assert (HR : forall q, filter (String.eqb s) (repeat sj q) = []).
          { induction q; [reflexivity|]. cbn [repeat filter]. destruct (String.eqb_spec s sj) as [<-|]; [|exact IHq]. exfalso. apply Hne. symmetry. apply NI. exact Esj. }
          rewrite HR. reflexivity.
      - inversion Ea; subst a. cbn. destruct (Z.eq_dec k j) as [<-|]; [|reflexivity]. assert (nj = n) by congruence. lia. }
    rewrite HF. destruct (Z.eq_dec k j) as [<-|Hne], (in_dec Z.eq_dec k l) as [Hi|Hi]; try contradiction; cbn [in_dec];
      match goal with |- context [in_dec Z.eq_dec k (?a :: l)] => destruct (in_dec Z.eq_dec k (a :: l)) as [Hj|Hj] end; try lia; exfalso; try (apply Hj; cbn; tauto).
    destruct Hj; congruence. }
  rewrite (G _ _ E (NoDup_zrange _ _)). destruct (in_dec Z.eq_dec k (zrange 0 (zlen t - 1))) as [|Hx]; [reflexivity|]. exfalso. apply Hx. apply zget_range in Hn. apply In_zrange. lia.
Qed.

Lemma agrees_start pt coords els cf : wfPT pt -> mkConfiguration coords els pt = Some cf -> agrees cf.
Proof.
  intros WP H. apply mkConfiguration_info in H. intros y t e s k n Et Ee Es En. rewrite (ci_ptypes _ _ _ _ H) in Es. rewrite (ci_elements _ _ _ _ H) in Ee.
  pose proof (omap_zget _ _ _ y (ci_types _ _ _ _ H)) as E. rewrite Et, Ee in E. cbn [obind] in E. symmetry in E. pose proof (bucketOf_count _ _ _ _ WP E s k n Es En). pose proof (zlen_nonneg (filter (String.eqb s) e)). lia.
Qed.
Lemma agrees_same a b : sameCfg a b -> agrees a -> agrees b.
Proof. intros [] H y t els s k n. rewrite sc_types, sc_elements, sc_ptypes. apply H. Qed.
Lemma agrees_event L cf cf' p x ys : wfPT (cf_ptypes cf) -> typeNamesOf (cf_ptypes cf) = Some (cf_names cf) -> cf_ptypes cf' = cf_ptypes cf ->
  eventFx L cf cf' p x ys -> agrees cf -> agrees cf'.
Proof.
  intros WP HN EP EF H y t els s k n Et Ee Es En. rewrite EP in Es.
  assert (D : (exists j e, zget (pr_ml p) j = Some e /\ zget ys j = Some y /\ changes e) \/ (zget (cf_types cf') y = zget (cf_types cf) y /\ zget (cf_elements cf') y = zget (cf_elements cf) y)).
  { destruct (in_dec Z.eq_dec y ys) as [Hi|Hi].
    - apply In_zget in Hi. destruct Hi as [j Ej]. destruct (zget_lt (pr_ml p) j) as [e Ee0]; [rewrite <- (ef_len _ _ _ _ _ _ EF); eapply zget_range; eauto|].
      destruct (changes_dec e) as [C|C]; [left; eauto|right]. split.
      + destruct (ef_types _ _ _ _ _ _ EF j e y Ee0 Ej) as (t0 & t1 & T1 & T2 & _ & T3). rewrite T1, T2, (T3 C). reflexivity.
      + apply (ef_elements_other _ _ _ _ _ _ EF). intros j' e' E1 E2. assert (j' = j) by (eapply NoDup_zget_inj; [apply EF|exact E2|exact Ej]). subst j'. congruence.
    - right. split; [apply EF; exact Hi|]. apply (ef_elements_other _ _ _ _ _ _ EF). intros j e _ E. exfalso. apply Hi. eapply zget_In; eauto. }
  destruct D as [(j & e & E1 & E2 & C)|[E1 E2]]; [|rewrite E1 in Et; rewrite E2 in Ee; eapply H; eauto].
  destruct (ef_elements _ _ _ _ _ _ EF j e y E1 E2 C) as (t' & els' & X1 & X2 & X3). assert (t' = t) by congruence. assert (els' = els) by congruence. subst t' els'. eapply elementsOf_count; eauto.
Qed.
Lemma nameCount_eq cf s k : agrees cf -> nonNegative cf -> zlen (cf_elements cf) = zlen (cf_types cf) -> tfind (cf_ptypes cf) s = Some k ->
  (forall t, In t (cf_types cf) -> 0 <= k < zlen t) -> nameCount s (cf_elements cf) = countOf (cf_types cf) k.
Proof.
  intros HA HN HL Hs HW. unfold nameCount, countOf. f_equal. apply zget_ext. intros y. rewrite !zget_map.
  destruct (zget (cf_elements cf) y) as [els|] eqn:Ee, (zget (cf_types cf) y) as [t|] eqn:Et; cbn [option_map]; try reflexivity.
  - f_equal. destruct (zget_lt t k) as [n En]; [apply HW; eapply zget_In; eauto|]. rewrite (HA y t els s k n Et Ee Hs En), (amount_get _ _ _ En). pose proof (HN y t k n Et En). lia.
  - apply zget_range in Ee. apply zget_None in Et. unfold bucket in *. lia.
  - apply zget_range in Et. apply zget_None in Ee. unfold bucket in *. lia.
Qed.

(** ** non-negative occupations *)
Lemma nonneg_start pt coords els cf : wfPT pt -> mkConfiguration coords els pt = Some cf -> nonNegative cf.
Proof.
  intros WP H. apply mkConfiguration_info in H. intros y t k n Et En. apply zget_range in En as Hk.
  pose proof (omap_zget _ _ _ y (ci_types _ _ _ _ H)) as E. rewrite Et in E. symmetry in E. ob E as e Ee.
  assert (Hin : In k (map snd pt)).
  { rewrite (bucketOf_len _ _ _ _ E) in Hk. destruct (names_wf _ _ WP (ci_names _ _ _ _ H)) as [HN _]. rewrite HN, Z.max_r in Hk by apply zlen_nonneg.
    destruct WP as (_ & HP & _). eapply Permutation_in; [apply Permutation_sym; exact HP|]. apply In_zrange. lia. }
  apply in_map_iff in Hin. destruct Hin as ([s k'] & E' & Hin). cbn in E'. subst k'. apply In_tfind in Hin; [|apply WP].
  rewrite (bucketOf_count _ _ _ _ WP E s k n Hin En). apply zlen_nonneg.
Qed.
Lemma nonneg_event L cf cf' p x ys : eventFx L cf cf' p x ys -> noOverdraw p -> (forall t, In t (cf_types cf) -> forall e, In e (pr_ml p) -> zlen (pe_upd e) = zlen t /\ zlen (pe_match e) = zlen t) ->
  nonNegative cf -> nonNegative cf'.
Proof.
  intros EF HO HW HN y t' k n Et En. destruct (in_dec Z.eq_dec y ys) as [Hi|Hi]; [|rewrite (ef_types_other _ _ _ _ _ _ EF y Hi) in Et; eapply HN; eauto].
  apply In_zget in Hi. destruct Hi as [j Ej]. destruct (zget_lt (pr_ml p) j) as [e Ee]; [rewrite <- (ef_len _ _ _ _ _ _ EF); eapply zget_range; eauto|].
  destruct (ef_types _ _ _ _ _ _ EF j e y Ee Ej) as (t & t0 & T1 & T2 & [T3 T4] & T5). assert (t0 = t') by congruence. subst t0.
  destruct (HO e (zget_In _ _ _ Ee)) as [O1 O2]. destruct (changes_dec e) as [C|C]; [|rewrite (T5 C) in En; eapply HN; eauto].
  destruct (ef_site _ _ _ _ _ _ EF j e y Ee Ej) as [W|(c1 & c2 & d & t0 & _ & _ & _ & _ & S1 & [S2 S3])]; [exfalso; apply O1; assumption|]. assert (t0 = t) by congruence. subst t0.
  destruct (HW t (zget_In _ _ _ T1) e (zget_In _ _ _ Ee)) as [W1 W2]. apply zget_range in En as Hk.
  destruct (zget_lt t k) as [a Ea]; [unfold bucket in *; lia|]. destruct (zget_lt (pe_upd e) k) as [u Eu]; [unfold bucket in *; lia|]. destruct (zget_lt (pe_match e) k) as [m Em]; [unfold bucket in *; lia|].
  pose proof (T4 k a u Ea Eu). pose proof (S3 k m a Em Ea). pose proof (O2 k m u Em Eu). assert (n = a + u) by congruence. lia.
Qed.

(** ** labels *)
Lemma aid_event L cf cf' p x ys : eventFx L cf cf' p x ys -> sane p -> idmovesCycle p -> zlen (cf_aid cf) = nsites L -> NoDup (cf_aid cf) -> Permutation (cf_aid cf') (cf_aid cf).
Proof.
  intros EF SN [NS CY] LA ND. pose proof (ef_len _ _ _ _ _ _ EF) as HLen.
  assert (YS : forall a b, In (a, b) (pr_idmoves p) -> exists ya yb, zget ys a = Some ya /\ zget ys b = Some yb).
  { intros a b H. destruct (sn_idrange _ SN a b H) as [Ha Hb]. rewrite <- HLen in Ha, Hb. destruct (zget_lt _ _ Ha), (zget_lt _ _ Hb). eauto. }
  assert (SRC : forall y, exists z, zget (cf_aid cf') y = zget (cf_aid cf) z /\ ((z = y /\ forall a b, In (a, b) (pr_idmoves p) -> zget ys b <> Some y) \/ exists a b, In (a, b) (pr_idmoves p) /\ zget ys a = Some z /\ zget ys b = Some y)).
  { intros y. destruct (existsb (fun m => match zget ys (snd m) with Some z => z =? y | None => false end) (pr_idmoves p)) eqn:EX.
    - apply existsb_exists in EX. destruct EX as ([a b] & Hab & E). cbn in E. destruct (YS a b Hab) as (ya & yb & Ya & Yb). rewrite Yb in E. apply Z.eqb_eq in E. subst yb.
      exists ya. split; [eapply (ef_aid _ _ _ _ _ _ EF NS); eauto|right; eauto].
    - assert (HN : forall a b, In (a, b) (pr_idmoves p) -> zget ys b <> Some y).
      { intros a b Hab E. assert (existsb (fun m => match zget ys (snd m) with Some z => z =? y | None => false end) (pr_idmoves p) = true) by (apply existsb_exists; exists (a, b); split; [exact Hab|]; cbn; rewrite E; apply Z.eqb_refl). congruence. }
      exists y. split; [apply (ef_aid_other _ _ _ _ _ _ EF y HN)|left; auto]. }
  assert (LA' : zlen (cf_aid cf') = zlen (cf_aid cf)) by apply EF.
  assert (PI : forall y y' z z', ((z = y /\ forall a b, In (a, b) (pr_idmoves p) -> zget ys b <> Some y) \/ exists a b, In (a, b) (pr_idmoves p) /\ zget ys a = Some z /\ zget ys b = Some y) ->
     ((z' = y' /\ forall a b, In (a, b) (pr_idmoves p) -> zget ys b <> Some y') \/ exists a b, In (a, b) (pr_idmoves p) /\ zget ys a = Some z' /\ zget ys b = Some y') -> z = z' -> y = y').
  { assert (AUX : forall y y' a b, (forall a b, In (a, b) (pr_idmoves p) -> zget ys b <> Some y) -> In (a, b) (pr_idmoves p) -> zget ys a = Some y -> zget ys b = Some y' -> False).
    { intros y y' a b HN Hab Ea Eb. destruct (proj1 (CY a)) as [c Hc]; [eauto|]. apply (HN c a Hc Ea). }
    intros y y' z z' [[-> HN]|(a & b & Hab & Ea & Eb)] [[-> HN']|(a' & b' & Hab' & Ea' & Eb')] E; subst; auto.
    - exfalso. eapply AUX; eauto.
    - exfalso. eapply AUX; eauto.
    - assert (a = a') by (eapply NoDup_zget_inj; [apply EF|exact Ea|exact Ea']). subst a'.
      assert (b = b').
      { pose proof (sn_idfrom _ SN) as NF. apply In_zget in Hab, Hab'. destruct Hab as [k Ek], Hab' as [k' Ek'].
        assert (k = k') by (eapply (NoDup_zget_inj (map fst (pr_idmoves p))); [exact NF|rewrite zget_map, Ek; reflexivity|rewrite zget_map, Ek'; reflexivity]). subst k'. congruence. }
      subst b'. congruence. }
  assert (ND' : NoDup (cf_aid cf')).
  { apply NoDup_nth_error. intros i j Hi E. assert (Hi' : 0 <= Z.of_nat i < zlen (cf_aid cf')) by (unfold zlen; lia). destruct (zget_lt _ _ Hi') as [id Eid].
    assert (Ej : zget (cf_aid cf') (Z.of_nat j) = Some id) by (rewrite zget_of_nat in *; congruence).
    destruct (SRC (Z.of_nat i)) as (z & Z1 & Z2). destruct (SRC (Z.of_nat j)) as (z' & Z1' & Z2'). rewrite Eid in Z1. rewrite Ej in Z1'.
    assert (z = z') by (eapply NoDup_zget_inj; [exact ND|symmetry; exact Z1|symmetry; exact Z1']). pose proof (PI _ _ _ _ Z2 Z2' H). lia. }
  apply NoDup_Permutation_bis; [exact ND'|unfold zlen in LA'; lia|].
  intros id Hid. apply In_zget in Hid. destruct Hid as [y Ey]. destruct (SRC y) as (z & Z1 & _). rewrite Ey in Z1. eapply zget_In; eauto.
Qed.

(** ** coordinates of atoms *)
Lemma firstn_get {A} (l : list A) n i : zget (firstn n l) i = if i <? Z.of_nat n then zget l i else None.
Proof.
  revert l i. induction n as [|n IH]; intros l i.
  - cbn [firstn]. rewrite zget_nil. destruct (Z.ltb_spec i (Z.of_nat 0)); [|reflexivity]. symmetry. apply zget_neg. lia.
  - destruct l as [|a l]; [cbn [firstn]; rewrite zget_nil; destruct (_ <? _); reflexivity|]. cbn [firstn]. rewrite !zget_cons. destruct (Z.eqb_spec i 0) as [->|].
    + destruct (Z.ltb_spec 0 (Z.of_nat (Datatypes.S n))); [reflexivity|lia].
    + rewrite IH. destruct (Z.ltb_spec (i - 1) (Z.of_nat n)), (Z.ltb_spec i (Z.of_nat (Datatypes.S n))); try reflexivity; lia.
Qed.
Lemma cadd_0_r c : cadd c czero = c. Proof. destruct c. unfold cadd, czero. cbn. rewrite !Z.add_0_r. reflexivity. Qed.
Lemma cadd_assoc a b c : cadd a (cadd b c) = cadd (cadd a b) c. Proof. unfold cadd. cbn. f_equal; lia. Qed.

Lemma coords_event L cf cf' p x ys id c : eventFx L cf cf' p x ys -> NoDup (cf_aid cf) -> zlen (cf_aid cf) = nsites L ->
  zget (cf_aidcoords cf) id = Some c -> zget (cf_aidcoords cf') id = Some (cadd c (csum (reported cf' id))).
Proof.
  intros EF ND LA Ec. set (ch := fun e => existsb (fun n => negb (n =? 0)) (pe_upd e)).
  set (R := firstn (Z.to_nat (cf_nmoved cf')) (combine (cf_moved cf') (cf_recent cf'))).
  set (E := filter (fun ey => ch (fst ey)) (combine (pr_ml p) ys)).
  set (lab := fun ey : pentry * Z => match zget (cf_aid cf) (snd ey) with Some i => i | None => 0 end).
  set (Q := map (fun ey => (lab ey, pe_move (fst ey))) E).
  pose proof (ef_len _ _ _ _ _ _ EF) as HLen.
  assert (CH : forall e, ch e = true <-> changes e) by (intros e; unfold ch; rewrite <- changes_bool; reflexivity).
  assert (EIn : forall e y, In (e, y) E <-> exists j, zget (pr_ml p) j = Some e /\ zget ys j = Some y /\ changes e).
  { intros e y. unfold E. rewrite filter_In. cbn [fst]. rewrite CH. split.
    - intros [H C]. apply In_zget in H. destruct H as [j Ej]. apply combine_get in Ej. destruct Ej. eauto.
    - intros (j & E1 & E2 & C). split; [|exact C]. apply (zget_In _ j). apply combine_get. auto. }
  assert (LAB : forall e y, In (e, y) E -> zget (cf_aid cf) y = Some (lab (e, y))).
  { intros e y H. apply EIn in H. destruct H as (j & _ & Ey & _). unfold lab. cbn [snd]. destruct (zget_lt (cf_aid cf) y) as [i Ei]; [rewrite LA; apply EF; eapply zget_In; eauto|]. rewrite Ei. reflexivity. }
  assert (RIn : forall i v, In (i, v) R <-> exists j e y, zget (pr_ml p) j = Some e /\ zget ys j = Some y /\ changes e /\ zget (cf_aid cf) y = Some i /\ pe_move e = v).
  { intros i v. rewrite <- (ef_moved _ _ _ _ _ _ EF i v). unfold R. split.
    - intros H. apply In_zget in H. destruct H as [k Ek]. apply zget_range in Ek as Hk. rewrite firstn_get in Ek. destruct (Z.ltb_spec k (Z.of_nat (Z.to_nat (cf_nmoved cf')))); [|discriminate].
      apply combine_get in Ek. exists k. split; [lia|exact Ek].
    - intros (k & Hk & E1 & E2). apply (zget_In _ k). rewrite firstn_get. destruct (Z.ltb_spec k (Z.of_nat (Z.to_nat (cf_nmoved cf')))); [|lia]. apply combine_get. auto. }
  assert (NE : NoDup (map snd E)).
  { pose proof (ef_nodup _ _ _ _ _ _ EF) as NY. unfold E. clear -NY. revert ys NY. generalize (pr_ml p). induction l as [|e l IH]; intros [|y ys] NY; try constructor. cbn [combine filter fst]. inversion NY; subst.
    assert (K : NoDup (map snd (filter (fun ey : pentry * Z => ch (fst ey)) (combine l ys)))) by (apply IH; assumption).
    destruct (ch e); [|exact K]. cbn [map snd]. constructor; [|exact K]. intros Hin. apply in_map_iff in Hin. destruct Hin as ([e' y'] & E1 & Hin). cbn in E1. subst y'.
    apply filter_In in Hin. destruct Hin as [Hin _]. apply in_combine_r in Hin. contradiction. }
  assert (UNI : forall e y e' y', In (e, y) E -> In (e', y') E -> lab (e, y) = lab (e', y') -> (e, y) = (e', y')).
  { intros e y e' y' H1 H2 Hl. pose proof (LAB _ _ H1) as L1. pose proof (LAB _ _ H2) as L2. rewrite Hl in L1. assert (y = y') by (eapply NoDup_zget_inj; [exact ND|exact L1|exact L2]). subst y'.
    apply EIn in H1. apply EIn in H2. destruct H1 as (j & A1 & A2 & _), H2 as (j' & B1 & B2 & _). assert (j = j') by (eapply NoDup_zget_inj; [apply EF|exact A2|exact B2]). subst j'. congruence. }
  assert (NQ : NoDup Q).
  { unfold Q. apply (NoDup_map_inv' fst). rewrite map_map. cbn [fst]. clear -NE UNI. induction E as [|[e y] l IH]; [constructor|]. cbn [map]. cbn [map snd] in NE. inversion NE; subst. constructor.
    - intros Hin. apply in_map_iff in Hin. destruct Hin as ([e' y'] & E1 & Hin). assert (K : (e', y') = (e, y)) by (apply UNI; [right; exact Hin|left; reflexivity|exact E1]).
      inversion K; subst. apply H1. change y with (snd (e, y)). apply in_map. exact Hin.
    - apply IH; [assumption|]. intros; apply UNI; try right; assumption. }
  assert (QR : incl Q R).
  { intros [i v] Hin. unfold Q in Hin. apply in_map_iff in Hin. destruct Hin as ([e y] & Eq & Hin). inversion Eq; subst. apply RIn. pose proof (LAB _ _ Hin). apply EIn in Hin. destruct Hin as (j & A1 & A2 & A3). exists j, e, y. auto. }
  assert (HN0 : 0 <= cf_nmoved cf') by (rewrite (ef_nmoved _ _ _ _ _ _ EF); apply zlen_nonneg).
  assert (LQ : (length R <= length Q)%nat).
  { unfold R. rewrite firstn_length. assert (HQ : Z.of_nat (length Q) = cf_nmoved cf').
    { rewrite (ef_nmoved _ _ _ _ _ _ EF). unfold Q, zlen. rewrite map_length. f_equal. unfold E. clear -HLen. revert ys HLen. generalize (pr_ml p). fold ch. induction l as [|e l IH]; intros [|y ys] HL; try reflexivity.
      + rewrite zlen_cons in HL. change (zlen (@nil Z)) with 0 in HL. pose proof (zlen_nonneg l). lia.
      + rewrite !zlen_cons in HL. cbn [combine filter fst]. destruct (ch e); cbn [length]; rewrite (IH ys) by lia; reflexivity. }
    lia. }
  assert (NR : NoDup R) by (eapply NoDup_incl_NoDup; [exact NQ|exact LQ|exact QR]).
  unfold reported. fold R.
  destruct (existsb (fun ey => lab ey =? id) E) eqn:EX.
  - apply existsb_exists in EX. destruct EX as ([e y] & Hin & El). apply Z.eqb_eq in El. pose proof (LAB _ _ Hin) as Hl. rewrite El in Hl.
    assert (Hin2 := Hin). apply EIn in Hin2. destruct Hin2 as (j & A1 & A2 & A3).
    rewrite (ef_coords _ _ _ _ _ _ EF ND j e y id c A1 A2 A3 Hl Ec). f_equal. f_equal.
    rewrite (filter_one (fun m : Z * coord => fst m =? id) R (id, pe_move e)); [cbn [map snd csum fold_right]; rewrite cadd_0_r; reflexivity| | | |exact NR].
    + apply RIn. exists j, e, y. auto.
    + cbn [fst]. apply Z.eqb_refl.
    + intros [i v] Hi Ei. cbn [fst] in Ei. apply Z.eqb_eq in Ei. subst i. apply RIn in Hi. destruct Hi as (j' & e' & y' & B1 & B2 & B3 & B4 & B5).
      assert (K : (e', y') = (e, y)). { apply UNI; [apply EIn; eauto|exact Hin|]. rewrite El. unfold lab. cbn [snd]. rewrite B4. reflexivity. } inversion K; subst. reflexivity.
  - assert (HN : forall j e y, zget (pr_ml p) j = Some e -> zget ys j = Some y -> changes e -> zget (cf_aid cf) y <> Some id).
    { intros j e y A1 A2 A3 A4. assert (existsb (fun ey => lab ey =? id) E = true); [|congruence]. apply existsb_exists. exists (e, y). split; [apply EIn; eauto|]. unfold lab. cbn [snd]. rewrite A4. apply Z.eqb_refl. }
    rewrite (ef_coords_other _ _ _ _ _ _ EF id HN). rewrite (filter_none (fun m : Z * coord => fst m =? id) R); [cbn [map csum fold_right]; rewrite cadd_0_r; exact Ec|].
    intros [i v] Hi. cbn [fst]. apply Z.eqb_neq. intros ->. apply RIn in Hi. destruct Hi as (j & e & y & B1 & B2 & B3 & B4 & _). eapply HN; eauto.
Qed.
