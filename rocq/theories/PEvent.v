(** The effect of one event, for every lattice in which the surroundings of a site do not overlap. *)
From Verif Require Import PBase SModel SGeo SEvent PLattice PProcess PMpi PRateTable PMatcher PPerform PStep PGeo PPossible PRun PEffect PRematch.
Open Scope Z_scope.
Open Scope list_scope.

Lemma changes_active e : zget (pe_upd e) 0 = Some 0 -> (changes e <-> isActive (pe_upd e) = true).
Proof.
  intros E0. rewrite (isActive_iff _ E0). unfold changes. split.
  - intros (t & n & E & Hn). destruct (Z_lt_le_dec 0 (zsum (map Z.abs (pe_upd e)))) as [H|H]; [exact H|].
    exfalso. apply Hn. eapply zsum_abs_zero_iff; eauto.
  - intros H. clear E0. induction (pe_upd e) as [|a u IH]; [cbn in H; lia|]. cbn [map] in H. rewrite zsum_cons in H.
    destruct (Z.eq_dec a 0) as [->|Ha].
    + destruct IH as (t & n & E & Hn); [cbn in H; lia|]. exists (t + 1), n. split; [|exact Hn]. rewrite zget_cons.
      apply zget_range in E as Hr. destruct (Z.eqb_spec (t + 1) 0); [lia|]. replace (t + 1 - 1) with t by lia. exact E.
    + exists 0, a. rewrite zget_cons. auto.
Qed.
Lemma changes_bool e : changes e <-> existsb (fun n => negb (n =? 0)) (pe_upd e) = true.
Proof.
  unfold changes. rewrite existsb_exists. split.
  - intros (t & n & E & Hn). exists n. split; [eapply zget_In; eauto|]. destruct (Z.eqb_spec n 0); [contradiction|reflexivity].
  - intros (n & Hin & Hn). apply In_zget in Hin. destruct Hin as [t Et]. exists t, n. split; [exact Et|]. destruct (Z.eqb_spec n 0); [discriminate|assumption].
Qed.
Lemma inert_inactive e : inert e -> isActive (pe_upd e) = false.
Proof.
  intros (_ & H & _). unfold isActive, activeEntry. destruct (Z.ltb_spec 0 (zsum (map Z.abs (pe_upd e)))) as [Hz|]; [|reflexivity].
  exfalso. assert (zsum (map Z.abs (pe_upd e)) = 0); [|lia]. clear Hz. induction (pe_upd e) as [|a u IH]; [reflexivity|].
  cbn [map]. rewrite zsum_cons. rewrite IH.
  - rewrite (H 0 a); [reflexivity|]. rewrite zget_cons. reflexivity.
  - intros t n E. apply (H (t + 1) n). rewrite zget_cons. apply zget_range in E as Hr. destruct (Z.eqb_spec (t + 1) 0); [lia|]. replace (t + 1 - 1) with t by lia. exact E.
Qed.

(** ** counting the active entries *)
Definition idxs {A} (f : A -> bool) (l : list A) : list Z :=
  filter (fun k => match zget l k with Some a => f a | None => false end) (zrange 0 (zlen l - 1)).
Lemma filter_map_length {A B} (f : B -> bool) (g : A -> B) l : length (filter f (map g l)) = length (filter (fun a => f (g a)) l).
Proof. induction l as [|a l IH]; [reflexivity|]. cbn. destruct (f (g a)); cbn; congruence. Qed.
Lemma idxs_length {A} (f : A -> bool) (l : list A) : length (idxs f l) = length (filter f l).
Proof.
  unfold idxs. assert (E : map (zget l) (zrange 0 (zlen l - 1)) = map Some l).
  { apply zget_ext. intros k. rewrite !zget_map. destruct (Z_lt_le_dec k 0); [rewrite !zget_neg by lia; reflexivity|].
    destruct (Z_lt_le_dec k (zlen l)) as [Hk|Hk].
    - rewrite zget_zrange by lia. rewrite Z.add_0_l. cbn. destruct (zget_lt l k) as [a ->]; [lia|reflexivity].
    - rewrite (proj2 (zget_None (zrange 0 (zlen l - 1)) k)) by (right; rewrite zlen_zrange; lia). rewrite (proj2 (zget_None l k)) by (right; lia). reflexivity. }
  rewrite <- (filter_map_length (fun o => match o with Some a => f a | None => false end) (zget l)). rewrite E.
  rewrite (filter_map_length (fun o => match o with Some a => f a | None => false end)). reflexivity.
Qed.
Lemma idxs_In {A} (f : A -> bool) (l : list A) k : In k (idxs f l) <-> exists a, zget l k = Some a /\ f a = true.
Proof.
  unfold idxs. rewrite filter_In. rewrite In_zrange. split.
  - intros [H1 H2]. destruct (zget l k) as [a|] eqn:E; [|discriminate]. eauto.
  - intros (a & E & Hf). rewrite E. apply zget_range in E. split; [lia|exact Hf].
Qed.
Lemma idxs_nodup {A} (f : A -> bool) (l : list A) : NoDup (idxs f l).
Proof. apply NoDup_filter. apply NoDup_zrange. Qed.
Lemma activeList_length pl : forall sl, (length pl <= length sl)%nat ->
  length (activeList pl sl) = length (filter (fun e => isActive (pe_upd e)) pl).
Proof.
  unfold activeList. induction pl as [|e pl IH]; intros [|c sl] H; cbn [length] in H; try lia; [reflexivity|reflexivity|].
  cbn [combine filter fst]. destruct (isActive (pe_upd e)); cbn [length]; rewrite IH by lia; reflexivity.
Qed.
Lemma padded_active pos l l' : paddedBy pos l l' ->
  length (filter (fun e => isActive (pe_upd e)) l') = length (filter (fun e => isActive (pe_upd e)) l).
Proof.
  intros (H1 & H2 & H3). rewrite <- !idxs_length. rewrite <- (map_length pos (idxs _ l)). apply Permutation_length.
  apply NoDup_Permutation; [apply idxs_nodup| |].
  - apply NoDup_map_inj; [|apply idxs_nodup]. intros a b Ha Hb E. apply idxs_In in Ha, Hb. destruct Ha as (ea & Ea & _), Hb as (eb & Eb & _).
    apply zget_range in Ea, Eb. destruct (Z.lt_trichotomy a b) as [Hl|[He|Hl]]; [|exact He|].
    + specialize (H2 a b). lia.
    + specialize (H2 b a). lia.
  - intros k. rewrite idxs_In, in_map_iff. split.
    + intros (e & Ek & Ha). destruct (H3 k e Ek) as [(j & Hj & Hp)|HI]; [|apply inert_inactive in HI; congruence].
      exists j. split; [exact Hp|]. apply idxs_In. destruct (zget_lt l j Hj) as [e' Ej]. exists e'. split; [exact Ej|].
      pose proof (H1 j e' Ej) as E'. rewrite Hp in E'. congruence.
    + intros (j & <- & Hj). apply idxs_In in Hj. destruct Hj as (e & Ej & Ha). exists e. auto.
Qed.
Lemma omap_NoDup {A B C D} (f : A -> option B) (ga : A -> C) (gb : B -> D) l : forall r, omap f l = Some r -> NoDup (map ga l) ->
  (forall a a' b b', In a l -> In a' l -> f a = Some b -> f a' = Some b' -> gb b = gb b' -> ga a = ga a') -> NoDup (map gb r).
Proof.
  induction l as [|a l IH]; intros r E ND H; cbn [omap] in E; [inversion E; constructor|]. ob E as b Eb. ob E as bs Ebs. inversion E; subst.
  cbn [map] in *. inversion ND as [|? ? Hn ND']; subst. constructor.
  - intros Hin. apply in_map_iff in Hin. destruct Hin as (b' & E1 & Hb'). destruct (omap_In _ _ _ _ Ebs Hb') as (a' & Ha' & Ef).
    apply Hn. rewrite (H a a' b b'); auto; [apply in_map; exact Ha'|left; reflexivity|right; exact Ha'].
  - eapply IH; eauto. intros a1 a2 b1 b2 H1 H2. apply H; right; assumption.
Qed.
Lemma NoDup_map_inv' {A B} (f : A -> B) l : NoDup (map f l) -> NoDup l.
Proof. intros H. eapply NoDup_map_inv; eauto. Qed.
Lemma NoDup_activeList pl : forall sl, NoDup (map ce_index sl) -> NoDup (map (fun x => ce_index (snd x)) (activeList pl sl)).
Proof.
  unfold activeList. induction pl as [|e pl IH]; intros [|c sl] ND; cbn; try constructor. cbn [map] in ND. inversion ND as [|? ? Hn ND']; subst.
  destruct (isActive (pe_upd e)); [|apply IH; exact ND']. cbn [map snd]. constructor; [|apply IH; exact ND'].
  intros Hin. apply Hn. apply in_map_iff in Hin. destruct Hin as (x & Ex & Hx). apply filter_In in Hx. destruct Hx as [Hx _].
  rewrite <- Ex. apply in_map. eapply combine_snd_In; eauto.
Qed.

Lemma idUpdates_aid_other ups : forall cf cf', ofold applyIdUpdate ups cf = Some cf' -> forall y, ~ In y (map snd ups) -> zget (cf_aid cf') y = zget (cf_aid cf) y.
Proof.
  induction ups as [|[id y0] ups IH]; intros cf cf' H y Hy; cbn [ofold] in H; [inversion H; reflexivity|].
  ob H as cf1 E. unfold applyIdUpdate in E. ob E as aid Ea. ob E as els Ee. ob E as e Ee0. ob E as ae Eae. inversion E; subst cf1; clear E.
  cbn [map snd] in Hy. rewrite (IH _ _ H) by (intros Hc; apply Hy; right; exact Hc). cbn [set_ids cf_aid]. rewrite (zset_get _ _ _ _ y Ea).
  destruct (Z.eqb_spec y y0) as [->|]; [exfalso; apply Hy; left; reflexivity|reflexivity].
Qed.
(** entries of a list that select one element *)
Lemma filter_one {A} (f : A -> bool) l x : In x l -> f x = true -> (forall y, In y l -> f y = true -> y = x) -> NoDup l -> filter f l = [x].
Proof.
  induction l as [|a l IH]; intros Hin Hf HU ND; [destruct Hin|]. inversion ND as [|? ? Hn ND']; subst. cbn [filter]. destruct Hin as [->|Hin].
  - rewrite Hf. f_equal. assert (forall y, In y l -> f y = false).
    { intros y Hy. destruct (f y) eqn:E; [|reflexivity]. exfalso. apply Hn. rewrite <- (HU y); [exact Hy|right; exact Hy|exact E]. }
    clear -H. induction l as [|b l IH]; [reflexivity|]. cbn. rewrite (H b) by (left; reflexivity). apply IH. intros y Hy. apply H. right; exact Hy.
  - destruct (f a) eqn:E; [exfalso; apply Hn; rewrite (HU a); [exact Hin|left; reflexivity|exact E]|]. apply IH; auto. intros y Hy. apply HU. right; exact Hy.
Qed.
Lemma filter_none {A} (f : A -> bool) l : (forall y, In y l -> f y = false) -> filter f l = [].
Proof. induction l as [|b l IH]; intros H; [reflexivity|]. cbn. rewrite (H b) by (left; reflexivity). apply IH. intros y Hy. apply H. right; exact Hy. Qed.

Section Event.
Context (L : lattice) (cf : config) (p q : process) (pos : Z -> Z) (x : Z) (cf' : config) (p1 : process)
        (sl : list centry) (cf1 : config) (aff : list Z) (ups : list (Z * Z)).
Context (PX : performFx cf q x cf' p1 sl cf1 aff ups).
Context (PD : paddedBy pos (pr_ml p) (pr_ml q)).
Context (PI : pr_idmoves q = map (fun ab : Z * Z => (pos (fst ab), pos (snd ab))) (pr_idmoves p)).
Context (SN : sane p) (ND : NoDup (map ce_index sl)).
Context (HR : forall c, In c sl -> 0 <= ce_index c < nsites L).
Context (HM : forall j e c, zget (pr_ml p) j = Some e -> zget sl (pos j) = Some c -> wildEntry e \/ suits L cf x e (ce_index c)).
Context (LT : zlen (cf_types cf) = nsites L).

Lemma at_pos j e : zget (pr_ml p) j = Some e -> exists c, zget (pr_ml q) (pos j) = Some e /\ zget sl (pos j) = Some c.
Proof using PX PD.
  intros E. destruct PD as (H1 & _). specialize (H1 j e E). apply zget_range in H1 as Hr. pose proof (px_len _ _ _ _ _ _ _ _ _ PX) as Hl.
  destruct (zget_lt sl (pos j)) as [c Ec]; [unfold zlen in *; lia|]. exists c. auto.
Qed.
Definition acted : list Z := map (fun j => match zget sl (pos j) with Some c => ce_index c | None => 0 end) (zrange 0 (zlen (pr_ml p) - 1)).
Lemma acted_len : zlen acted = zlen (pr_ml p).
Proof using Type. unfold acted. rewrite zlen_map, zlen_zrange. pose proof (zlen_nonneg (pr_ml p)). lia. Qed.
Lemma acted_get j : forall y, zget acted j = Some y <-> exists e c, zget (pr_ml p) j = Some e /\ zget sl (pos j) = Some c /\ y = ce_index c.
Proof using PX PD.
  intros y. unfold acted. rewrite zget_map. split.
  - intros H. destruct (zget (zrange 0 (zlen (pr_ml p) - 1)) j) as [j'|] eqn:E; [|discriminate]. cbn in H.
    apply zget_range in E as Hr. rewrite zlen_zrange in Hr. pose proof (zlen_nonneg (pr_ml p)). rewrite zget_zrange in E by lia. assert (j' = j) by (inversion E; lia); subst j'; clear E.
    destruct (zget_lt (pr_ml p) j) as [e Ee]; [lia|]. destruct (at_pos j e Ee) as (c & _ & Ec). rewrite Ec in H. inversion H. exists e, c. auto.
  - intros (e & c & Ee & Ec & ->). apply zget_range in Ee. rewrite zget_zrange by lia. rewrite Z.add_0_l. cbn [option_map]. rewrite Ec. reflexivity.
Qed.
Lemma pos_inj j k ej ek : zget (pr_ml p) j = Some ej -> zget (pr_ml p) k = Some ek -> pos j = pos k -> j = k.
Proof using PD.
  intros Ej Ek E. apply zget_range in Ej, Ek. destruct PD as (_ & H2 & _). destruct (Z.lt_trichotomy j k) as [Hl|[He|Hl]]; [|exact He|].
  - specialize (H2 j k). lia.
  - specialize (H2 k j). lia.
Qed.
Lemma index_inj i j a b : zget sl i = Some a -> zget sl j = Some b -> ce_index a = ce_index b -> i = j.
Proof using ND.
  intros A B E. eapply (NoDup_zget_inj (map ce_index sl)); [exact ND|rewrite zget_map, A; reflexivity|rewrite zget_map, B; simpl; congruence].
Qed.
Lemma acted_nodup : NoDup acted.
Proof using PX PD ND.
  apply NoDup_nth_error. intros i j Hi E.
  assert (Hi' : (i < length acted)%nat) by exact Hi. destruct (nth_error acted i) as [y|] eqn:Ey; [|apply nth_error_None in Ey; lia].
  assert (Z1 : zget acted (Z.of_nat i) = Some y) by (unfold zget; destruct (Z.ltb_spec (Z.of_nat i) 0); [lia|]; rewrite Nat2Z.id; exact Ey).
  assert (Z2 : zget acted (Z.of_nat j) = Some y) by (unfold zget; destruct (Z.ltb_spec (Z.of_nat j) 0); [lia|]; rewrite Nat2Z.id; congruence).
  apply acted_get in Z1, Z2. destruct Z1 as (e1 & c1 & A1 & B1 & C1), Z2 as (e2 & c2 & A2 & B2 & C2).
  assert (pos (Z.of_nat i) = pos (Z.of_nat j)) by (eapply index_inj; eauto; congruence).
  assert (Z.of_nat i = Z.of_nat j) by (eapply pos_inj; eauto). lia.
Qed.
Lemma acted_In y : In y acted <-> exists j e c, zget (pr_ml p) j = Some e /\ zget sl (pos j) = Some c /\ y = ce_index c.
Proof using PX PD.
  split.
  - intros H. apply In_zget in H. destruct H as [j Ej]. apply acted_get in Ej. destruct Ej as (e & c & H). eauto.
  - intros (j & e & c & H). eapply zget_In. apply acted_get. eauto.
Qed.
(** active entries of the padded list are changing entries of the process *)
Lemma act_iff z : In z (activeList (pr_ml q) sl) <->
  exists j, zget (pr_ml p) j = Some (fst z) /\ zget sl (pos j) = Some (snd z) /\ changes (fst z).
Proof using PX PD SN.
  rewrite activeList_In. split.
  - intros (k & E1 & E2 & E3). destruct PD as (H1 & _ & H3). destruct (H3 k _ E1) as [(j & Hj & Hp)|HI]; [|apply inert_inactive in HI; congruence].
    destruct (zget_lt _ _ Hj) as [e Ej]. pose proof (H1 j e Ej) as E'. rewrite Hp in E'. assert (e = fst z) by congruence. subst e.
    exists j. split; [exact Ej|]. rewrite Hp. split; [exact E2|]. apply (changes_active _ (sn_upd0 _ SN _ (zget_In _ _ _ Ej))). exact E3.
  - intros (j & E1 & E2 & E3). exists (pos j). split; [apply PD; exact E1|]. split; [exact E2|].
    apply (changes_active _ (sn_upd0 _ SN _ (zget_In _ _ _ E1))). exact E3.
Qed.

Lemma cf1_aid : cf_aid cf1 = cf_aid cf.
Proof using PX. rewrite (lx_aid _ _ _ _ _ _ _ (px_loop _ _ _ _ _ _ _ _ _ PX)). reflexivity. Qed.

(** the identity updates *)
Lemma ups_In id y : In (id, y) ups <-> exists a b ya, In (a, b) (pr_idmoves p) /\ zget acted a = Some ya /\ zget acted b = Some y /\ zget (cf_aid cf) ya = Some id.
Proof using PX PD PI SN.
  pose proof (px_ups _ _ _ _ _ _ _ _ _ PX) as E. unfold idUpdates in E. rewrite PI in E. rewrite cf1_aid in E. split.
  - intros H. destruct (omap_In _ _ _ _ E H) as (ab & H1 & H2). apply in_map_iff in H1. destruct H1 as ([a b] & <- & Hab). cbn [fst snd] in H2.
    ob H2 as f Ef. ob H2 as t Et. ob H2 as i Ei. inversion H2; subst. destruct (sn_idrange _ SN a b Hab) as [Ra Rb].
    destruct (zget_lt _ _ Ra) as [ea Ea]. destruct (zget_lt _ _ Rb) as [eb Eb].
    exists a, b, (ce_index f). split; [exact Hab|]. split; [apply acted_get; eauto|]. split; [apply acted_get; eauto|exact Ei].
  - intros (a & b & ya & Hab & Ea & Eb & Ei). apply acted_get in Ea, Eb. destruct Ea as (ea & ca & A1 & A2 & ->), Eb as (eb & cb & B1 & B2 & ->).
    assert (Hin : In (pos a, pos b) (map (fun ab : Z * Z => (pos (fst ab), pos (snd ab))) (pr_idmoves p))).
    { apply in_map_iff. exists (a, b). auto. }
    destruct (omap_In_l _ _ _ _ E Hin) as (u & H3 & H4). cbn [fst snd] in H4. rewrite A2, B2 in H4. cbn [obind] in H4. rewrite Ei in H4. cbn [obind] in H4.
    inversion H4; subst u. exact H3.
Qed.
(** every identity move has its update *)
Lemma ups_has a b : In (a, b) (pr_idmoves p) -> exists ya yb id, zget acted a = Some ya /\ zget acted b = Some yb /\ zget (cf_aid cf) ya = Some id /\ In (id, yb) ups.
Proof using PX PD PI SN.
  intros Hab. pose proof (px_ups _ _ _ _ _ _ _ _ _ PX) as E. unfold idUpdates in E. rewrite PI in E. rewrite cf1_aid in E.
  assert (Hin : In (pos a, pos b) (map (fun ab : Z * Z => (pos (fst ab), pos (snd ab))) (pr_idmoves p))) by (apply in_map_iff; exists (a, b); auto).
  destruct (omap_In_l _ _ _ _ E Hin) as (u & H3 & H4). cbn [fst snd] in H4. ob H4 as f Ef. ob H4 as t Et. ob H4 as i Ei. inversion H4; subst u.
  destruct (sn_idrange _ SN a b Hab) as [Ra Rb]. destruct (zget_lt _ _ Ra) as [ea Ea]. destruct (zget_lt _ _ Rb) as [eb Eb].
  exists (ce_index f), (ce_index t), i. split; [apply acted_get; eauto|]. split; [apply acted_get; eauto|]. auto.
Qed.
Lemma ups_nodup_to : NoDup (map snd (pr_idmoves p)) -> NoDup (map snd ups).
Proof using PX PD PI SN ND.
  intros NTO.  pose proof (px_ups _ _ _ _ _ _ _ _ _ PX) as E. unfold idUpdates in E. rewrite PI in E. 
  eapply (omap_NoDup _ (fun ab : Z * Z => snd ab)) in E; [exact E| |].
  - rewrite map_map. cbn [snd]. rewrite <- (map_map snd pos). apply NoDup_map_inj; [|exact NTO].
    intros a b Ha Hb. apply in_map_iff in Ha, Hb. destruct Ha as ([a1 a2] & <- & Ha), Hb as ([b1 b2] & <- & Hb). cbn [snd].
    apply (sn_idrange _ SN) in Ha, Hb. destruct Ha as [_ Ha], Hb as [_ Hb]. destruct (zget_lt _ _ Ha) as [ea Ea]. destruct (zget_lt _ _ Hb) as [eb Eb]. eapply pos_inj; eauto.
  - intros a a' b b' _ _ E1 E2 Eq. ob E1 as f Ef. ob E1 as t Et. ob E1 as i Ei. inversion E1; subst b. ob E2 as f' Ef'. ob E2 as t' Et'. ob E2 as i' Ei'. inversion E2; subst b'.
    cbn [snd] in Eq. eapply index_inj; eauto.
Qed.
Lemma ups_nodup_from : NoDup (cf_aid cf) -> NoDup (map fst ups).
Proof using PX PD PI SN ND.
  intros NA. pose proof (px_ups _ _ _ _ _ _ _ _ _ PX) as E. unfold idUpdates in E. rewrite PI in E. rewrite cf1_aid in E.
  eapply (omap_NoDup _ (fun ab : Z * Z => fst ab)) in E; [exact E| |].
  - rewrite map_map. cbn [fst]. rewrite <- (map_map fst pos). apply NoDup_map_inj; [|apply (sn_idfrom _ SN)].
    intros a b Ha Hb. apply in_map_iff in Ha, Hb. destruct Ha as ([a1 a2] & <- & Ha), Hb as ([b1 b2] & <- & Hb). cbn [fst].
    apply (sn_idrange _ SN) in Ha, Hb. destruct Ha as [Ha _], Hb as [Hb _]. destruct (zget_lt _ _ Ha) as [ea Ea]. destruct (zget_lt _ _ Hb) as [eb Eb]. eapply pos_inj; eauto.
  - intros a a' b b' _ _ E1 E2 Eq. ob E1 as f Ef. ob E1 as t Et. ob E1 as i Ei. inversion E1; subst b. ob E2 as f' Ef'. ob E2 as t' Et'. ob E2 as i' Ei'. inversion E2; subst b'.
    cbn [fst] in Eq. subst i'. eapply index_inj; eauto. eapply NoDup_zget_inj; eauto.
Qed.

(** the label found at the site of an active entry *)
Lemma same_label z z' id : NoDup (cf_aid cf) -> In z (activeList (pr_ml q) sl) -> In z' (activeList (pr_ml q) sl) ->
  zget (cf_aid cf) (ce_index (snd z)) = Some id -> zget (cf_aid cf) (ce_index (snd z')) = Some id -> z = z'.
Proof using PX PD SN ND.
  intros NA H1 H2 E1 E2. apply act_iff in H1, H2. destruct H1 as (j & A1 & A2 & _), H2 as (j' & B1 & B2 & _).
  assert (E : ce_index (snd z) = ce_index (snd z')) by (eapply NoDup_zget_inj; eauto).
  assert (pos j = pos j') by (eapply index_inj; eauto). assert (j = j') by (eapply pos_inj; eauto). subst j'.
  destruct z, z'; cbn [fst snd] in *; congruence.
Qed.

Lemma no_act_here j e c : zget (pr_ml p) j = Some e -> zget sl (pos j) = Some c -> ~ changes e -> forall z, In z (activeList (pr_ml q) sl) -> ce_index (snd z) <> ce_index c.
Proof using PX PD SN ND.
  intros Ee Ec HC z Hz E. apply act_iff in Hz. destruct Hz as (j' & A1 & A2 & A3). assert (pos j' = pos j) by (eapply index_inj; eauto).
  assert (j' = j) by (eapply pos_inj; eauto). subst j'. apply HC. congruence.
Qed.

Theorem event_fx : eventFx L cf cf' p x acted.
Proof using PX PD PI SN ND HR HM LT.
  pose proof (px_loop _ _ _ _ _ _ _ _ _ PX) as LX. destruct (idUpdates_frame _ _ _ (px_idu _ _ _ _ _ _ _ _ _ PX)) as (F & T & EL & AC & MV & RC & NM & _).
  pose proof (idUpdates_aid_other _ _ _ (px_idu _ _ _ _ _ _ _ _ _ PX)) as IA2.
  destruct (idUpdates_aidel _ _ _ (px_idu _ _ _ _ _ _ _ _ _ PX)) as (IE0 & IE1 & IE2).
  destruct (loop_aidel _ _ _ _ _ _ _ (px_fold _ _ _ _ _ _ _ _ _ PX)) as (_ & LA & LE & LH).
  pose proof (px_frame _ _ _ _ _ _ _ _ _ PX) as PF.
  assert (HID : forall z, idOf (set_event cf (pr_number q) x) z = zget (cf_aid cf) (ce_index (snd z))) by reflexivity.
  assert (NDA : NoDup (activeList (pr_ml q) sl)) by (eapply NoDup_map_inv; apply (NoDup_activeList (pr_ml q) sl ND)).
  constructor.
  - apply acted_len.
  - apply acted_nodup.
  - intros y Hy. apply acted_In in Hy. destruct Hy as (j & e & c & _ & Ec & ->). apply HR. eapply zget_In; eauto.
  - intros j e y Ee Ey. apply acted_get in Ey. destruct Ey as (e' & c & Ee' & Ec & ->). assert (e' = e) by congruence. subst e'. eapply HM; eauto.
  - apply PF.
  - intros j e y Ee Ey. apply acted_get in Ey. destruct Ey as (e' & c & Ee' & Ec & ->). assert (e' = e) by congruence. subst e'.
    pose proof (lx_types _ _ _ _ _ _ _ LX (ce_index c)) as HT. rewrite T. cbn [set_event cf_types] in HT. 
    destruct (at_pos j e Ee) as (c' & Q1 & Q2). assert (c' = c) by congruence. subst c'.
    destruct (atSite_is (ce_index c) (pr_ml q) sl ND) as [[EA HN]|(k & e2 & c2 & EA & E1 & E2 & E3 & E4)]; rewrite EA in HT; cbn [map ofold fst] in HT.
    + specialize (HN _ _ _ Q1 Q2 eq_refl). assert (NC : ~ changes e) by (intros HC; apply (changes_active _ (sn_upd0 _ SN _ (zget_In _ _ _ Ee))) in HC; congruence).
      assert (Hr : 0 <= ce_index c < nsites L) by (apply HR; eapply zget_In; eauto).
      destruct (zget (cf_types cf) (ce_index c)) as [t|] eqn:Et; [|].
      * cbn [obind] in HT. exists t, t. split; [reflexivity|]. split; [exact HT|]. split; [|reflexivity]. split; [reflexivity|].
        intros k a b Ea Eb. assert (b = 0); [|subst; rewrite Z.add_0_r; exact Ea].
        destruct (Z.eq_dec b 0) as [|Hb]; [assumption|]. exfalso. apply NC. exists k, b. auto.
      * exfalso. destruct (zget_lt (cf_types cf) (ce_index c)) as [t Et']; [rewrite LT; exact Hr|congruence].
    + assert (k = pos j) by (eapply index_inj; eauto). subst k. assert (e2 = e) by congruence. assert (c2 = c) by congruence. subst e2 c2.
      destruct (zget (cf_types cf) (ce_index c)) as [t|] eqn:Et; [|exfalso; destruct (zget_lt (cf_types cf) (ce_index c)) as [t Et']; [rewrite LT; apply HR; eapply zget_In; eauto|congruence]]. cbn [obind] in HT.
      assert (EX : exists t', zget (cf_types cf1) (ce_index c) = Some t') by (apply zget_lt; rewrite <- T, (pf_lt _ _ PF), LT; apply HR; eapply zget_In; eauto).
      destruct EX as [t' Et']. rewrite Et' in HT. symmetry in HT. ob HT as t2 HU. inversion HT; subst t2. exists t, t'. split; [reflexivity|]. split; [exact Et'|]. split.
      * split; [eapply applyUpdate_len; eauto|]. intros k a b Ea Eb. eapply applyUpdate_get; eauto.
      * intros HC. exfalso. apply HC. apply (changes_active _ (sn_upd0 _ SN _ (zget_In _ _ _ Ee))). exact E4.
  - intros y Hy. eapply perform_types_frame; eauto. intros z Hz E. apply Hy. apply act_iff in Hz. destruct Hz as (j & A1 & A2 & _). apply acted_In. eauto 10.
  - intros j e y Ee Ey HC. apply acted_get in Ey. destruct Ey as (e' & c & Ee' & Ec & ->). assert (e' = e) by congruence. subst e'.
    pose proof (lx_elements _ _ _ _ _ _ _ LX (ce_index c)) as HE.
    destruct (Z.eqb_spec (zlen (atSite (ce_index c) (activeList (pr_ml q) sl))) 0) as [E0|_].
    + exfalso. apply zlen_0 in E0. assert (Hin : In (e, c) (atSite (ce_index c) (activeList (pr_ml q) sl))).
      { unfold atSite. apply filter_In. split; [apply act_iff; exists j; auto|]. apply Z.eqb_refl. }
      rewrite E0 in Hin. exact Hin.
    + destruct HE as (t & els & H1 & H2 & H3). exists t, els. rewrite T, EL. auto.
  - intros y Hy. rewrite EL. apply LE. intros z Hz E. apply act_iff in Hz. destruct Hz as (j & A1 & A2 & A3).
    apply (Hy j (fst z) A1); [|exact A3]. apply acted_get. eauto.
  - intros NTO a b ya yb Hab Ea Eb. destruct (ups_has a b Hab) as (ya' & yb' & id & A1 & A2 & A3 & A4).
    destruct (idUpdates_aid _ _ _ (px_idu _ _ _ _ _ _ _ _ _ PX) (ups_nodup_to NTO)) as [IA1 _].
    assert (ya' = ya) by congruence. assert (yb' = yb) by congruence. subst. rewrite (IA1 _ _ A4). congruence.
  - intros y Hy. rewrite IA2; [rewrite cf1_aid; reflexivity|]. intros Hin. apply in_map_iff in Hin. destruct Hin as ([id y'] & E & Hin). cbn [snd] in E. subst y'.
    apply ups_In in Hin. destruct Hin as (a & b & ya & Hab & _ & Eb & _). exact (Hy a b Hab Eb).
  - intros NA j e y id c0 Ee Ey HC Eid Ec0. apply acted_get in Ey. destruct Ey as (e' & c & Ee' & Ec & ->). assert (e' = e) by congruence. subst e'.
    rewrite AC, (lx_aidcoords _ _ _ _ _ _ _ LX). cbn [set_event cf_aidcoords cf_aid]. rewrite Ec0. cbn [option_map].
    assert (Hz : In (e, c) (activeList (pr_ml q) sl)) by (apply act_iff; exists j; auto).
    rewrite (filter_one _ _ (e, c)); [reflexivity|exact Hz|cbn [snd]; rewrite Eid; apply Z.eqb_refl| |exact NDA].
    intros z Hz' E. destruct (zget (cf_aid cf) (ce_index (snd z))) as [i|] eqn:Ei; [|discriminate]. apply Z.eqb_eq in E. subst i.
    eapply same_label; eauto.
  - intros id Hid. rewrite AC, (lx_aidcoords _ _ _ _ _ _ _ LX). cbn [set_event cf_aidcoords cf_aid]. rewrite filter_none; [destruct (zget (cf_aidcoords cf) id); reflexivity|].
    intros z Hz. destruct (zget (cf_aid cf) (ce_index (snd z))) as [i|] eqn:Ei; [|reflexivity]. destruct (Z.eqb_spec i id) as [->|]; [|reflexivity]. exfalso.
    apply act_iff in Hz. destruct Hz as (j & A1 & A2 & A3). apply (Hid j (fst z) (ce_index (snd z)) A1); [apply acted_get; eauto|exact A3|exact Ei].
  - intros NA a b ya yb id Hab Ea Eb Eid. destruct (ups_has a b Hab) as (ya' & yb' & id' & A1 & A2 & A3 & A4).
    assert (ya' = ya) by congruence. assert (yb' = yb) by congruence. subst. assert (id' = id) by congruence. subst id'.
    rewrite EL. apply IE2; [exact A4|apply ups_nodup_from; exact NA].
  - intros NA j e y id Ee Ey HC Hm Eid Hno. apply acted_get in Ey. destruct Ey as (e' & c & Ee' & Ec & ->). assert (e' = e) by congruence. subst e'.
    assert (Hz : In (e, c) (activeList (pr_ml q) sl)) by (apply act_iff; exists j; auto).
    destruct (LH (e, c) id Hz Hm) as (els & s & H1 & H2 & H3); [exact Eid| |].
    + apply NoDup_map_inj; [|exact NDA]. intros z z' Hz1 Hz2 E. rewrite !HID in E.
      destruct (lx_hit _ _ _ _ _ _ _ LX z Hz1) as (i1 & X1 & _). cbn [set_event cf_aid] in X1. eapply same_label; eauto. congruence.
    + exists els, s. rewrite EL. split; [exact H1|]. split; [exact H2|]. rewrite IE1; [exact H3|].
      intros Hin. apply in_map_iff in Hin. destruct Hin as ([id' y'] & E & Hin). cbn [fst] in E. subst id'. apply ups_In in Hin.
      destruct Hin as (a & b & ya & Hab & Ea & _ & Eia). assert (ya = ce_index c) by (eapply NoDup_zget_inj; eauto). subst ya.
      apply acted_get in Ea. destruct Ea as (ea & ca & B1 & B2 & B3). apply (Hno a b Hab). eapply pos_inj; eauto. eapply index_inj; eauto.
  - intros id H1 H2. rewrite IE1.
    + rewrite LA; [reflexivity|]. intros z Hz Hm E. rewrite HID in E. apply act_iff in Hz. destruct Hz as (j & A1 & A2 & A3).
      apply (H1 j (fst z) (ce_index (snd z)) A1); auto. apply acted_get; eauto.
    + intros Hin. apply in_map_iff in Hin. destruct Hin as ([id' y'] & E & Hin). cbn [fst] in E. subst id'. apply ups_In in Hin.
      destruct Hin as (a & b & ya & Hab & Ea & _ & Eia). exact (H2 a b ya Hab Ea Eia).
  - intros id v. rewrite MV, RC, NM. pose proof (lx_nmoved _ _ _ _ _ _ _ LX) as LN. cbn [set_event cf_nmoved] in LN. rewrite Z.add_0_l in LN.
    pose proof (lx_moved _ _ _ _ _ _ _ LX) as LM. pose proof (lx_recent _ _ _ _ _ _ _ LX) as LR. cbn [set_event cf_nmoved cf_aid] in LM, LR. split.
    + intros (k & Hk & E1 & E2). rewrite LM in E1. rewrite LR in E2.
      destruct (Z.leb_spec 0 k); [|lia]. destruct (Z.ltb_spec k (cf_nmoved cf1)); [|lia]. cbn [andb] in E1, E2. rewrite Z.sub_0_r in E1, E2.
      destruct (zget (activeList (pr_ml q) sl) k) as [z|] eqn:Ez; [|discriminate]. cbn in E1, E2. apply zget_In in Ez. apply act_iff in Ez. destruct Ez as (j & A1 & A2 & A3).
      exists j, (fst z), (ce_index (snd z)). split; [exact A1|]. split; [apply acted_get; eauto|]. split; [exact A3|]. split; [exact E1|]. congruence.
    + intros (j & e & y & Ee & Ey & HC & Eid & Ev). apply acted_get in Ey. destruct Ey as (e' & c & Ee' & Ec & ->). assert (e' = e) by congruence. subst e'.
      assert (Hz : In (e, c) (activeList (pr_ml q) sl)) by (apply act_iff; exists j; auto). apply In_zget in Hz. destruct Hz as [k Ek]. exists k.
      apply zget_range in Ek as Hr. split; [lia|]. rewrite LM, LR. destruct (Z.leb_spec 0 k); [|lia]. destruct (Z.ltb_spec k (cf_nmoved cf1)); [|lia]. cbn [andb]. rewrite Z.sub_0_r, Ek. cbn.
      split; congruence.
  - rewrite NM. rewrite (lx_nmoved _ _ _ _ _ _ _ LX). cbn [set_event cf_nmoved]. rewrite Z.add_0_l. unfold zlen. f_equal.
    rewrite activeList_length by apply PX. rewrite (padded_active _ _ _ PD). f_equal. apply filter_ext_in. intros e He.
    apply eq_true_iff_eq. rewrite <- changes_bool. symmetry. apply changes_active. apply (sn_upd0 _ SN); exact He.
  - destruct PF. auto 10.
Qed.
End Event.

Lemma changes_dec e : {changes e} + {~ changes e}.
Proof. destruct (existsb (fun n => negb (n =? 0)) (pe_upd e)) eqn:E; [left; apply changes_bool; exact E|right; intros H; apply changes_bool in H; congruence]. Qed.

(** the affected sites are exactly those of the changing entries *)
Definition affects (p : process) (ys : list Z) (l : list Z) : Prop :=
  forall y, In y l <-> exists j e, zget (pr_ml p) j = Some e /\ zget ys j = Some y /\ changes e.
Definition slots (p : process) : Prop := zlen (pr_aff p) = zlen (filter (fun e => existsb (fun n => negb (n =? 0)) (pe_upd e)) (pr_ml p)).

Lemma static_aff p q : pstatic p = pstatic q -> zlen (pr_aff p) = zlen (pr_aff q).
Proof. unfold pstatic, zlen. intros H. inversion H. congruence. Qed.
Lemma expand_aff L cf p q : expandProcess L cf p = Some q -> pr_aff q = pr_aff p.
Proof.
  unfold expandProcess. destruct (pr_basis p) as [|b [|]]; intros H; try (inversion H; reflexivity).
  ob H as a Ea. ob H as b' Eb. destruct (insertWildcards _ _ _ _). ob H as c Ec. inversion H; reflexivity.
Qed.
Lemma reachable_aff ranks hash L cf it md cf1 it2 i p p' : reachInfo ranks hash L cf it md cf1 it2 ->
  zget (in_procs it) i = Some p -> zget (in_procs (md_in md)) i = Some p' -> zlen (pr_aff p') = zlen (pr_aff p).
Proof.
  intros RI Ep Ep'. destruct (reachable_proc _ _ _ _ _ _ _ _ _ _ RI Ep') as (p2 & q & Ep2 & Eq & Hs & HQ). assert (p2 = p) by congruence. subst p2.
  rewrite (static_aff _ _ Hs). destruct HQ as [->|[_ HQ]]; [reflexivity|]. rewrite (expand_aff _ _ _ _ HQ). reflexivity.
Qed.

Theorem perform_event ranks hash L cf it md i p p' q x cf' p1 :
  wfInput ranks L cf it -> (forall t, In t (cf_types cf) -> t <> []) -> fits L (maxRange it) -> reachable ranks hash L cf it md ->
  zget (in_procs it) i = Some p -> sane p -> zget (in_procs (md_in md)) i = Some p' -> pr_ml q = pr_ml p' -> pr_idmoves q = pr_idmoves p' -> zlen (pr_aff q) = zlen (pr_aff p') ->
  listed md i x -> performBucketProcess (md_cf md) q x = Some (cf', p1) ->
  exists ys, eventFx L (md_cf md) cf' p x ys /\ (slots p -> affects p ys (pr_aff p1)).
Proof.
  intros WI HT HF HRe Ep SN Ep' Eml Eidm Eaff HL HP. destruct (reachable_info _ _ _ _ _ _ WI HRe) as (cf0 & it2 & RI).
  pose proof (wi_lat _ _ _ _ WI) as WF.
  destruct (reachable_padded _ _ _ _ _ _ _ _ _ WI HRe HT Ep Ep') as (pos & PD & PI). rewrite <- Eml in PD. rewrite <- Eidm in PI.
  destruct (perform_spec _ _ _ _ _ HP) as (sl & cfl & aff & ups & PX).
  pose proof (ri_inv _ _ _ _ _ _ _ _ RI) as IV. pose proof (ri_lat _ _ _ _ _ _ _ _ RI) as EL.
  assert (HPI : 0 <= x < nsites L /\ pairIn L (md_in md) x i) by (destruct HL as [r Hr]; apply (iv_evt _ IV) in Hr; rewrite EL in Hr; exact Hr).
  destruct HPI as [Hx HP0]. assert (HU : usedBy L (md_in md) x) by (exists i; exact HP0).
  destruct (scratch_at _ _ _ _ _ _ _ _ _ WI RI Hx HU) as (cl & g & M1 & M2 & M3 & M4 & M5).
  assert (cl = sl) by (pose proof (px_sl _ _ _ _ _ _ _ _ _ PX); congruence). subst cl.
  pose proof (maxRange_pos it) as HRp.
  assert (ND : NoDup (map ce_index sl)).
  { rewrite (geom_eq_index _ _ M3). eapply Permutation_NoDup; [apply Permutation_sym; eapply scratchGeo_index; eauto|].
    destruct HF as (F1 & F2 & F3). apply neighbour_NoDup; auto; lia. }
  assert (LT : zlen (cf_types (md_cf md)) = nsites L).
  { rewrite <- (wi_types _ _ _ _ WI). pose proof (f_equal zlen (ri_width _ _ _ _ _ _ _ _ RI)) as E. rewrite !zlen_map in E. exact E. }
  assert (HM : forall j e c, zget (pr_ml p) j = Some e -> zget sl (pos j) = Some c -> wildEntry e \/ suits L (md_cf md) x e (ce_index c)).
  { intros j e c Ej Ec. apply (listed_scratch _ _ _ _ _ _ i x WI HRe Hx) in HL. destruct HL as (p3 & cl & Ep3 & Hb & Ecl & HMa).
    assert (p3 = p') by congruence. subst p3. rewrite (ri_range _ _ _ _ _ _ _ _ RI) in Ecl. assert (cl = sl) by congruence. subst cl. rewrite <- Eml in HMa.
    apply (proj1 (padded_match _ _ _ _ _ PD)) in HMa. destruct HMa as [_ HMa]. specialize (HMa j e c Ej Ec).
    apply peMatch_true in HMa. destruct HMa as [HMa|(_ & _ & HC & HPt)]; [left; exact HMa|right].
    destruct (scratchML_In L (maxRange it) (md_cf md) x sl c) as (cx0 & cy0 & A & B & C & _ & D & F); auto; [lia|eapply zget_In; eauto|].
    exists cx0, cy0, (ce_c c), (ce_types c). split; [exact A|]. split; [exact B|]. split; [rewrite C; apply wrapCoord_same|].
    split; [eapply samePoint_close; eauto|]. split; [exact D|]. exact HC. }
  exists (acted p pos sl). split.
  - eapply event_fx; eauto. intros c Hc. apply M4; exact Hc.
  - intros HS y. unfold slots in HS. rewrite (px_p _ _ _ _ _ _ _ _ _ PX). cbn [set_aff pr_aff].
    pose proof (px_loop _ _ _ _ _ _ _ _ _ PX) as LX.
    assert (HLen : zlen aff = zlen (activeList (pr_ml q) sl)).
    { rewrite (lx_laff _ _ _ _ _ _ _ LX), Eaff, (reachable_aff _ _ _ _ _ _ _ _ _ _ _ RI Ep Ep'), HS. unfold zlen. f_equal.
      rewrite activeList_length by apply PX. rewrite (padded_active _ _ _ PD). f_equal. apply filter_ext_in. intros e He.
      apply eq_true_iff_eq. rewrite <- changes_bool. apply changes_active. apply (sn_upd0 _ SN); exact He. }
    split.
    + intros Hy. apply In_zget in Hy. destruct Hy as [k Ek]. apply zget_range in Ek as Hr. rewrite (lx_aff _ _ _ _ _ _ _ LX) in Ek.
      destruct (Z.leb_spec 0 k); [|lia]. destruct (Z.ltb_spec k (zlen (activeList (pr_ml q) sl))); [|lia]. cbn [andb] in Ek. rewrite Z.sub_0_r in Ek.
      destruct (zget (activeList (pr_ml q) sl) k) as [z|] eqn:Ez; [|discriminate]. cbn in Ek. apply zget_In in Ez.
      eapply act_iff in Ez; eauto. destruct Ez as (j & A1 & A2 & A3). exists j, (fst z). split; [exact A1|]. split; [|exact A3].
      eapply acted_get; eauto. exists (fst z), (snd z). split; [exact A1|]. split; [exact A2|]. congruence.
    + intros (j & e & Ee & Ey & HC). eapply acted_get in Ey; eauto. destruct Ey as (e' & c & Ee' & Ec & ->). assert (e' = e) by congruence. subst e'.
      assert (Hz : In (e, c) (activeList (pr_ml q) sl)) by (eapply act_iff; eauto).
      pose proof (perform_aff _ _ _ _ _ _ _ _ _ _ PX Hz) as HA. rewrite (px_p _ _ _ _ _ _ _ _ _ PX) in HA. exact HA.
Qed.

Lemma eventFx_mlists L cf cf' p x ys mls : eventFx L cf cf' p x ys -> eventFx L cf (set_mlists cf' mls) p x ys.
Proof. intros []. constructor; assumption. Qed.

Theorem step_event ranks hash L cf it md u1 u2 md' :
  wfInput ranks L cf it -> (forall t, In t (cf_types cf) -> t <> []) -> fits L (maxRange it) -> (forall p, In p (in_procs it) -> sane p) ->
  reachable ranks hash L cf it md -> singleStep md u1 u2 = Some md' ->
  exists i p x ys, zget (in_procs it) i = Some p /\ pickProcessIndex (md_in md) u1 = Some i /\ listed md i x /\ 0 <= x < nsites L /\
    cf_lastproc (md_cf md') = pr_number p /\ cf_lastsite (md_cf md') = x /\ eventFx L (md_cf md) (md_cf md') p x ys.
Proof.
  intros WI HT HF HS HRe H. destruct (reachable_info _ _ _ _ _ _ WI HRe) as (cf0 & it2 & RI).
  destruct (step_of _ _ _ _ _ _ _ _ _ _ _ WI RI H) as (i & p & p' & x & sl & cf1 & cfl & p1 & aff & ups & SO).
  pose proof (so_orig _ _ _ _ _ _ _ _ _ _ _ _ _ _ _ SO) as Ep. pose proof (so_proc _ _ _ _ _ _ _ _ _ _ _ _ _ _ _ SO) as Ep'.
  destruct (so_cf _ _ _ _ _ _ _ _ _ _ _ _ _ _ _ SO) as [mls Emls].
  pose proof (so_last _ _ _ _ _ _ _ _ _ _ _ _ _ _ _ SO) as HLast. pose proof (so_listed _ _ _ _ _ _ _ _ _ _ _ _ _ _ _ SO) as HL.
  pose proof (so_range _ _ _ _ _ _ _ _ _ _ _ _ _ _ _ SO) as Hx. rewrite (ri_lat _ _ _ _ _ _ _ _ RI) in Hx.
  pose proof (so_pick _ _ _ _ _ _ _ _ _ _ _ _ _ _ _ SO) as HP. clear SO.
  destruct (singleStep_info _ _ _ _ H) as (i2 & p2 & x2 & cf2 & p3 & SI & it1 & _ & _ & _ & _ & mt' & it' & cf' & CM & ->).
  destruct SI as (Ei & Ep2 & q & Eq & Ex & Eperf & _). assert (i2 = i) by congruence. subst i2. assert (p2 = p') by congruence. subst p2.
  destruct (updateRateTable_spec _ _ Eq) as (inc & Einc).
  destruct (calculateMatching_cf _ _ _ _ _ _ _ _ CM) as [mls2 Em2]. cbn [md_cf] in *.
  assert (HX : x2 = x).
  { destruct HLast as [_ HLast]. rewrite Em2 in HLast. cbn [set_mlists cf_lastsite] in HLast. destruct (perform_spec _ _ _ _ _ Eperf) as (sl2 & cfl2 & aff2 & ups2 & PX).
    destruct (idUpdates_frame _ _ _ (px_idu _ _ _ _ _ _ _ _ _ PX)) as (_ & _ & _ & _ & _ & _ & _ & _ & X2).
    destruct (lx_last _ _ _ _ _ _ _ (px_loop _ _ _ _ _ _ _ _ _ PX)) as [_ X3]. rewrite X2, X3 in HLast. exact HLast. }
  subst x2.
  assert (X := perform_event ranks hash L cf it md i p p' q x cf2 p3 WI HT HF HRe Ep (HS p (zget_In _ _ _ Ep)) Ep').
  rewrite Einc in X at 1 2 3. specialize (X eq_refl eq_refl eq_refl HL Eperf). destruct X as (ys & EF & _).
  exists i, p, x, ys. split; [exact Ep|]. split; [exact HP|]. split; [exact HL|]. split; [exact Hx|]. destruct HLast as [HL1 HL2]. split; [exact HL1|]. split; [exact HL2|]. cbn [md_cf]. rewrite Em2. apply eventFx_mlists. exact EF.
Qed.
