(** Proofs about MPerform.v: what performing a process changes. *)
From Verif Require Import PBase SModel.
Open Scope Z_scope.
Open Scope list_scope.

(** the entries performBucketProcess acts on *)
Definition isActive (u : bucket) : bool := match activeEntry u with Some true => true | _ => false end.
Definition activeList (pl : list pentry) (sl : list centry) : list (pentry * centry) :=
  filter (fun x => isActive (pe_upd (fst x))) (combine pl sl).

Definition applyActive (st : config * list Z * Z) (x : pentry * centry) : option (config * list Z * Z) :=
  let '(cf, aff, pos) := st in let (pe, ce) := x in
    let index := ce_index ce in
    atom_id <- zget (cf_aid cf) index ;;
    c <- zget (cf_aidcoords cf) atom_id ;;
    aidcoords <- zset (cf_aidcoords cf) atom_id (cadd c (pe_move pe)) ;;
    t <- zget (cf_types cf) index ;;
    t' <- applyUpdate t (pe_upd pe) ;;
    types <- zset (cf_types cf) index t' ;;
    els <- elementsOf (cf_names cf) t' ;;
    elements <- zset (cf_elements cf) index els ;;
    aidelements <- (if pe_hasmove pe then Some (cf_aidelements cf)
                    else e <- zget els 0 ;; zset (cf_aidelements cf) atom_id e) ;;
    aff' <- zset aff pos index ;;
    moved <- zset (cf_moved cf) (cf_nmoved cf) atom_id ;;
    recent <- zset (cf_recent cf) (cf_nmoved cf) (pe_move pe) ;;
    Some (mkCF (cf_nmoved cf + 1) (cf_coords cf) aidcoords elements aidelements types
               (cf_aid cf) moved recent (cf_names cf) (cf_mlists cf) (cf_update cf)
               (cf_ptypes cf) (cf_lastproc cf) (cf_lastsite cf), aff', pos + 1).

Lemma performLoop_active pl : forall sl st st', performLoop pl sl st = Some st' ->
  (length pl <= length sl)%nat /\ ofold applyActive (activeList pl sl) st = Some st'.
Proof.
  induction pl as [|pe pl IH]; intros sl st st' H; cbn [performLoop] in H.
  - inversion H; subst. split; [cbn [length]; lia|reflexivity].
  - destruct sl as [|ce sl]; [discriminate|]. ob H as st1 E. destruct (IH _ _ _ H) as [Hl Hf].
    split; [cbn [length]; lia|]. unfold activeList in *. cbn [combine filter fst].
    destruct st as [[cf aff] pos]. unfold performEntry in E. ob E as act Ea. unfold isActive at 1. rewrite Ea.
    destruct act.
    + cbn [ofold]. unfold applyActive at 1. rewrite E. exact Hf.
    + inversion E; subst. exact Hf.
Qed.

(** conversely *)
Lemma performLoop_active_conv pl : forall sl st st', (length pl <= length sl)%nat ->
  (forall pe, In pe pl -> activeEntry (pe_upd pe) <> None) ->
  ofold applyActive (activeList pl sl) st = Some st' -> performLoop pl sl st = Some st'.
Proof.
  induction pl as [|pe pl IH]; intros sl st st' Hl Ha H; cbn [performLoop].
  - exact H.
  - destruct sl as [|ce sl]; [cbn [length] in Hl; lia|].
    unfold activeList in *. cbn [combine filter fst] in H.
    destruct st as [[cf aff] pos]. unfold performEntry. unfold isActive at 1 in H.
    destruct (activeEntry (pe_upd pe)) as [[]|] eqn:Ea.
    + cbn [ofold] in H. ob H as st1 E1. unfold applyActive in E1 at 1. cbn [obind]. rewrite E1. cbn [obind]. apply IH; auto.
      * cbn [length] in Hl; lia.
      * intros; apply Ha; right; auto.
    + cbn [obind]. apply IH; auto.
      * cbn [length] in Hl; lia.
      * intros; apply Ha; right; auto.
    + exfalso. apply (Ha pe); [left; auto|exact Ea].
Qed.

Record activeFx (cf : config) (aff : list Z) (pos : Z) (pe : pentry) (ce : centry)
                (cf' : config) (aff' : list Z) (pos' id : Z) (c : coord) (t t' : bucket) (els : list string) : Prop := {
  ax_id : zget (cf_aid cf) (ce_index ce) = Some id;
  ax_c : zget (cf_aidcoords cf) id = Some c;
  ax_aidcoords : zset (cf_aidcoords cf) id (cadd c (pe_move pe)) = Some (cf_aidcoords cf');
  ax_t : zget (cf_types cf) (ce_index ce) = Some t;
  ax_t' : applyUpdate t (pe_upd pe) = Some t';
  ax_types : zset (cf_types cf) (ce_index ce) t' = Some (cf_types cf');
  ax_els : elementsOf (cf_names cf) t' = Some els;
  ax_elements : zset (cf_elements cf) (ce_index ce) els = Some (cf_elements cf');
  ax_aidel : if pe_hasmove pe then cf_aidelements cf' = cf_aidelements cf
             else exists e, zget els 0 = Some e /\ zset (cf_aidelements cf) id e = Some (cf_aidelements cf');
  ax_aff : zset aff pos (ce_index ce) = Some aff';
  ax_pos : pos' = pos + 1;
  ax_moved : zset (cf_moved cf) (cf_nmoved cf) id = Some (cf_moved cf');
  ax_recent : zset (cf_recent cf) (cf_nmoved cf) (pe_move pe) = Some (cf_recent cf');
  ax_nmoved : cf_nmoved cf' = cf_nmoved cf + 1;
  ax_same : cf_coords cf' = cf_coords cf /\ cf_aid cf' = cf_aid cf /\ cf_names cf' = cf_names cf /\
            cf_mlists cf' = cf_mlists cf /\ cf_update cf' = cf_update cf /\ cf_ptypes cf' = cf_ptypes cf /\
            cf_lastproc cf' = cf_lastproc cf /\ cf_lastsite cf' = cf_lastsite cf }.

Lemma applyActive_spec cf aff pos pe ce cf' aff' pos' :
  applyActive (cf, aff, pos) (pe, ce) = Some (cf', aff', pos') ->
  exists id c t t' els, activeFx cf aff pos pe ce cf' aff' pos' id c t t' els.
Proof.
  unfold applyActive. intros H. cbv zeta in H.
  ob H as id Eid. ob H as c Ec. ob H as ac Eac. ob H as t Et. ob H as t' Et'. ob H as ty Ety. ob H as els Eels.
  ob H as el Eel. ob H as ae Eae. ob H as af Eaf. ob H as mv Emv. ob H as rc Erc. inversion H; subst; clear H.
  exists id, c, t, t', els. constructor; cbn [cf_nmoved cf_coords cf_aidcoords cf_elements cf_aidelements cf_types cf_aid cf_moved cf_recent cf_names cf_mlists cf_update cf_ptypes cf_lastproc cf_lastsite]; auto 10.
  destruct (pe_hasmove pe); [congruence|]. ob Eae as e Ee. eauto.
Qed.

(** what stays the same while the entries are performed *)
Record pframe (cf cf' : config) : Prop := {
  pf_coords : cf_coords cf' = cf_coords cf;
  pf_names : cf_names cf' = cf_names cf;
  pf_mlists : cf_mlists cf' = cf_mlists cf;
  pf_ptypes : cf_ptypes cf' = cf_ptypes cf;
  pf_update : cf_update cf' = cf_update cf;
  pf_lt : zlen (cf_types cf') = zlen (cf_types cf);
  pf_le : zlen (cf_elements cf') = zlen (cf_elements cf);
  pf_la : zlen (cf_aid cf') = zlen (cf_aid cf);
  pf_lac : zlen (cf_aidcoords cf') = zlen (cf_aidcoords cf);
  pf_lae : zlen (cf_aidelements cf') = zlen (cf_aidelements cf);
  pf_lm : zlen (cf_moved cf') = zlen (cf_moved cf);
  pf_lr : zlen (cf_recent cf') = zlen (cf_recent cf) }.
Lemma pframe_refl cf : pframe cf cf. Proof. constructor; reflexivity. Qed.
Lemma pframe_trans a b c : pframe a b -> pframe b c -> pframe a c.
Proof. intros [] []; constructor; congruence. Qed.

Lemma activeFx_frame cf aff pos pe ce cf' aff' pos' id c t t' els :
  activeFx cf aff pos pe ce cf' aff' pos' id c t t' els -> pframe cf cf' /\ zlen aff' = zlen aff.
Proof.
  intros []. destruct ax_same0 as (A & B & C & D & E & F & _). split.
  - constructor; auto.
    + eapply zset_len; eauto.
    + eapply zset_len; eauto.
    + congruence.
    + eapply zset_len; eauto.
    + destruct (pe_hasmove pe); [congruence|]. destruct ax_aidel0 as (e & _ & Es). eapply zset_len; eauto.
    + eapply zset_len; eauto.
    + eapply zset_len; eauto.
  - eapply zset_len; eauto.
Qed.

(** the entries of a list that concern site y *)
Definition atSite (y : Z) (l : list (pentry * centry)) : list (pentry * centry) :=
  filter (fun x => ce_index (snd x) =? y) l.

(** effect of all active entries *)
Record loopFx (l : list (pentry * centry)) (cf : config) (aff : list Z) (pos : Z)
              (cf' : config) (aff' : list Z) (pos' : Z) : Prop := {
  lx_frame : pframe cf cf';
  lx_laff : zlen aff' = zlen aff;
  lx_aid : cf_aid cf' = cf_aid cf;
  lx_last : cf_lastproc cf' = cf_lastproc cf /\ cf_lastsite cf' = cf_lastsite cf;
  lx_pos : pos' = pos + zlen l;
  lx_nmoved : cf_nmoved cf' = cf_nmoved cf + zlen l;
  lx_types : forall y, zget (cf_types cf') y =
     (t <- zget (cf_types cf) y ;; ofold applyUpdate (map (fun x => pe_upd (fst x)) (atSite y l)) t);
  lx_elements : forall y, if zlen (atSite y l) =? 0 then zget (cf_elements cf') y = zget (cf_elements cf) y
     else exists t els, zget (cf_types cf') y = Some t /\ elementsOf (cf_names cf) t = Some els /\
                        zget (cf_elements cf') y = Some els;
  lx_aff : forall j, zget aff' j = if (pos <=? j) && (j <? pos') then
                 option_map (fun x => ce_index (snd x)) (zget l (j - pos)) else zget aff j;
  lx_moved : forall j, zget (cf_moved cf') j = if (cf_nmoved cf <=? j) && (j <? cf_nmoved cf') then
                 (x <- zget l (j - cf_nmoved cf) ;; zget (cf_aid cf) (ce_index (snd x))) else zget (cf_moved cf) j;
  lx_recent : forall j, zget (cf_recent cf') j = if (cf_nmoved cf <=? j) && (j <? cf_nmoved cf') then
                 option_map (fun x => pe_move (fst x)) (zget l (j - cf_nmoved cf)) else zget (cf_recent cf) j;
  lx_hit : forall x, In x l -> exists id, zget (cf_aid cf) (ce_index (snd x)) = Some id /\
             0 <= id < zlen (cf_aidcoords cf);
  lx_aidcoords : forall id, zget (cf_aidcoords cf') id =
     option_map (fun c => fold_left (fun c x => cadd c (pe_move (fst x)))
        (filter (fun x => match zget (cf_aid cf) (ce_index (snd x)) with Some i => i =? id | None => false end) l) c)
       (zget (cf_aidcoords cf) id) }.

Lemma loop_spec l : forall cf aff pos cf' aff' pos', 0 <= pos -> 0 <= cf_nmoved cf ->
  ofold applyActive l (cf, aff, pos) = Some (cf', aff', pos') -> loopFx l cf aff pos cf' aff' pos'.
Proof.
  induction l as [|[pe ce] l IH]; intros cf aff pos cf' aff' pos' Hpos Hn H; cbn [ofold] in H.
  - inversion H; subst. change (zlen (@nil (pentry * centry))) with 0. constructor; try reflexivity.
    + apply pframe_refl.
    + auto.
    + change (zlen (@nil (pentry * centry))) with 0. lia.
    + change (zlen (@nil (pentry * centry))) with 0. lia.
    + intros y. cbn [atSite filter map ofold]. destruct (zget (cf_types cf') y); reflexivity.
    + intros j. destruct (Z.leb_spec pos' j), (Z.ltb_spec j pos'); cbn [andb]; try reflexivity; lia.
    + intros j. destruct (Z.leb_spec (cf_nmoved cf') j), (Z.ltb_spec j (cf_nmoved cf')); cbn [andb]; try reflexivity; lia.
    + intros j. destruct (Z.leb_spec (cf_nmoved cf') j), (Z.ltb_spec j (cf_nmoved cf')); cbn [andb]; try reflexivity; lia.
    + intros x [].
    + intros id. cbn [filter fold_left]. destruct (zget (cf_aidcoords cf') id); reflexivity.
  - ob H as st E. destruct st as [[cf1 aff1] pos1].
    destruct (applyActive_spec _ _ _ _ _ _ _ _ E) as (id & c & t & t' & els & AX).
    pose proof (activeFx_frame _ _ _ _ _ _ _ _ _ _ _ _ _ AX) as [F1 L1].
    pose proof (ax_pos _ _ _ _ _ _ _ _ _ _ _ _ _ AX) as Ep. pose proof (ax_nmoved _ _ _ _ _ _ _ _ _ _ _ _ _ AX) as En.
    destruct (ax_same _ _ _ _ _ _ _ _ _ _ _ _ _ AX) as (_ & Sa & Sn & _ & _ & _ & Sp & Ss).
    assert (LX : loopFx l cf1 aff1 pos1 cf' aff' pos') by (apply IH; [lia|lia|exact H]). clear IH H E.
    destruct LX as [LF LA LI [LP1 LP2] LP LN LT LE LAF LM LR LH LC].
    pose proof (zlen_nonneg l) as Hl.
    constructor.
    + eapply pframe_trans; eauto.
    + congruence.
    + congruence.
    + split; congruence.
    + rewrite zlen_cons. lia.
    + rewrite zlen_cons. lia.
    + intros y. rewrite LT. unfold atSite. cbn [filter snd].
      rewrite (zset_get _ _ _ _ y (ax_types _ _ _ _ _ _ _ _ _ _ _ _ _ AX)). rewrite (Z.eqb_sym (ce_index ce) y).
      destruct (Z.eqb_spec y (ce_index ce)) as [->|N].
      * cbn [map ofold fst]. rewrite (ax_t _ _ _ _ _ _ _ _ _ _ _ _ _ AX). cbn [obind].
        rewrite (ax_t' _ _ _ _ _ _ _ _ _ _ _ _ _ AX). reflexivity.
      * reflexivity.
    + intros y. specialize (LE y). unfold atSite in *. cbn [filter snd]. rewrite (Z.eqb_sym (ce_index ce) y).
      rewrite Sn in LE.
      destruct (Z.eqb_spec y (ce_index ce)) as [->|N].
      * rewrite zlen_cons. pose proof (zlen_nonneg (filter (fun x : pentry * centry => ce_index (snd x) =? ce_index ce) l)) as Hz.
        destruct (Z.eqb_spec (zlen (filter (fun x : pentry * centry => ce_index (snd x) =? ce_index ce) l) + 1) 0); [lia|].
        destruct (Z.eqb_spec (zlen (filter (fun x : pentry * centry => ce_index (snd x) =? ce_index ce) l)) 0) as [Ez|Ez].
        -- exists t', els. split; [|split].
           ++ rewrite LT. unfold atSite. apply zlen_0 in Ez. rewrite Ez. cbn [map ofold].
              rewrite (zset_get _ _ _ _ _ (ax_types _ _ _ _ _ _ _ _ _ _ _ _ _ AX)), Z.eqb_refl. reflexivity.
           ++ apply AX.
           ++ rewrite LE. rewrite (zset_get _ _ _ _ _ (ax_elements _ _ _ _ _ _ _ _ _ _ _ _ _ AX)), Z.eqb_refl. reflexivity.
        -- exact LE.
      * destruct (zlen (filter (fun x : pentry * centry => ce_index (snd x) =? y) l) =? 0).
        -- rewrite LE. rewrite (zset_get _ _ _ _ _ (ax_elements _ _ _ _ _ _ _ _ _ _ _ _ _ AX)).
           destruct (Z.eqb_spec y (ce_index ce)); [congruence|reflexivity].
        -- exact LE.
    + intros j. rewrite LAF. rewrite (zset_get _ _ _ _ j (ax_aff _ _ _ _ _ _ _ _ _ _ _ _ _ AX)). rewrite zget_cons.
      destruct (Z.eqb_spec (j - pos) 0) as [E0|E0].
      * destruct (Z.leb_spec pos1 j); [lia|]. cbn [andb]. destruct (Z.eqb_spec j pos); [|lia].
        destruct (Z.leb_spec pos j), (Z.ltb_spec j pos'); cbn [andb]; try reflexivity; lia.
      * replace (j - pos - 1) with (j - pos1) by lia. destruct (Z.eqb_spec j pos); [lia|].
        destruct (Z.leb_spec pos1 j), (Z.leb_spec pos j); try lia; reflexivity.
    + intros j. rewrite LM. rewrite (zset_get _ _ _ _ j (ax_moved _ _ _ _ _ _ _ _ _ _ _ _ _ AX)). rewrite zget_cons.
      rewrite Sa. destruct (Z.eqb_spec (j - cf_nmoved cf) 0) as [E0|E0].
      * destruct (Z.leb_spec (cf_nmoved cf1) j); [lia|]. cbn [andb]. destruct (Z.eqb_spec j (cf_nmoved cf)); [|lia].
        destruct (Z.leb_spec (cf_nmoved cf) j), (Z.ltb_spec j (cf_nmoved cf')); cbn [andb obind snd]; try lia.
        symmetry. apply AX.
      * replace (j - cf_nmoved cf - 1) with (j - cf_nmoved cf1) by lia. destruct (Z.eqb_spec j (cf_nmoved cf)); [lia|].
        destruct (Z.leb_spec (cf_nmoved cf1) j), (Z.leb_spec (cf_nmoved cf) j); try lia; reflexivity.
    + intros j. rewrite LR. rewrite (zset_get _ _ _ _ j (ax_recent _ _ _ _ _ _ _ _ _ _ _ _ _ AX)). rewrite zget_cons.
      destruct (Z.eqb_spec (j - cf_nmoved cf) 0) as [E0|E0].
      * destruct (Z.leb_spec (cf_nmoved cf1) j); [lia|]. cbn [andb]. destruct (Z.eqb_spec j (cf_nmoved cf)); [|lia].
        destruct (Z.leb_spec (cf_nmoved cf) j), (Z.ltb_spec j (cf_nmoved cf')); cbn [andb]; try reflexivity; lia.
      * replace (j - cf_nmoved cf - 1) with (j - cf_nmoved cf1) by lia. destruct (Z.eqb_spec j (cf_nmoved cf)); [lia|].
        destruct (Z.leb_spec (cf_nmoved cf1) j), (Z.leb_spec (cf_nmoved cf) j); try lia; reflexivity.
    + intros x [<-|Hin].
      * cbn [snd]. exists id. split; [apply AX|]. eapply zget_range. apply AX.
      * rewrite <- Sa. destruct (LH x Hin) as (i & A & B). exists i. rewrite (pf_lac _ _ F1) in B. auto.
    + intros i. rewrite LC. rewrite Sa. rewrite (zset_get _ _ _ _ i (ax_aidcoords _ _ _ _ _ _ _ _ _ _ _ _ _ AX)).
      cbn [filter snd]. rewrite (ax_id _ _ _ _ _ _ _ _ _ _ _ _ _ AX). rewrite (Z.eqb_sym id i).
      destruct (Z.eqb_spec i id) as [->|N].
      * rewrite (ax_c _ _ _ _ _ _ _ _ _ _ _ _ _ AX). cbn [option_map fold_left fst]. reflexivity.
      * reflexivity.
Qed.

(** identity updates only touch atom ids and the elements of atom ids *)
Lemma idUpdates_frame ups : forall cf cf', ofold applyIdUpdate ups cf = Some cf' ->
  pframe cf cf' /\ cf_types cf' = cf_types cf /\ cf_elements cf' = cf_elements cf /\ cf_aidcoords cf' = cf_aidcoords cf /\
  cf_moved cf' = cf_moved cf /\ cf_recent cf' = cf_recent cf /\ cf_nmoved cf' = cf_nmoved cf /\
  cf_lastproc cf' = cf_lastproc cf /\ cf_lastsite cf' = cf_lastsite cf.
Proof.
  induction ups as [|[id y] ups IH]; intros cf cf' H; cbn [ofold] in H.
  - inversion H; subst. split; [apply pframe_refl|]. auto 10.
  - ob H as cf1 E. unfold applyIdUpdate in E. ob E as aid Ea. ob E as els Ee. ob E as e Ee0. ob E as ae Eae.
    inversion E; subst cf1; clear E. destruct (IH _ _ H) as (F & R).
    split; [|exact R]. eapply pframe_trans; [|exact F]. constructor; cbn [set_ids cf_coords cf_names cf_mlists cf_ptypes cf_update cf_types cf_elements cf_aid cf_aidcoords cf_aidelements cf_moved cf_recent]; try reflexivity.
    + eapply zset_len; eauto.
    + eapply zset_len; eauto.
Qed.

(** ** the whole of performBucketProcess *)
Record performFx (cf : config) (p : process) (site : Z) (cf' : config) (p' : process)
                 (sl : list centry) (cf1 : config) (aff : list Z) (ups : list (Z * Z)) : Prop := {
  px_sl : zget (cf_mlists cf) site = Some sl;
  px_len : (length (pr_ml p) <= length sl)%nat;
  px_loop : loopFx (activeList (pr_ml p) sl) (set_event cf (pr_number p) site) (pr_aff p) 0
                   cf1 aff (zlen (activeList (pr_ml p) sl));
  px_fold : ofold applyActive (activeList (pr_ml p) sl) (set_event cf (pr_number p) site, pr_aff p, 0) =
            Some (cf1, aff, zlen (activeList (pr_ml p) sl));
  px_ups : idUpdates cf1 sl (pr_idmoves p) = Some ups;
  px_idu : ofold applyIdUpdate ups cf1 = Some cf';
  px_p : p' = set_aff p aff;
  px_frame : pframe cf cf';
  px_types : cf_types cf' = cf_types cf1;
  px_elements : cf_elements cf' = cf_elements cf1;
  px_aidcoords : cf_aidcoords cf' = cf_aidcoords cf1 }.

Lemma perform_spec cf p site cf' p' : performBucketProcess cf p site = Some (cf', p') ->
  exists sl cf1 aff ups, performFx cf p site cf' p' sl cf1 aff ups.
Proof.
  unfold performBucketProcess. cbv zeta. intros H. ob H as sl Esl. ob H as r Er. destruct r as [[cf1 aff] pos].
  ob H as ups Eups. ob H as cf2 Eid. inversion H; subst; clear H.
  apply performLoop_active in Er. destruct Er as [Hlen Hf].
  assert (LX : loopFx (activeList (pr_ml p) sl) (set_event cf (pr_number p) site) (pr_aff p) 0 cf1 aff pos)
    by (apply loop_spec; [lia|cbn [set_event cf_nmoved]; lia|exact Hf]).
  assert (pos = zlen (activeList (pr_ml p) sl)) by (rewrite (lx_pos _ _ _ _ _ _ _ LX); lia). subst pos.
  destruct (idUpdates_frame _ _ _ Eid) as (F & T & E & A & _).
  exists sl, cf1, aff, ups. constructor; auto.
  eapply pframe_trans; [|exact F]. destruct (lx_frame _ _ _ _ _ _ _ LX). constructor; assumption.
Qed.

(** sites not aligned with an active entry keep their types *)
Lemma perform_types_frame cf p site cf' p' sl cf1 aff ups y : performFx cf p site cf' p' sl cf1 aff ups ->
  (forall x, In x (activeList (pr_ml p) sl) -> ce_index (snd x) <> y) ->
  zget (cf_types cf') y = zget (cf_types cf) y.
Proof.
  intros PX Hy. rewrite (px_types _ _ _ _ _ _ _ _ _ PX), (lx_types _ _ _ _ _ _ _ (px_loop _ _ _ _ _ _ _ _ _ PX)).
  assert (E : atSite y (activeList (pr_ml p) sl) = []).
  { unfold atSite. revert Hy. generalize (activeList (pr_ml p) sl). induction l as [|x l IH]; intros Hy; [reflexivity|].
    cbn [filter]. destruct (Z.eqb_spec (ce_index (snd x)) y) as [E|E]; [exfalso; apply (Hy x); [left; auto|exact E]|].
    apply IH. intros z Hz. apply Hy. right; auto. }
  rewrite E. cbn [map ofold set_event cf_types]. destruct (zget (cf_types cf) y); reflexivity.
Qed.

(** the affected indices start with the sites of the active entries *)
Lemma perform_aff cf p site cf' p' sl cf1 aff ups x : performFx cf p site cf' p' sl cf1 aff ups ->
  In x (activeList (pr_ml p) sl) -> In (ce_index (snd x)) (pr_aff p').
Proof.
  intros PX Hx. apply In_zget in Hx. destruct Hx as [j Ej]. rewrite (px_p _ _ _ _ _ _ _ _ _ PX). cbn [set_aff pr_aff].
  apply (zget_In _ j). rewrite (lx_aff _ _ _ _ _ _ _ (px_loop _ _ _ _ _ _ _ _ _ PX)).
  pose proof (zget_range _ _ _ Ej). destruct (Z.leb_spec 0 j), (Z.ltb_spec j (zlen (activeList (pr_ml p) sl))); cbn [andb]; try lia.
  rewrite Z.sub_0_r, Ej. reflexivity.
Qed.
(** every affected index is the site of an active entry or was in the list before *)
Lemma perform_aff_inv cf p site cf' p' sl cf1 aff ups a : performFx cf p site cf' p' sl cf1 aff ups ->
  In a (pr_aff p') -> (exists x, In x (activeList (pr_ml p) sl) /\ a = ce_index (snd x)) \/ In a (pr_aff p).
Proof.
  intros PX Ha. apply In_zget in Ha. destruct Ha as [j Ej]. rewrite (px_p _ _ _ _ _ _ _ _ _ PX) in Ej. cbn [set_aff pr_aff] in Ej.
  rewrite (lx_aff _ _ _ _ _ _ _ (px_loop _ _ _ _ _ _ _ _ _ PX)) in Ej.
  destruct ((0 <=? j) && (j <? zlen (activeList (pr_ml p) sl))).
  - destruct (zget (activeList (pr_ml p) sl) (j - 0)) as [x|] eqn:Ex; [|discriminate]. simpl in Ej. inversion Ej.
    left. exists x. split; [eapply zget_In; eauto|reflexivity].
  - right. eapply zget_In; eauto.
Qed.

(** ** elements of the labels *)
Definition idOf (cf : config) (x : pentry * centry) : option Z := zget (cf_aid cf) (ce_index (snd x)).
Lemma loop_aidel l : forall cf aff pos cf' aff' pos', ofold applyActive l (cf, aff, pos) = Some (cf', aff', pos') ->
  cf_aid cf' = cf_aid cf /\
  (forall id, (forall x, In x l -> pe_hasmove (fst x) = false -> idOf cf x <> Some id) -> zget (cf_aidelements cf') id = zget (cf_aidelements cf) id) /\
  (forall y, (forall x, In x l -> ce_index (snd x) <> y) -> zget (cf_elements cf') y = zget (cf_elements cf) y) /\
  (forall x id, In x l -> pe_hasmove (fst x) = false -> idOf cf x = Some id -> NoDup (map (idOf cf) l) ->
     exists els e, zget (cf_elements cf') (ce_index (snd x)) = Some els /\ zget els 0 = Some e /\ zget (cf_aidelements cf') id = Some e).
Proof.
  induction l as [|[pe ce] l IH]; intros cf aff pos cf' aff' pos' H; cbn [ofold] in H.
  - inversion H; subst. split; [reflexivity|]. split; [reflexivity|]. split; [reflexivity|]. intros x id [].
  - ob H as st E. destruct st as [[cf1 aff1] pos1]. destruct (applyActive_spec _ _ _ _ _ _ _ _ E) as (id0 & c & t & t' & els & AX).
    destruct (ax_same _ _ _ _ _ _ _ _ _ _ _ _ _ AX) as (_ & Sa & _). destruct (IH _ _ _ _ _ _ H) as (A1 & A2 & A3 & A4). clear IH H E.
    assert (EID : forall x, idOf cf1 x = idOf cf x) by (intros x; unfold idOf; rewrite Sa; reflexivity).
    assert (EMAP : map (idOf cf1) l = map (idOf cf) l) by (apply map_ext; exact EID).
    pose proof (ax_aidel _ _ _ _ _ _ _ _ _ _ _ _ _ AX) as AE. pose proof (ax_elements _ _ _ _ _ _ _ _ _ _ _ _ _ AX) as EE. pose proof (ax_id _ _ _ _ _ _ _ _ _ _ _ _ _ AX) as Eid.
    split; [congruence|]. split; [|split].
    + intros id Hn. rewrite A2 by (intros x Hx Hm; rewrite EID; apply Hn; [right; exact Hx|exact Hm]).
      destruct (pe_hasmove pe) eqn:Em; [congruence|]. destruct AE as (e & _ & AE). rewrite (zset_get _ _ _ _ id AE).
      destruct (Z.eqb_spec id id0) as [->|]; [|reflexivity]. exfalso. apply (Hn (pe, ce)); [left; reflexivity|exact Em|exact Eid].
    + intros y Hy. rewrite A3 by (intros x Hx; apply Hy; right; exact Hx). rewrite (zset_get _ _ _ _ y EE).
      destruct (Z.eqb_spec y (ce_index ce)) as [->|]; [|reflexivity]. exfalso. apply (Hy (pe, ce)); [left; reflexivity|reflexivity].
    + intros x id [<-|Hin] Hm Ex ND; cbn [map] in ND; inversion ND as [|? ? Hn ND']; subst.
      * cbn [fst snd] in *. rewrite Hm in AE. destruct AE as (e & Ee & AE). assert (id = id0) by (unfold idOf in Ex; cbn [snd] in Ex; congruence). subst id0.
        assert (NI : forall x, In x l -> idOf cf x <> Some id) by (intros x Hx Ei; apply Hn; rewrite Ex, <- Ei; apply in_map; exact Hx).
        exists els, e. split; [|split; [exact Ee|]].
        -- rewrite A3; [rewrite (zset_get _ _ _ _ _ EE), Z.eqb_refl; reflexivity|]. intros x Hx Ey. apply (NI x Hx). unfold idOf. rewrite Ey. exact Eid.
        -- rewrite A2; [rewrite (zset_get _ _ _ _ _ AE), Z.eqb_refl; reflexivity|]. intros x Hx _. rewrite EID. apply NI; exact Hx.
      * apply A4; auto; [rewrite EID; exact Ex|rewrite EMAP; exact ND'].
Qed.
(** identity updates set the element of every moved label *)
Lemma idUpdates_aidel ups : forall cf cf', ofold applyIdUpdate ups cf = Some cf' ->
  cf_elements cf' = cf_elements cf /\
  (forall id, ~ In id (map fst ups) -> zget (cf_aidelements cf') id = zget (cf_aidelements cf) id) /\
  (forall id y, In (id, y) ups -> NoDup (map fst ups) ->
     exists els e, zget (cf_elements cf) y = Some els /\ zget els 0 = Some e /\ zget (cf_aidelements cf') id = Some e).
Proof.
  induction ups as [|[id0 y0] ups IH]; intros cf cf' H; cbn [ofold] in H.
  - inversion H; subst. split; [reflexivity|]. split; [reflexivity|]. intros id y [].
  - ob H as cf1 E. unfold applyIdUpdate in E. ob E as aid Ea. ob E as els Ee. ob E as e Ee0. ob E as ae Eae. inversion E; subst cf1; clear E.
    destruct (IH _ _ H) as (A1 & A2 & A3). cbn [set_ids cf_elements cf_aidelements] in *. split; [exact A1|]. split.
    + intros id Hn. cbn [map fst] in Hn. rewrite A2 by (intros Hin; apply Hn; right; exact Hin). rewrite (zset_get _ _ _ _ id Eae).
      destruct (Z.eqb_spec id id0) as [->|]; [exfalso; apply Hn; left; reflexivity|reflexivity].
    + intros id y Hin ND. cbn [map fst] in ND. inversion ND as [|? ? Hn ND']; subst. destruct Hin as [Heq|Hin].
      * inversion Heq; subst. exists els, e. split; [exact Ee|]. split; [exact Ee0|]. rewrite A2 by exact Hn. rewrite (zset_get _ _ _ _ id Eae), Z.eqb_refl. reflexivity.
      * destruct (A3 id y Hin ND') as (els' & e' & B1 & B2 & B3). exists els', e'. auto.
Qed.
