(** Lemmas on the types input. *)
From Verif Require Export STypes PBase PBuild PLattice PStepInv.
Open Scope string_scope.
Open Scope list_scope.
Open Scope Z_scope.

Definition itemT (t : list pyval) : option (Z * string) := itemOf (VTuple t).
Lemma itemT_inv t k s : itemT t = Some (k, s) -> exists n, t = [n; VStr s] /\ asInt n = Some k.
Proof.
  unfold itemT. cbn [itemOf]. destruct t as [|n [|v [|]]]; try discriminate. 2: destruct v; discriminate.
  destruct v; try discriminate. destruct (asInt n) eqn:E; cbn; intros H; [|discriminate]. injection H as -> ->. eauto.
Qed.
Lemma itemT_pair n k s : asInt n = Some k -> itemT [n; VStr s] = Some (k, s).
Proof. intros H. unfold itemT. cbn [itemOf]. rewrite H. reflexivity. Qed.
Lemma itemT_sum k s : itemT [VInt k; VStr s] = Some (k, s). Proof. reflexivity. Qed.

Lemma countOf_cons s k s' l : countOf s ((k, s') :: l) = (if String.eqb s' s then k else 0) + countOf s l.
Proof. unfold countOf. cbn [filter snd]. destruct (String.eqb s' s); cbn [map fst zsum fold_right]; [reflexivity|]. unfold zsum. lia. Qed.
Lemma countOf_app s l m : countOf s (l ++ m) = countOf s l + countOf s m.
Proof. induction l as [|[k s'] l IH]; [reflexivity|]. cbn [app]. rewrite !countOf_cons, IH. lia. Qed.
Lemma countOf_none s l : ~ In s (map snd l) -> countOf s l = 0.
Proof.
  induction l as [|[k s'] l IH]; intros H; [reflexivity|]. rewrite countOf_cons, IH by (intros Hc; apply H; right; exact Hc). destruct (String.eqb_spec s' s) as [->|]; [|reflexivity]. exfalso. apply H. left. reflexivity.
Qed.

(** ** normalising a bucket given as a list *)
Fixpoint indexed (s : string) (ls : list (Z * string)) (i : Z) : list Z :=
  match ls with [] => [] | (_, s') :: ls' => if String.eqb s s' then i :: indexed s ls' (i + 1) else indexed s ls' (i + 1) end.
Lemma indexed_spec s ls : forall i p, zmem (i + p) (indexed s ls i) = match zget ls p with Some (_, s') => String.eqb s s' | None => false end.
Proof.
  unfold zmem. induction ls as [|[k s'] ls IH]; intros i p; [cbn; rewrite zget_nil; reflexivity|]. rewrite zget_cons. cbn [indexed]. destruct (Z.eqb_spec p 0) as [->|Hp].
  - destruct (String.eqb_spec s s').
    + cbn [existsb]. replace (i + 0 =? i) with true by (symmetry; apply Z.eqb_eq; lia). reflexivity.
    + replace (i + 0) with ((i + 1) + -1) by lia. rewrite IH. unfold zget. reflexivity.
  - assert (E : existsb (Z.eqb (i + p)) (indexed s ls (i + 1)) = match zget ls (p - 1) with Some (_, s'') => String.eqb s s'' | None => false end) by (replace (i + p) with ((i + 1) + (p - 1)) by lia; apply IH).
    destruct (String.eqb s s'); [|exact E]. cbn [existsb]. destruct (Z.eqb_spec (i + p) i); [lia|]. exact E.
Qed.
Section U.
Context (funit : Z).
Lemma addSame_ok later : forall first k s ls i skip, itemT first = Some (k, s) -> omap itemT later = Some ls ->
  exists first', addSame funit first later i skip = Ok (first', skip ++ indexed s ls i) /\ itemT first' = Some (k + countOf s ls, s) /\ (~ In s (map snd ls) -> first' = first).
Proof.
  induction later as [|second later IH]; intros first k s ls i skip HF HL; cbn [omap] in HL.
  - injection HL as <-. exists first. cbn [addSame indexed]. rewrite app_nil_r. split; [reflexivity|]. split; [|auto]. rewrite HF. unfold countOf. cbn. f_equal. f_equal. lia.
  - ob HL as x E1. destruct x as [k2 s2]. ob HL as ls' E2. injection HL as <-. apply itemT_inv in HF as (n & -> & En). apply itemT_inv in E1 as (n2 & -> & En2).
    cbn [addSame snd_ fst_ MPy.obind indexed]. replace (pyEq funit (VStr s) (VStr s2)) with (String.eqb s s2) by reflexivity. destruct (String.eqb_spec s s2) as [<-|Hn].
    + unfold pyAdd. rewrite En, En2. cbn [MPy.obind]. destruct (IH [VInt (k + k2); VStr s] (k + k2) s ls' (i + 1) (skip ++ [i]) (itemT_sum _ _) E2) as (f' & R1 & R2 & _).
      exists f'. split; [rewrite R1, <- app_assoc; reflexivity|]. split; [|intros Hc; exfalso; apply Hc; left; reflexivity]. rewrite R2, countOf_cons, String.eqb_refl. f_equal. f_equal. lia.
    + destruct (IH [n; VStr s] k s ls' (i + 1) skip (itemT_pair _ _ _ En) E2) as (f' & R1 & R2 & R3). exists f'. split; [exact R1|]. split; [|intros Hc; apply R3; intros Hi; apply Hc; right; exact Hi].
      rewrite R2, countOf_cons. destruct (String.eqb_spec s2 s) as [->|]; [congruence|]. reflexivity.
Qed.
Definition fresh (seen : list string) (s : string) : bool := negb (existsb (String.eqb s) seen).
Lemma filter_comm {A} (f g : A -> bool) l : filter f (filter g l) = filter g (filter f l).
Proof. induction l as [|a l IH]; [reflexivity|]. cbn [filter]. destruct (g a) eqn:G, (f a) eqn:F; cbn [filter]; rewrite ?G, ?F, IH; reflexivity. Qed.
Lemma filter_fresh_cons seen s l : filter (fresh (s :: seen)) l = filter (fresh seen) (filter (fun b => negb (String.eqb s b)) l).
Proof.
  induction l as [|a l IH]; [reflexivity|]. cbn [filter]. unfold fresh at 1. cbn [existsb]. rewrite (String.eqb_sym a s). destruct (String.eqb s a) eqn:E; cbn [orb negb]; [exact IH|]. cbn [filter]. fold (fresh seen a). destruct (fresh seen a); rewrite IH; reflexivity.
Qed.
Lemma filter_known seen s l : fresh seen s = false -> filter (fresh seen) (filter (fun b => negb (String.eqb s b)) l) = filter (fresh seen) l.
Proof.
  intros H. induction l as [|a l IH]; [reflexivity|]. cbn [filter]. destruct (String.eqb_spec s a) as [<-|]; cbn [negb filter]; [rewrite H; exact IH|]. rewrite IH. reflexivity.
Qed.
Lemma mergeEntries_ok l : forall ls seen i skip, omap itemT l = Some ls ->
  (forall p k s, zget ls p = Some (k, s) -> zmem (i + p) skip = negb (fresh seen s)) ->
  exists r, mergeEntries funit l i skip = Ok r /\ omap itemT r = Some (map (fun s => (countOf s ls, s)) (filter (fresh seen) (firsts (map snd ls)))).
Proof.
  induction l as [|first later IH]; intros ls seen i skip HL HS; cbn [omap] in HL.
  - injection HL as <-. exists []. split; reflexivity.
  - ob HL as x E1. destruct x as [k s]. ob HL as ls' E2. injection HL as <-. cbn [mergeEntries]. pose proof (HS 0 k s eq_refl) as H0. rewrite Z.add_0_r in H0. rewrite H0.
    assert (HT : forall p k' s', zget ls' p = Some (k', s') -> zmem (i + 1 + p) skip = negb (fresh seen s')).
    { intros p k' s' E. pose proof (zget_range _ _ _ E). replace (i + 1 + p) with (i + (p + 1)) by lia. apply (HS (p + 1) k' s'). rewrite zget_cons. destruct (Z.eqb_spec (p + 1) 0); [lia|]. replace (p + 1 - 1) with p by lia. exact E. }
    cbn [map snd firsts filter]. destruct (fresh seen s) eqn:EF; cbn [negb].
    + destruct (addSame_ok later first k s ls' (i + 1) skip E1 E2) as (f' & R1 & R2 & _). rewrite R1. cbn [MPy.obind fst snd].
      destruct (IH ls' (s :: seen) (i + 1) (skip ++ indexed s ls' (i + 1)) E2) as (r & R3 & R4).
      { intros p k' s' E. unfold zmem. rewrite existsb_app. fold (zmem (i + 1 + p) skip). fold (zmem (i + 1 + p) (indexed s ls' (i + 1))). rewrite (HT _ _ _ E), indexed_spec, E. unfold fresh. cbn [existsb]. rewrite (String.eqb_sym s' s).
        destruct (String.eqb s s'), (existsb (String.eqb s') seen); reflexivity. }
      rewrite R3. cbn [MPy.obind]. eexists. split; [reflexivity|]. cbn [omap map]. rewrite R2, R4. cbn [obind]. f_equal. rewrite countOf_cons, String.eqb_refl. f_equal. rewrite filter_fresh_cons. apply map_ext_in. intros a Ha.
      apply filter_In in Ha. destruct Ha as [Ha _]. apply filter_In in Ha. destruct Ha as [_ Ha]. rewrite countOf_cons. destruct (String.eqb s a); [discriminate|]. reflexivity.
    + destruct (IH ls' seen (i + 1) skip E2 HT) as (r & R3 & R4). exists r. split; [exact R3|]. rewrite R4, filter_known by exact EF. f_equal. apply map_ext_in. intros a Ha. apply filter_In in Ha. destruct Ha as [_ Ha].
      rewrite countOf_cons. destruct (String.eqb_spec s a) as [<-|]; [congruence|]. reflexivity.
Qed.
Lemma mergeEntries_nodup l : forall ls i skip, omap itemT l = Some ls -> NoDup (map snd ls) -> (forall j, i <= j -> zmem j skip = false) -> mergeEntries funit l i skip = Ok l.
Proof.
  induction l as [|first later IH]; intros ls i skip HL ND HS; cbn [omap] in HL; [reflexivity|]. ob HL as x E1. destruct x as [k s]. ob HL as ls' E2. injection HL as <-. cbn [map snd] in ND. inversion ND as [|? ? Hn ND']; subst.
  cbn [mergeEntries]. rewrite HS by lia. destruct (addSame_ok later first k s ls' (i + 1) skip E1 E2) as (f' & R1 & _ & R3). rewrite R1. cbn [MPy.obind fst snd]. rewrite (R3 Hn).
  assert (EI : indexed s ls' (i + 1) = []). { clear - Hn. revert i. induction ls' as [|[a b] l IHl]; intros i; [reflexivity|]. cbn [indexed]. cbn [map snd] in Hn. destruct (String.eqb_spec s b) as [->|]; [exfalso; apply Hn; left; reflexivity|]. apply IHl. intros Hc. apply Hn. right. exact Hc. }
  rewrite EI, app_nil_r, (IH ls' (i + 1) skip E2 ND') by (intros j Hj; apply HS; lia). reflexivity.
Qed.
Lemma filter_all {A} (f : A -> bool) l : (forall a, In a l -> f a = true) -> filter f l = l.
Proof. induction l as [|a l IH]; intros H; [reflexivity|]. cbn [filter]. rewrite H by (left; reflexivity). f_equal. apply IH. intros b Hb. apply H. right. exact Hb. Qed.
Lemma firsts_In l s : In s (firsts l) <-> In s l.
Proof.
  induction l as [|a l IH]; [reflexivity|]. cbn [firsts In]. rewrite filter_In, IH. destruct (String.eqb_spec a s); cbn [negb]; intuition congruence.
Qed.
Lemma NoDup_filter' {A} (f : A -> bool) l : NoDup l -> NoDup (filter f l).
Proof. induction 1 as [|a l Hn HD IH]; cbn [filter]; [constructor|]. destruct (f a); [constructor; [rewrite filter_In; tauto|exact IH]|exact IH]. Qed.
Lemma firsts_NoDup l : NoDup (firsts l).
Proof. induction l as [|a l IH]; cbn [firsts]; constructor; [rewrite filter_In, String.eqb_refl; cbn; intuition congruence|apply NoDup_filter'; exact IH]. Qed.
Lemma firsts_id l : NoDup l -> firsts l = l.
Proof.
  induction 1 as [|a l Hn HD IH]; cbn [firsts]; [reflexivity|]. rewrite IH. f_equal. apply filter_all. intros b Hb. destruct (String.eqb_spec a b) as [->|]; [contradiction|reflexivity].
Qed.
Lemma listElement_ok v x : itemOf v = Some x -> exists t, listElement v = Ok t /\ itemT t = Some x.
Proof.
  destruct v as [| | | |s| |l|]; try discriminate; cbn [itemOf listElement].
  - intros H. injection H as <-. eexists. split; [reflexivity|]. reflexivity.
  - intros H. fold (itemOf (VTuple l)) in H. fold (itemT l) in H. destruct x as [k s]. pose proof H as H'. apply itemT_inv in H as (n & -> & En). exists [n; VStr s]. split; [reflexivity|exact H'].
Qed.
Lemma oall_listElement l : forall ls, omap itemOf l = Some ls -> exists ts, oall listElement l = Ok ts /\ omap itemT ts = Some ls.
Proof.
  induction l as [|v l IH]; intros ls H; cbn [omap] in H; [injection H as <-; exists []; auto|]. ob H as x E. ob H as ls' E2. injection H as <-. destruct (listElement_ok v x E) as (t & T1 & T2). destruct (IH _ E2) as (ts & T3 & T4).
  exists (t :: ts). cbn [oall omap]. rewrite T1, T3. cbn [MPy.obind]. rewrite T2, T4. auto.
Qed.
Lemma omap_itemOf r : omap itemOf (map VTuple r) = omap itemT r.
Proof. induction r as [|t r IH]; [reflexivity|]. cbn [map omap]. rewrite IH. reflexivity. Qed.
Lemma oall_tuples r ls : omap itemT r = Some ls -> oall listElement (map VTuple r) = Ok r.
Proof.
  revert ls. induction r as [|t r IH]; intros ls H; [reflexivity|]. cbn [omap] in H. ob H as x E. ob H as ls' E2. destruct x as [k s]. apply itemT_inv in E as (n & -> & En). cbn [map oall listElement]. cbn [zlen length negb]. rewrite (IH _ E2). reflexivity.
Qed.
Lemma fresh_nil l : filter (fresh []) l = l. Proof. apply filter_all. reflexivity. Qed.
Lemma totals_one x : totals [x] = [x].
Proof. destruct x as [k s]. unfold totals. cbn [map snd firsts filter]. rewrite countOf_cons, String.eqb_refl. unfold countOf. cbn [filter map zsum fold_right]. rewrite Z.add_0_r. reflexivity. Qed.

(** ** collecting *)
Lemma fold_same later : forall name ls occ k, omap itemT later = Some ls -> asInt occ = Some k ->
  exists occ', ofoldl (fun o t1 => try n1 <- snd_ t1 ;; if pyEq funit n1 (VStr name) then try c1 <- fst_ t1 ;; pyAdd funit o c1 else Ok o) later occ = Ok occ' /\ asInt occ' = Some (k + countOf name ls).
Proof.
  induction later as [|t later IH]; intros name ls occ k H HO; cbn [omap] in H.
  - injection H as <-. exists occ. split; [reflexivity|]. rewrite HO. unfold countOf. cbn. f_equal. lia.
  - ob H as x E. destruct x as [k2 s2]. ob H as ls' E2. injection H as <-. apply itemT_inv in E as (n & -> & En). cbn [ofoldl snd_ MPy.obind]. replace (pyEq funit (VStr s2) (VStr name)) with (String.eqb s2 name) by reflexivity.
    rewrite countOf_cons. destruct (String.eqb s2 name).
    + cbn [fst_ MPy.obind]. unfold pyAdd. rewrite HO, En. cbn [MPy.obind]. destruct (IH name ls' (VInt (k + k2)) (k + k2) E2 eq_refl) as (o & O1 & O2). exists o. split; [exact O1|]. rewrite O2. f_equal. lia.
    + cbn [MPy.obind]. apply IH; assumption.
Qed.
Lemma taken_strs s seen : existsb (pyEq funit (VStr s)) (map VStr seen) = existsb (String.eqb s) seen.
Proof. induction seen as [|a l IH]; [reflexivity|]. cbn [map existsb]. rewrite IH. reflexivity. Qed.
Lemma collectSame_ok t : forall ls seen, omap itemT t = Some ls ->
  exists r, collectSame funit t (map VStr seen) = Ok r /\ omap itemT r = Some (map (fun s => (countOf s ls, s)) (filter (fresh seen) (firsts (map snd ls)))).
Proof.
  induction t as [|t0 t IH]; intros ls seen H; cbn [omap] in H.
  - injection H as <-. exists []. split; reflexivity.
  - ob H as x E. destruct x as [k s]. ob H as ls' E2. injection H as <-. apply itemT_inv in E as (n & -> & En). cbn [collectSame fst_ snd_ MPy.obind]. rewrite taken_strs. cbn [map snd firsts filter].
    assert (EF : fresh seen s = negb (existsb (String.eqb s) seen)) by reflexivity. destruct (existsb (String.eqb s) seen); cbn [negb] in EF; rewrite EF.
    + destruct (IH ls' seen E2) as (r & R1 & R2). exists r. split; [exact R1|]. rewrite R2, filter_known by exact EF. f_equal. apply map_ext_in. intros a Ha. apply filter_In in Ha. destruct Ha as [_ Ha].
      rewrite countOf_cons. destruct (String.eqb_spec s a) as [<-|]; [congruence|]. reflexivity.
    + destruct (fold_same t s ls' n k E2 En) as (o & O1 & O2). rewrite O1. cbn [MPy.obind]. change [VStr s] with (map VStr [s]). rewrite <- map_app. destruct (IH ls' (seen ++ [s]) E2) as (r & R1 & R2). rewrite R1. cbn [MPy.obind].
      eexists. split; [reflexivity|]. cbn [omap map]. rewrite (itemT_pair _ _ _ O2), R2. cbn [obind]. f_equal. rewrite countOf_cons, String.eqb_refl. f_equal.
      assert (EQ : filter (fresh (seen ++ [s])) (firsts (map snd ls')) = filter (fresh seen) (filter (fun b => negb (String.eqb s b)) (firsts (map snd ls')))).
      { rewrite <- filter_fresh_cons. apply filter_ext. intros a. unfold fresh. f_equal. rewrite existsb_app. cbn [existsb]. rewrite orb_false_r. apply orb_comm. }
      rewrite EQ. apply map_ext_in. intros a Ha. apply filter_In in Ha. destruct Ha as [Ha _]. apply filter_In in Ha. destruct Ha as [_ Ha]. rewrite countOf_cons. destruct (String.eqb s a); [discriminate|]. reflexivity.
Qed.
End U.

(** ** the long format *)
Lemma longOf_inv v i j k m s : longOf v = Some (i, j, k, m, s) ->
  exists a b c d, v = VTuple [a; b; c; d; VStr s] /\ asInt a = Some i /\ asInt b = Some j /\ asInt c = Some k /\ asInt d = Some m.
Proof.
  unfold longOf. destruct v as [| | | | | |l|]; try discriminate. destruct l as [|a [|b [|c [|d [|e [|]]]]]]; try discriminate. 2: destruct e; discriminate. destruct e as [| | | |s'| | |]; try discriminate. intros H.
  ob H as x1 E1. ob H as x2 E2. ob H as x3 E3. ob H as x4 E4. injection H as -> -> -> -> ->. exists a, b, c, d. auto.
Qed.
Lemma setLong_ok L acc v i j k m s : wf_lattice L -> longOf v = Some (i, j, k, m, s) -> isSite L i j k m -> zlen acc = nsites L ->
  exists acc', setLong L acc v = Ok acc' /\ zset acc (globalIndex L i j k m) s = Some acc'.
Proof.
  intros WF H HS HL. apply longOf_inv in H as (a & b & c & d & -> & Ea & Eb & Ec & Ed). pose proof (globalIndex_range L WF _ _ _ _ HS) as R. destruct HS as (H1 & H2 & H3 & H4). cbn [setLong]. rewrite Ea, Eb, Ec, Ed.
  destruct (Z.ltb_spec i 0), (Z.leb_spec (lt_ra L) i), (Z.ltb_spec j 0), (Z.leb_spec (lt_rb L) j), (Z.ltb_spec k 0), (Z.leb_spec (lt_rc L) k), (Z.ltb_spec m 0), (Z.leb_spec (lt_nb L) m); cbn [orb]; try lia.
  destruct (zset_Some acc (globalIndex L i j k m) s) as [acc' E]; [lia|]. rewrite E. eauto.
Qed.
Lemma setLong_bad L acc v : (forall i j k m s, longOf v = Some (i, j, k, m, s) -> ~ isSite L i j k m) -> setLong L acc v = Raise KmcError.
Proof.
  intros H. destruct v as [| | | | | |l|]; try reflexivity. destruct l as [|a [|b [|c [|d [|e [|]]]]]]; try reflexivity. cbn [setLong longOf] in *.
  destruct (asInt a) as [i|]; [|reflexivity]. destruct (asInt b) as [j|]; [|reflexivity]. destruct (asInt c) as [k|]; [|reflexivity]. destruct (asInt d) as [m|]; [|reflexivity]. destruct e; try reflexivity. specialize (H i j k m s eq_refl).
  destruct (Z.ltb_spec i 0), (Z.leb_spec (lt_ra L) i), (Z.ltb_spec j 0), (Z.leb_spec (lt_rb L) j), (Z.ltb_spec k 0), (Z.leb_spec (lt_rc L) k), (Z.ltb_spec m 0), (Z.leb_spec (lt_nb L) m); cbn [orb]; try reflexivity.
  exfalso. apply H. unfold isSite. lia.
Qed.
Lemma setLong_fold L : wf_lattice L -> forall vs es acc, omap longOf vs = Some es -> (forall i j k m s, In (i, j, k, m, s) es -> isSite L i j k m) -> zlen acc = nsites L ->
  exists ts, ofoldl (setLong L) vs acc = Ok ts /\ zlen ts = nsites L /\
    forall i j k m d, isSite L i j k m -> zget acc (globalIndex L i j k m) = Some d -> zget ts (globalIndex L i j k m) = Some (lastNamed es i j k m d).
Proof.
  intros WF. induction vs as [|v vs IH]; intros es acc H HS HL; cbn [omap] in H.
  - injection H as <-. exists acc. split; [reflexivity|]. split; [exact HL|]. auto.
  - ob H as x E. destruct x as [[[[i0 j0] k0] m0] s0]. ob H as es' E2. injection H as <-. assert (S0 := HS i0 j0 k0 m0 s0 (or_introl eq_refl)).
    destruct (setLong_ok L acc v i0 j0 k0 m0 s0 WF E S0 HL) as (acc' & A1 & A2). cbn [ofoldl]. rewrite A1. cbn [MPy.obind].
    destruct (IH es' acc' E2) as (ts & T1 & T2 & T3); [intros; eapply HS; right; eauto|rewrite (zset_len _ _ _ _ A2); exact HL|]. exists ts. split; [exact T1|]. split; [exact T2|].
    intros i j k m d Hs Hd. cbn [lastNamed]. apply T3; [exact Hs|]. rewrite (zset_get _ _ _ _ (globalIndex L i j k m) A2).
    destruct (Z.eqb_spec i i0), (Z.eqb_spec j j0), (Z.eqb_spec k k0), (Z.eqb_spec m m0); cbn [andb]; subst; rewrite ?Z.eqb_refl; try reflexivity;
    (destruct (Z.eqb_spec (globalIndex L i j k m) (globalIndex L i0 j0 k0 m0)) as [Eg|]; [apply (globalIndex_inj L WF) in Eg; [intuition congruence|assumption|assumption]|exact Hd])
    || (match goal with |- (if ?a =? ?b then _ else _) = _ => destruct (Z.eqb_spec a b) as [Eg|]; [apply (globalIndex_inj L WF) in Eg; [intuition congruence|assumption|assumption]|exact Hd] end).
Qed.
Lemma setLong_fold_bad L vs : forall acc v, In v vs -> (forall i j k m s, longOf v = Some (i, j, k, m, s) -> ~ isSite L i j k m) -> wf_lattice L -> zlen acc = nsites L -> ofoldl (setLong L) vs acc = Raise KmcError.
Proof.
  induction vs as [|w vs IH]; intros acc v Hin Hb WF HL; [destruct Hin|]. cbn [ofoldl].
  assert (D : (exists i j k m s, longOf w = Some (i, j, k, m, s) /\ isSite L i j k m) \/ (forall i j k m s, longOf w = Some (i, j, k, m, s) -> ~ isSite L i j k m)).
  { destruct (longOf w) as [[[[[i j] k] m] s]|]; [|right; discriminate]. assert (X : isSite L i j k m \/ ~ isSite L i j k m) by (unfold isSite; lia).
    destruct X; [left; exists i, j, k, m, s; auto|right]. intros ? ? ? ? ? Hx. injection Hx as <- <- <- <- <-. assumption. }
  destruct D as [(i & j & k & m & s & E & S0)|D].
  - destruct (setLong_ok L acc w i j k m s WF E S0 HL) as (acc' & A1 & A2). rewrite A1. cbn [MPy.obind]. destruct Hin as [->|Hin]; [exfalso; eapply Hb; eauto|]. eapply IH; eauto. rewrite (zset_len _ _ _ _ A2). exact HL.
  - rewrite (setLong_bad _ _ _ D). reflexivity.
Qed.

(** ** possible types *)
Lemma oall_strs names : oall (fun t => match t with VStr s => Ok s | _ => Raise KmcError end) (map VStr names) = Ok names.
Proof. induction names as [|s l IH]; [reflexivity|]. cbn [map oall]. rewrite IH. reflexivity. Qed.
Lemma oall_strs_inv l : forall names, oall (fun t => match t with VStr s => Ok s | _ => Raise KmcError end) l = Ok names -> l = map VStr names.
Proof.
  induction l as [|v l IH]; intros names H; cbn [oall] in H; [injection H as <-; reflexivity|]. destruct v; cbn [MPy.obind] in H; try discriminate. destruct (oall _ l) as [ns|e] eqn:E; cbn [MPy.obind] in H; [|discriminate]. injection H as <-. cbn [map]. rewrite (IH ns eq_refl). reflexivity.
Qed.
Lemma oall_strs_raise l e : oall (fun t => match t with VStr s => Ok s | _ => Raise KmcError end) l = Raise e -> e = KmcError.
Proof.
  induction l as [|v l IH]; intros H; cbn [oall] in H; [discriminate|]. destruct v; cbn [MPy.obind] in H; try congruence. destruct (oall _ l) as [ns|e'] eqn:E; cbn [MPy.obind] in H; [discriminate|]. injection H as <-. apply IH. reflexivity.
Qed.
Lemma existsb_str s l : existsb (String.eqb s) l = true <-> In s l.
Proof. rewrite existsb_exists. split; [intros (x & Hx & E); apply String.eqb_eq in E; subst; exact Hx|intros H; exists s; rewrite String.eqb_refl; auto]. Qed.
Lemma existsb_str_false s l : existsb (String.eqb s) l = false <-> ~ In s l.
Proof. rewrite <- existsb_str. destruct (existsb _ _); intuition congruence. Qed.
Lemma flat_strs names : flat_map (fun v => match v with VStr s => [s] | _ => [] end) (map VStr names) = names.
Proof. induction names as [|a l IH]; [reflexivity|]. cbn. rewrite IH. reflexivity. Qed.
Lemma sinsert_In {A} (lt : A -> A -> bool) a l x : In x (sinsert lt a l) <-> x = a \/ In x l.
Proof. induction l as [|b l IH]; cbn [sinsert In]; [intuition|]. destruct (lt b a); cbn [In]; rewrite ?IH; intuition. Qed.
Lemma sortedSet_In l s : In s (sortedSet l) <-> In s l.
Proof.
  unfold sortedSet. rewrite <- (nodup_In string_dec l s). generalize (nodup string_dec l) as m. induction m as [|a m IH]; [reflexivity|]. cbn [isort fold_right]. fold (isort String.ltb m). rewrite sinsert_In, IH. cbn [In]. intuition.
Qed.
Lemma sortedSet_NoDup l : NoDup (sortedSet l).
Proof. unfold sortedSet. eapply Permutation_NoDup; [apply Permutation_sym; apply isort_perm|]. apply NoDup_nodup. Qed.
Lemma possibleTypes_ok possible present : possibleFits possible present <-> possibleTypes possible (sortedSet present) = Ok (dictZip ("*" :: possibleNames possible present)).
Proof.
  unfold possibleTypes. split.
  - intros [[-> Hn]|(names & -> & Hs & Hi)]; cbn [MPy.obind possibleNames].
    + rewrite (proj2 (existsb_str_false _ _)) by (rewrite sortedSet_In; exact Hn). reflexivity.
    + rewrite oall_strs, flat_strs. assert (E : forallb (fun s => existsb (String.eqb s) names) (sortedSet present) = true) by (apply forallb_forall; intros x Hx; apply existsb_str, Hi; apply sortedSet_In; exact Hx). rewrite E. cbn [MPy.obind].
      rewrite (proj2 (existsb_str_false _ _)) by exact Hs. reflexivity.
  - destruct possible as [| | | | |l| |]; cbn [MPy.obind]; try discriminate.
    + destruct (existsb (String.eqb "*") (sortedSet present)) eqn:E; [discriminate|]. intros _. left. split; [reflexivity|]. apply existsb_str_false in E. rewrite sortedSet_In in E. exact E.
    + destruct (oall _ l) as [names|e] eqn:E; cbn [MPy.obind]; [|discriminate]. destruct (forallb _ (sortedSet present)) eqn:E2; cbn [MPy.obind]; [|discriminate]. destruct (existsb (String.eqb "*") names) eqn:E3; [discriminate|]. intros _.
      right. exists names. split; [f_equal; apply oall_strs_inv; exact E|]. split; [apply existsb_str_false; exact E3|]. intros x Hx. rewrite forallb_forall in E2. apply existsb_str, E2, sortedSet_In. exact Hx.
Qed.
Lemma possibleTypes_fail possible present : ~ possibleFits possible present -> possibleTypes possible (sortedSet present) = Raise KmcError.
Proof.
  intros H. unfold possibleTypes. destruct possible as [| | | | |l| |]; cbn [MPy.obind]; try reflexivity.
  - destruct (existsb (String.eqb "*") (sortedSet present)) eqn:E; [reflexivity|]. exfalso. apply H. left. split; [reflexivity|]. apply existsb_str_false in E. rewrite sortedSet_In in E. exact E.
  - destruct (oall _ l) as [names|e] eqn:E; cbn [MPy.obind]; [|apply oall_strs_raise in E; congruence]. destruct (forallb _ (sortedSet present)) eqn:E2; cbn [MPy.obind]; [|reflexivity]. destruct (existsb (String.eqb "*") names) eqn:E3; [reflexivity|]. exfalso. apply H.
    right. exists names. split; [f_equal; apply oall_strs_inv; exact E|]. split; [apply existsb_str_false; exact E3|]. intros x Hx. rewrite forallb_forall in E2. apply existsb_str, E2, sortedSet_In. exact Hx.
Qed.
Lemma possibleTypes_cases possible present pt : possibleTypes possible (sortedSet present) = Ok pt -> possibleFits possible present /\ pt = dictZip ("*" :: possibleNames possible present).
Proof.
  intros H. assert (D : possibleFits possible present \/ ~ possibleFits possible present).
  { destruct (possibleTypes possible (sortedSet present)) as [x|e] eqn:E; [|right; intros F; apply possibleTypes_ok in F; congruence]. left.
    unfold possibleTypes in E. apply possibleTypes_ok. unfold possibleTypes. destruct possible as [| | | | |l| |]; cbn [MPy.obind] in *; try discriminate.
    - destruct (existsb (String.eqb "*") (sortedSet present)) eqn:E1; [discriminate|]. reflexivity.
    - destruct (oall _ l) as [names|e] eqn:E1; cbn [MPy.obind] in *; [|discriminate]. destruct (forallb _ (sortedSet present)) eqn:E2; cbn [MPy.obind] in *; [|discriminate]. destruct (existsb (String.eqb "*") names) eqn:E3; [discriminate|].
      cbn [possibleNames]. apply oall_strs_inv in E1. rewrite E1, flat_strs. reflexivity. }
  destruct D as [D|D]; [|rewrite (possibleTypes_fail _ _ D) in H; discriminate]. split; [exact D|]. apply possibleTypes_ok in D. congruence.
Qed.

(** ** format detection *)
Lemma all_strs l : forallb instStr l = true -> exists names, l = map VStr names.
Proof. induction l as [|v l IH]; intros H; [exists []; reflexivity|]. cbn [forallb] in H. apply andb_true_iff in H. destruct H as [H1 H2]. destruct v; try discriminate. destruct (IH H2) as [names ->]. exists (s :: names). reflexivity. Qed.
Lemma strs_all names : forallb instStr (map VStr names) = true. Proof. induction names; auto. Qed.
Lemma longOf_shape v x : longOf v = Some x -> exists t, v = VTuple t /\ longShape t = Ok true.
Proof.
  destruct x as [[[[i j] k] m] s]. intros H. apply longOf_inv in H as (a & b & c & d & -> & Ea & Eb & Ec & Ed). eexists. split; [reflexivity|]. unfold longShape. cbn [zlen length]. change (combine (zrange 0 4) [a; b; c; d; VStr s]) with [(0, a); (1, b); (2, c); (3, d); (4, VStr s)]. unfold instInt. cbn [forallb fst snd]. change (5 <? zlen [a; b; c; d; VStr s]) with false. cbn iota. rewrite Ea, Eb, Ec, Ed. reflexivity.
Qed.
Lemma detect_long l es : l <> [] -> omap longOf l = Some es -> detectTypesFormat l = Ok Long.
Proof.
  intros Hne H. unfold detectTypesFormat. destruct l as [|v l]; [congruence|]. cbn [omap] in H. ob H as x E. ob H as es' E2. destruct (longOf_shape _ _ E) as (t & -> & HT). cbn [forallb instStr instTuple andb].
  assert (A : forallb instTuple l = true). { clear - E2. revert es' E2. induction l as [|v l IH]; intros es' H; [reflexivity|]. cbn [omap] in H. ob H as x E. ob H as es2 E3. destruct (longOf_shape _ _ E) as (t & -> & _). cbn [forallb instTuple andb]. eapply IH. eauto. }
  rewrite A, HT. reflexivity.
Qed.

(** ** the dict *)
Lemma dset_new m s v : ~ In s (map fst m) -> dset m s v = m ++ [(s, v)].
Proof.
  induction m as [|[k w] m IH]; intros H; [reflexivity|]. cbn [dset]. destruct (String.eqb_spec k s) as [->|]; [exfalso; apply H; left; reflexivity|]. cbn [app]. rewrite IH; [reflexivity|]. intros Hc. apply H. right. exact Hc.
Qed.
Lemma dictZip_nodup names : NoDup names -> dictZip names = combine names (zrange 0 (zlen names - 1)).
Proof.
  intros ND. unfold dictZip. assert (G : forall l m, NoDup (map fst (m ++ l)) -> fold_left (fun m kv => dset m (fst kv) (snd kv)) l m = m ++ l).
  { induction l as [|[s v] l IH]; intros m H; [rewrite app_nil_r; reflexivity|]. cbn [fold_left fst snd]. rewrite dset_new.
    - rewrite IH; [rewrite <- app_assoc; reflexivity|]. rewrite <- app_assoc. exact H.
    - rewrite map_app in H. cbn [map fst] in H. apply NoDup_remove_2 in H. intros Hc. apply H. apply in_or_app. left. exact Hc. }
  apply (G _ []). cbn [app]. assert (E : map fst (combine names (zrange 0 (zlen names - 1))) = names).
  { assert (GE : forall (a : list string) (b : list Z), (length a <= length b)%nat -> map fst (combine a b) = a) by (induction a as [|x a IHa]; intros [|y b] Hl; cbn in *; try lia; [reflexivity|reflexivity|]; rewrite IHa by lia; reflexivity).
    apply GE. pose proof (zlen_zrange 0 (zlen names - 1)) as Hz. unfold zlen in *. lia. }
  rewrite E. exact ND.
Qed.
Lemma combine_fst {A B} (a : list A) : forall b : list B, length a = length b -> map fst (combine a b) = a.
Proof. induction a as [|x a IH]; intros [|y b] H; cbn in *; try lia; [reflexivity|]. rewrite IH by lia. reflexivity. Qed.
Lemma combine_snd {A B} (a : list A) : forall b : list B, length a = length b -> map snd (combine a b) = b.
Proof. induction a as [|x a IH]; intros [|y b] H; cbn in *; try lia; [reflexivity|]. rewrite IH by lia. reflexivity. Qed.
Lemma combine_zget {A B} (a : list A) : forall (b : list B) i x y, zget a i = Some x -> zget b i = Some y -> zget (combine a b) i = Some (x, y).
Proof.
  induction a as [|u a IH]; intros [|v b] i x y; rewrite ?zget_nil; try discriminate. cbn [combine]. rewrite !zget_cons. destruct (i =? 0); [congruence|]. apply IH.
Qed.
Lemma zrange_length (names : list string) : length names = length (zrange 0 (zlen names - 1)).
Proof. pose proof (zlen_zrange 0 (zlen names - 1)) as H. unfold zlen in *. lia. Qed.
Lemma dictZip_wf names : NoDup ("*" :: names) -> wfPT (dictZip ("*" :: names)) /\ zlen (dictZip ("*" :: names)) = zlen names + 1 /\ (forall k s, zget ("*" :: names) k = Some s -> tfind (dictZip ("*" :: names)) s = Some k).
Proof.
  intros ND. rewrite dictZip_nodup by exact ND. set (l := "*" :: names) in *. pose proof (zrange_length l) as HL.
  assert (N1 : NoDup (map fst (combine l (zrange 0 (zlen l - 1))))) by (rewrite combine_fst by exact HL; exact ND).
  assert (N2 : zlen (combine l (zrange 0 (zlen l - 1))) = zlen l) by (assert (N0 : length (combine l (zrange 0 (zlen l - 1))) = length l) by (rewrite combine_length, <- HL; apply Nat.min_id); exact (f_equal Z.of_nat N0)).
  assert (F : forall k s, zget l k = Some s -> tfind (combine l (zrange 0 (zlen l - 1))) s = Some k).
  { intros k s E. apply In_tfind; [exact N1|]. eapply zget_In. apply combine_zget; [exact E|]. pose proof (zget_range _ _ _ E). rewrite zget_zrange by lia. try (f_equal; lia). }
  split; [|split].
  - split; [exact N1|]. split; [rewrite combine_snd by exact HL; rewrite N2; apply Permutation_refl|]. apply F. reflexivity.
  - rewrite N2. unfold l. rewrite zlen_cons. lia.
  - exact F.
Qed.

(** ** names repeated *)
Definition spread (ls : list (Z * string)) : list string := flat_map (fun ks => repeat (snd ks) (Z.to_nat (fst ks))) ls.
Lemma repeatName_ok r : forall ls, omap itemT r = Some ls -> exists rr, oall repeatName r = Ok rr /\ concat rr = spread ls.
Proof.
  induction r as [|t r IH]; intros ls H; cbn [omap] in H; [injection H as <-; exists []; auto|]. ob H as x E. destruct x as [k s]. ob H as ls' E2. injection H as <-. apply itemT_inv in E as (n & -> & En). destruct (IH _ E2) as (rr & R1 & R2).
  cbn [oall]. unfold repeatName at 1. cbn [fst_ MPy.obind]. rewrite En, R1. cbn [snd_ MPy.obind]. destruct (Z.leb_spec k 0); cbn [MPy.obind].
  - eexists. split; [reflexivity|]. unfold spread. cbn [concat flat_map fst snd app]. replace (Z.to_nat k) with 0%nat by lia. cbn [repeat app]. exact R2.
  - eexists. split; [reflexivity|]. unfold spread. cbn [concat flat_map fst snd]. rewrite R2. reflexivity.
Qed.
Lemma occurs_app s a b : occurs s (a ++ b) = occurs s a + occurs s b.
Proof. unfold occurs, zlen. rewrite filter_app, app_length. lia. Qed.
Lemma occurs_repeat s x n : occurs s (repeat x n) = if String.eqb x s then Z.of_nat n else 0.
Proof.
  unfold occurs. induction n as [|n IH]; cbn [repeat filter]; [destruct (String.eqb x s); reflexivity|]. rewrite (String.eqb_sym s x). destruct (String.eqb x s); [rewrite zlen_cons; lia|exact IH].
Qed.
Lemma occurs_spread s ls : (forall k x, In (k, x) ls -> 0 <= k) -> occurs s (spread ls) = countOf s ls.
Proof.
  induction ls as [|[k x] ls IH]; intros H; [reflexivity|]. unfold spread. cbn [flat_map fst snd]. fold (spread ls). rewrite occurs_app, occurs_repeat, countOf_cons, IH by (intros; eapply H; right; eauto). assert (0 <= k) by (eapply H; left; reflexivity). destruct (String.eqb x s); lia.
Qed.
Lemma count_occ_occurs s l : Z.of_nat (count_occ string_dec l s) = occurs s l.
Proof.
  unfold occurs. induction l as [|a l IH]; [reflexivity|]. cbn [count_occ filter]. destruct (string_dec a s) as [->|Hn].
  - rewrite String.eqb_refl, zlen_cons. lia.
  - destruct (String.eqb_spec s a); [congruence|exact IH].
Qed.
Lemma occurs_perm a b : (forall s, occurs s a = occurs s b) -> Permutation a b.
Proof. intros H. apply (Permutation_count_occ string_dec). intros s. specialize (H s). rewrite <- !count_occ_occurs in H. lia. Qed.
Lemma occurs_perm_inv a b s : Permutation a b -> occurs s a = occurs s b.
Proof. intros H. rewrite <- !count_occ_occurs. f_equal. apply (Permutation_count_occ string_dec). exact H. Qed.
Lemma countOf_ones s l : countOf s (map (fun x => (1, x)) l) = occurs s l.
Proof. unfold occurs. induction l as [|a l IH]; [reflexivity|]. cbn [map filter]. rewrite countOf_cons, IH, (String.eqb_sym s a). destruct (String.eqb a s); [rewrite zlen_cons; lia|lia]. Qed.
Lemma shortSite_strs e : omap itemT (shortSite (VList (map VStr e))) = Some (map (fun x => (1, x)) e).
Proof. cbn [shortSite]. induction e as [|s e IH]; [reflexivity|]. cbn [map flat_map app omap]. rewrite IH. reflexivity. Qed.
Lemma firsts_spread ls : NoDup (map snd ls) -> (forall k x, In (k, x) ls -> 0 < k) -> firsts (spread ls) = map snd ls.
Proof.
  induction ls as [|[k s] ls IH]; intros ND HP; [reflexivity|]. cbn [map snd] in ND. inversion ND as [|? ? Hn ND']; subst. unfold spread. cbn [flat_map fst snd map]. fold (spread ls). assert (0 < k) by (eapply HP; left; reflexivity).
  assert (HI : forall x, In x (spread ls) -> In x (map snd ls)). { intros x Hx. unfold spread in Hx. apply in_flat_map in Hx. destruct Hx as ([k' x'] & Hin & Hr). apply repeat_spec in Hr. cbn in Hr. subst x'. apply in_map_iff. exists (k', x). auto. }
  specialize (IH ND' ltac:(intros; eapply HP; right; eauto)).
  assert (G : forall n, filter (fun b => negb (String.eqb s b)) (firsts (repeat s n ++ spread ls)) = map snd ls).
  { induction n as [|n IHn]; cbn [repeat app].
    - rewrite IH. apply filter_all. intros b Hb. destruct (String.eqb_spec s b) as [->|]; [contradiction|reflexivity].
    - cbn [firsts filter]. rewrite String.eqb_refl. cbn [negb]. rewrite (filter_all _ (filter _ _)); [exact IHn|]. intros b Hb. apply filter_In in Hb. apply Hb. }
  destruct (Z.to_nat k) as [|n] eqn:Ek; [lia|]. cbn [repeat app firsts]. f_equal. apply G.
Qed.
Lemma totals_spread ls : NoDup (map snd ls) -> (forall k x, In (k, x) ls -> 0 < k) -> totals (map (fun x => (1, x)) (spread ls)) = ls.
Proof.
  intros ND HP. unfold totals. rewrite map_map. cbn [snd]. rewrite map_id, firsts_spread by assumption.
  assert (E : forall s, countOf s (map (fun x => (1, x)) (spread ls)) = countOf s ls). { intros s. rewrite countOf_ones. apply occurs_spread. intros k x Hin. specialize (HP k x Hin). lia. }
  rewrite (map_ext _ (fun s => (countOf s ls, s))) by (intros; rewrite E; reflexivity). clear E HP. revert ND. induction ls as [|[k s] ls IH]; intros ND; [reflexivity|]. cbn [map snd] in *. inversion ND as [|? ? Hn ND']; subst. f_equal.
  - rewrite countOf_cons, String.eqb_refl, countOf_none by exact Hn. f_equal. lia.
  - rewrite <- (IH ND') at 2. apply map_ext_in. intros a Ha. rewrite countOf_cons. destruct (String.eqb_spec s a) as [->|]; [contradiction|reflexivity].
Qed.
(** ** the occupation given by a list of names *)
Lemma bucketOf_some pt size els : (forall s, In s els -> exists k, tfind pt s = Some k /\ 0 <= k < size) -> exists b, bucketOf pt size els = Some b.
Proof.
  intros H. unfold bucketOf. assert (G : forall tb, zlen tb = Z.max 0 size -> exists b, ofold (fun tb e => t <- tfind pt e ;; v <- zget tb t ;; zset tb t (v + 1)) els tb = Some b).
  { induction els as [|e els IH]; intros tb HL; [eexists; reflexivity|]. cbn [ofold]. destruct (H e (or_introl eq_refl)) as (k & Ek & Rk). rewrite Ek. cbn [obind]. destruct (zget_lt tb k) as [v Ev]; [lia|]. rewrite Ev. cbn [obind].
    destruct (zset_Some tb k (v + 1)) as [tb' E]; [lia|]. rewrite E. cbn [obind]. apply IH; [intros s Hs; apply H; right; exact Hs|]. rewrite (zset_len _ _ _ _ E). exact HL. }
  apply G. unfold zlen. rewrite repeat_length. lia.
Qed.
Lemma bucketOf_known pt size els b : bucketOf pt size els = Some b -> forall s, In s els -> exists k, tfind pt s = Some k /\ 0 <= k < size.
Proof.
  unfold bucketOf. assert (G : forall els tb b, zlen tb = Z.max 0 size -> ofold (fun tb e => t <- tfind pt e ;; v <- zget tb t ;; zset tb t (v + 1)) els tb = Some b -> forall s, In s els -> exists k, tfind pt s = Some k /\ 0 <= k < size).
  { induction els0 as [|e els' IH]; intros tb b' HL H s Hin; [destruct Hin|]. cbn [ofold] in H. ob H as tb' E. ob E as k Ek. ob E as v Ev. destruct Hin as [<-|Hin].
    - exists k. split; [exact Ek|]. apply zget_range in Ev. lia.
    - eapply IH; [|exact H|exact Hin]. rewrite (zset_len _ _ _ _ E). exact HL. }
  apply G. unfold zlen. rewrite repeat_length. lia.
Qed.
Lemma zget_ext {A} (l m : list A) : zlen l = zlen m -> (forall i, zget l i = zget m i) -> l = m.
Proof.
  revert m. induction l as [|a l IH]; intros [|b m] HL H; rewrite ?zlen_cons in HL; try reflexivity.
  - pose proof (zlen_nonneg m). change (zlen (@nil A)) with 0 in HL. lia.
  - pose proof (zlen_nonneg l). change (zlen (@nil A)) with 0 in HL. lia.
  - pose proof (H 0) as H0. rewrite !zget_cons in H0. cbn in H0. injection H0 as ->. f_equal. apply IH; [lia|]. intros i. destruct (Z.ltb_spec i 0) as [Hi|Hi]; [unfold zget; destruct (Z.ltb_spec i 0); [reflexivity|lia]|].
    specialize (H (i + 1)). rewrite !zget_cons in H. destruct (Z.eqb_spec (i + 1) 0); [lia|]. replace (i + 1 - 1) with i in H by lia. exact H.
Qed.
Lemma wfPT_name pt k : wfPT pt -> 0 <= k < zlen pt -> exists s, tfind pt s = Some k.
Proof.
  intros (ND & HP & _) Hk. assert (Hin : In k (map snd pt)) by (eapply Permutation_in; [apply Permutation_sym; exact HP|]; apply In_zrange; lia). apply in_map_iff in Hin. destruct Hin as ([s j] & E & Hin). cbn in E. subst j. exists s. apply In_tfind; assumption.
Qed.
Lemma bucketOf_unique pt els b : wfPT pt -> zlen b = zlen pt -> (forall s, In s els -> exists k, tfind pt s = Some k) -> (forall s k n, tfind pt s = Some k -> zget b k = Some n -> n = occurs s els) -> bucketOf pt (zlen pt) els = Some b.
Proof.
  intros WP HL HK HN. destruct (bucketOf_some pt (zlen pt) els) as [b' E]. { intros s Hs. destruct (HK s Hs) as [k Ek]. exists k. split; [exact Ek|]. eapply tfind_range; eauto. }
  rewrite E. f_equal. pose proof (bucketOf_len _ _ _ _ E) as BL. pose proof (zlen_nonneg pt). apply zget_ext; [lia|]. intros i. destruct (Z.ltb_spec i 0) as [Hi|Hi]; [unfold zget; destruct (Z.ltb_spec i 0); [reflexivity|lia]|].
  destruct (Z.ltb_spec i (zlen pt)) as [Hi2|Hi2].
  - destruct (zget_lt b' i) as [n En]; [lia|]. destruct (zget_lt b i) as [m Em]; [lia|]. destruct (wfPT_name pt i WP ltac:(lia)) as [s Es]. rewrite En, Em. f_equal. rewrite (HN s i m Es Em). exact (bucketOf_count _ _ _ _ WP E s i n Es En).
  - rewrite !(proj2 (zget_None _ _)) by lia. reflexivity.
Qed.
Lemma bucketOf_perm pt els els' : wfPT pt -> Permutation els els' -> bucketOf pt (zlen pt) els = bucketOf pt (zlen pt) els'.
Proof.
  intros WP HP. assert (G : forall a b r, Permutation a b -> bucketOf pt (zlen pt) a = Some r -> bucketOf pt (zlen pt) b = Some r).
  { intros a b r P E. apply bucketOf_unique; [exact WP|rewrite (bucketOf_len _ _ _ _ E); apply Z.max_r, zlen_nonneg| |].
    - intros s Hs. eapply Permutation_in in Hs; [|apply Permutation_sym; exact P]. destruct (bucketOf_known _ _ _ _ E s Hs) as (k & Ek & _). eauto.
    - intros s k n Es En. rewrite (bucketOf_count _ _ _ _ WP E s k n Es En). symmetry. apply (occurs_perm_inv b a s). apply Permutation_sym. exact P. }
  destruct (bucketOf pt (zlen pt) els) as [r|] eqn:E; [symmetry; eapply G; eauto|]. destruct (bucketOf pt (zlen pt) els') as [r|] eqn:E'; [|reflexivity]. rewrite (G els' els r (Permutation_sym HP) E') in E. discriminate.
Qed.
Lemma oall_inv {A B} (f : A -> outcome B) l : forall r, oall f l = Ok r -> forall a, In a l -> exists b, f a = Ok b /\ In b r.
Proof.
  induction l as [|x l IH]; intros r H a Ha; [destruct Ha|]. cbn [oall] in H. destruct (f x) as [b|e] eqn:E; cbn [MPy.obind] in H; [|discriminate]. destruct (oall f l) as [bs|e] eqn:E2; cbn [MPy.obind] in H; [|discriminate]. injection H as <-.
  destruct Ha as [<-|Ha]; [exists b; split; [exact E|left; reflexivity]|]. destruct (IH bs eq_refl a Ha) as (b' & H1 & H2). exists b'. split; [exact H1|right; exact H2].
Qed.
(** the types from which the dict is made *)
Lemma KMCConfiguration_possible u L types default possible c : KMCConfiguration u L types default possible = Ok c ->
  exists present, possibleFits possible present /\ kc_possible c = dictZip ("*" :: possibleNames possible present) /\ forall s, presentIn c s -> In s present.
Proof.
  intros H. destruct types as [| | | | |l| |]; try discriminate. cbn [KMCConfiguration] in H. destruct (detectTypesFormat l) as [[]|e]; cbn [MPy.obind] in H; try discriminate.
  - destruct default; try discriminate. destruct (checkTypes l (nsites L)) as [ts|e]; cbn [MPy.obind] in H; [|discriminate]. destruct (possibleTypes possible (sortedSet ts)) as [pt|e] eqn:E; cbn [MPy.obind] in H; [|discriminate]. injection H as <-.
    apply possibleTypes_cases in E. exists ts. destruct E as [E1 E2]. split; [exact E1|]. split; [exact E2|]. intros s Hs. exact Hs.
  - destruct (longTypes L l default) as [ts|e]; cbn [MPy.obind] in H; [|discriminate]. destruct (possibleTypes possible (sortedSet ts)) as [pt|e] eqn:E; cbn [MPy.obind] in H; [|discriminate]. injection H as <-.
    apply possibleTypes_cases in E. exists ts. destruct E as [E1 E2]. split; [exact E1|]. split; [exact E2|]. intros s Hs. exact Hs.
  - destruct default; try discriminate. destruct (oall (normaliseEntry u) l) as [ts|e]; cbn [MPy.obind] in H; [|discriminate]. destruct (bucketNames ts) as [ns|e] eqn:EN; cbn [MPy.obind] in H; [|discriminate]. destruct (possibleTypes possible (sortedSet ns)) as [pt|e] eqn:E; cbn [MPy.obind] in H; [|discriminate]. injection H as <-.
    apply possibleTypes_cases in E. exists ns. destruct E as [E1 E2]. split; [exact E1|]. split; [exact E2|]. intros s (b & t & Hb & Ht & E3). unfold bucketNames in EN.
    destruct (oall_inv _ _ _ EN t) as (x & X1 & X2); [apply in_concat; eauto|]. destruct t as [|a [|b' t]]; cbn in E3; try discriminate. injection E3 as ->. cbn in X1. injection X1 as <-. exact X2.
Qed.
