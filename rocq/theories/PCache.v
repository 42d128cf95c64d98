(** Proofs: the rate cache is transparent. *)
From Verif Require Import PBase SModel SGeo SEvent SBuild SPlain SStep SBucket SCache PLattice PProcess PMpi PRateTable PMatcher PPerform PStep PGeo PPossible PRun PEffect PEvent PBuild PPlain PStepInv PRates.
Open Scope Z_scope.
Open Scope list_scope.

(** ** the processes without caching do the same *)
Lemma uncached_get it i : zget (in_procs (uncached it)) i = option_map uncache (zget (in_procs it) i).
Proof. unfold uncached. cbn [set_procs in_procs]. apply zget_map. Qed.
Lemma zset_map {A B} (f : A -> B) l i a : zset (map f l) i (f a) = option_map (map f) (zset l i a).
Proof.
  unfold zset. rewrite zlen_map. destruct ((0 <=? i) && (i <? zlen l)); [|reflexivity]. cbn [option_map]. f_equal.
  generalize (Z.to_nat i). induction l as [|b l IH]; intros [|n]; cbn [upd_nat map]; try reflexivity. rewrite IH. reflexivity.
Qed.
Lemma pairsOf_uncached L ps x : pairsOf L (map uncache ps) x = pairsOf L ps x.
Proof.
  unfold pairsOf. rewrite zlen_map. generalize (zrange 0 (zlen ps - 1)). induction ps as [|p ps IH]; intros [|j l]; try reflexivity. cbn [map combine filter]. cbn [snd uncache pr_basis].
  destruct (zmem _ _); cbn [map]; rewrite IH; reflexivity.
Qed.
Lemma maxRange_uncached it : maxRange (uncached it) = maxRange it.
Proof. unfold maxRange, uncached. cbn [set_procs in_procs]. generalize 1. induction (in_procs it) as [|p ps IH]; intros m; [reflexivity|]. cbn [map fold_left]. apply IH. Qed.
Lemma totals_uncached ps : map pr_total (map uncache ps) = map pr_total ps.
Proof. rewrite map_map. reflexivity. Qed.
Lemma probTable_uncached ps : forall m, probTable m (map uncache ps) = probTable m ps.
Proof. induction ps as [|p ps IH]; intros m; [reflexivity|]. cbn [map probTable]. rewrite IH. reflexivity. Qed.
Lemma removeSite_uncached p x : removeSite (uncache p) x = option_map uncache (removeSite p x).
Proof.
  unfold removeSite. cbn [uncache pr_sites pr_custom pr_srates pr_mult]. destruct (swapRemove (pr_sites p) _) as [rs|]; [|reflexivity]. cbn [obind]. destruct (pr_custom p).
  - destruct (swapRemove (pr_srates p) _) as [rr|]; [|reflexivity]. cbn [obind]. destruct (swapRemove (pr_mult p) _) as [rm|]; reflexivity.
  - destruct (swapRemove (pr_mult p) _) as [rm|]; reflexivity.
Qed.
Lemma addSite_uncached p x r m : addSite (uncache p) x r m = uncache (addSite p x r m).
Proof. unfold addSite. cbn [uncache pr_custom]. destruct (pr_custom p); reflexivity. Qed.
Lemma modifyProc_uncached it i f g : (forall p, g (uncache p) = option_map uncache (f p)) -> modifyProc (uncached it) i g = option_map uncached (modifyProc it i f).
Proof.
  intros H. unfold modifyProc. rewrite uncached_get. destruct (zget (in_procs it) i) as [p|]; [|reflexivity]. cbn [option_map obind]. rewrite H. destruct (f p) as [p'|]; [|reflexivity]. cbn [option_map obind].
  unfold uncached at 1. cbn [set_procs in_procs]. rewrite zset_map. destruct (zset (in_procs it) i p') as [ps|]; reflexivity.
Qed.
Definition ust (st : interactions * list (list bool)) := (uncached (fst st), snd st).
Lemma ofold_sim {A B C} (h : A -> C) (f : A -> B -> option A) (g : C -> B -> option C) l : (forall a b, g (h a) b = option_map h (f a b)) ->
  forall a, ofold g l (h a) = option_map h (ofold f l a).
Proof. intros H. induction l as [|b l IH]; intros a; [reflexivity|]. cbn [ofold]. rewrite H. destruct (f a b); cbn [option_map obind]; auto. Qed.
Lemma remove_uncached rem it inv : ofold doRemove rem (uncached it, inv) = option_map ust (ofold doRemove rem (it, inv)).
Proof.
  apply (ofold_sim ust doRemove doRemove rem) with (a := (it, inv)). intros [it0 inv0] [x i]. cbn [ust fst snd doRemove]. rewrite (modifyProc_uncached it0 i (fun p => removeSite p x)) by (intros p; apply removeSite_uncached).
  destruct (modifyProc it0 i _) as [it1|]; [|reflexivity]. cbn [option_map obind]. destruct (setInv inv0 x i false) as [inv1|]; reflexivity.
Qed.
Lemma update_uncached upd it : ofold doUpdate upd (uncached it) = option_map uncached (ofold doUpdate upd it).
Proof.
  apply (ofold_sim uncached doUpdate doUpdate upd). intros it0 t. unfold doUpdate. apply modifyProc_uncached.
  intros p. rewrite removeSite_uncached. destruct (removeSite p _) as [p'|]; [|reflexivity]. cbn [option_map obind]. rewrite addSite_uncached. reflexivity.
Qed.
Lemma add_uncached add it inv : ofold doAdd add (uncached it, inv) = option_map ust (ofold doAdd add (it, inv)).
Proof.
  apply (ofold_sim ust doAdd doAdd add) with (a := (it, inv)). intros [it0 inv0] t. cbn [ust fst snd doAdd].
  rewrite (modifyProc_uncached it0 (rt_process t) (fun p => Some (addSite p (rt_index t) (rt_rate t) 1))) by (intros p; rewrite addSite_uncached; reflexivity).
  destruct (modifyProc it0 _ _) as [it1|]; [|reflexivity]. cbn [option_map obind]. destruct (setInv inv0 (rt_index t) (rt_process t) true) as [inv1|]; reflexivity.
Qed.
Lemma updateProcesses_uncached m rt rem upd add it :
  updateProcesses (set_rt m rt) rem upd add (uncached it) = option_map (fun r => (set_rt (fst r) rt, uncached (snd r))) (updateProcesses m rem upd add it).
Proof.
  unfold updateProcesses. cbn [set_rt mt_inv]. rewrite remove_uncached. destruct (ofold doRemove rem (it, mt_inv m)) as [[it1 inv1]|]; [|reflexivity]. cbn [option_map obind ust fst snd].
  rewrite update_uncached. destruct (ofold doUpdate upd it1) as [it2|]; [|reflexivity]. cbn [option_map obind]. rewrite add_uncached. destruct (ofold doAdd add (it2, inv1)) as [[it3 inv3]|]; reflexivity.
Qed.
Lemma omap_same {A B} (f g : A -> option B) l : (forall a, f a = g a) -> omap f l = omap g l.
Proof. intros H. induction l as [|a l IH]; [reflexivity|]. cbn [omap]. rewrite H, IH. reflexivity. Qed.
Lemma ofold_ext {A B} (f g : A -> B -> option A) l : (forall a b, f a b = g a b) -> forall a, ofold f l a = ofold g l a.
Proof. intros H. induction l as [|b l IH]; intros a; [reflexivity|]. cbn [ofold]. rewrite H. destruct (g a b); cbn [obind]; auto. Qed.
Lemma match_uncached S m rt pairs it cf : 1 <= mt_ranks m ->
  matchIndicesWithProcesses S (set_rt m rt) pairs (uncached it) cf = matchIndicesWithProcesses S m pairs it cf.
Proof.
  intros Hr. unfold matchIndicesWithProcesses. cbn [set_rt mt_ranks]. rewrite !mpiMap_omap by exact Hr.
  rewrite (omap_same (taskType S (set_rt m rt) (uncached it) cf) (taskType S m it cf)).
  - destruct (omap _ pairs) as [types|]; [|reflexivity]. cbn [obind]. apply ofold_ext. intros [[rem upd] add] [[x i] ty]. unfold collectTask. destruct (ty =? 1); [reflexivity|].
    destruct ((ty =? 2) || (ty =? 3)); [|reflexivity]. rewrite uncached_get. destruct (zget (in_procs it) i) as [p|]; reflexivity.
  - intros [x i]. unfold taskType. rewrite uncached_get. cbn [set_rt mt_inv]. destruct (zget (in_procs it) i) as [p|]; reflexivity.
Qed.

(** ** the rates of a round *)
Definition rateTask (it : interactions) (cf : config) (t : ratetask) : option ratetask :=
  p <- zget (in_procs it) (rt_process t) ;;
  d <- hashData cf p (rt_index t) ;;
  r <- updateSingleRate cf (in_rc it) p (rt_index t) ;;
  Some (set_rate t r).
(** what the table answers is what would be calculated *)
Definition hitsOK (m : matcher) (it : interactions) (cf : config) (ts : list ratetask) : Prop :=
  forall t p d r, In t ts -> zget (in_procs it) (rt_process t) = Some p -> hashData cf p (rt_index t) = Some d -> rtRetrieve (mt_rt m) (mt_hash m d) = Some r ->
    updateSingleRate cf (in_rc it) p (rt_index t) = Some r.

Lemma lookup_spec m it cf t p d : zget (in_procs it) (rt_process t) = Some p -> hashData cf p (rt_index t) = Some d ->
  lookupTask m it cf t = Some (t, mt_hash m d, rtRetrieve (mt_rt m) (mt_hash m d), pr_number p).
Proof.
  intros Ep Ed. unfold lookupTask, hashCustomRateInput. rewrite Ep. cbn [obind]. rewrite Ed. cbn [obind].
  destruct (rtStored_spec (mt_rt m) (mt_hash m d)) as [(A & B & _)|(tb & v & A & B & _)].
  - rewrite A, B. reflexivity.
  - rewrite B. apply Z.eqb_neq in A. rewrite A. reflexivity.
Qed.
Lemma lookup_inv m it cf t x : lookupTask m it cf t = Some x -> exists p d, zget (in_procs it) (rt_process t) = Some p /\ hashData cf p (rt_index t) = Some d /\
  x = (t, mt_hash m d, rtRetrieve (mt_rt m) (mt_hash m d), pr_number p).
Proof.
  intros H. destruct (zget (in_procs it) (rt_process t)) as [p|] eqn:Ep; [|unfold lookupTask in H; rewrite Ep in H; discriminate].
  destruct (hashData cf p (rt_index t)) as [d|] eqn:Ed; [|unfold lookupTask, hashCustomRateInput in H; rewrite Ep in H; cbn [obind] in H; rewrite Ed in H; discriminate].
  rewrite (lookup_spec _ _ _ _ _ _ Ep Ed) in H. exists p, d. split; [reflexivity|]. split; [exact Ed|]. congruence.
Qed.
Lemma omap_app {A B} (f : A -> option B) l m : omap f (l ++ m) = (a <- omap f l ;; b <- omap f m ;; Some (a ++ b)).
Proof.
  induction l as [|x l IH]; cbn [app omap]; [cbn [obind]; destruct (omap f m); reflexivity|]. destruct (f x) as [y|]; [|reflexivity]. cbn [obind]. rewrite IH.
  destruct (omap f l) as [a|]; [|reflexivity]. cbn [obind]. destruct (omap f m); reflexivity.
Qed.
(** forwards: from the tasks of a round to the tasks with their rates *)
Lemma fill_fwd m it cf ts : hitsOK m it cf ts -> forall xs rs rest, omap (lookupTask m it cf) ts = Some xs -> omap (taskRate it cf) (filter isMiss xs) = Some rs ->
  exists fs, omap (rateTask it cf) ts = Some fs /\ fillRates xs (rs ++ rest) = Some (fs, rest).
Proof.
  induction ts as [|t ts IH]; intros HH xs rs rest Ex Er.
  - inversion Ex; subst. inversion Er; subst. exists []. split; reflexivity.
  - cbn [omap] in Ex. ob Ex as x Ex1. ob Ex as xs' Ex2. inversion Ex; subst xs; clear Ex. destruct (lookup_inv _ _ _ _ _ Ex1) as (p & d & Ep & Ed & ->).
    assert (HH' : hitsOK m it cf ts) by (intros t' p' d' r' Hi; apply HH; right; exact Hi).
    cbn [filter isMiss] in Er. cbn [omap]. unfold rateTask at 1. rewrite Ep. cbn [obind]. rewrite Ed. cbn [obind]. destruct (rtRetrieve (mt_rt m) (mt_hash m d)) as [r|] eqn:E.
    + rewrite (HH t p d r (or_introl eq_refl) Ep Ed E). cbn [obind]. destruct (IH HH' _ _ rest Ex2 Er) as (fs & F1 & F2). exists (set_rate t r :: fs). rewrite F1. split; [reflexivity|]. cbn [fillRates]. rewrite F2. reflexivity.
    + cbn [omap] in Er. ob Er as r Er1. ob Er as rs' Er2. inversion Er; subst rs; clear Er. cbn [taskRate] in Er1. rewrite Ep in Er1. cbn [obind] in Er1. rewrite Er1. cbn [obind].
      destruct (IH HH' _ _ rest Ex2 Er2) as (fs & F1 & F2). exists (set_rate t r :: fs). rewrite F1. split; [reflexivity|]. cbn [app fillRates]. rewrite F2. reflexivity.
Qed.
Lemma fill_bwd m it cf ts : forall fs, omap (rateTask it cf) ts = Some fs ->
  exists xs rs, omap (lookupTask m it cf) ts = Some xs /\ omap (taskRate it cf) (filter isMiss xs) = Some rs.
Proof.
  induction ts as [|t ts IH]; intros fs H; [exists [], []; split; reflexivity|]. cbn [omap] in H. ob H as f Ef. ob H as fs' Efs. destruct (IH _ Efs) as (xs & rs & A & B).
  unfold rateTask in Ef. ob Ef as p Ep. ob Ef as d Ed. ob Ef as r Er. cbn [omap]. rewrite (lookup_spec m _ _ _ _ _ Ep Ed). cbn [obind]. rewrite A. cbn [obind]. exists ((t, mt_hash m d, rtRetrieve (mt_rt m) (mt_hash m d), pr_number p) :: xs).
  destruct (rtRetrieve (mt_rt m) (mt_hash m d)) as [v|] eqn:E; [exists rs|exists (r :: rs)]; (split; [reflexivity|]); cbn [filter isMiss]; [exact B|].
  cbn [omap taskRate]. rewrite Ep. cbn [obind]. rewrite Er. cbn [obind]. rewrite B. reflexivity.
Qed.
Lemma store_total it l : numbered it -> (forall x, In x l -> exists p, zget (in_procs it) (snd (fst x)) = Some p) -> forall rt, rtInv rt ->
  exists rt', ofold (storeRate it) l rt = Some rt'.
Proof.
  intros HN. induction l as [|[[[[t k] o] n] v] l IH]; intros HL rt HI; [exists rt; reflexivity|]. cbn [ofold]. destruct (HL _ (or_introl eq_refl)) as [p Ep]. cbn [fst snd] in Ep. cbn [storeRate]. rewrite Ep. cbn [obind].
  assert (HL' : forall x, In x l -> exists p, zget (in_procs it) (snd (fst x)) = Some p) by (intros x Hx; apply HL; right; exact Hx).
  destruct (pr_cache p); [|cbn [obind]; apply IH; assumption]. destruct (rtStore_spec rt k v HI) as (rt1 & E1 & HI1 & _). rewrite E1. cbn [obind]. apply IH; assumption.
Qed.
Lemma custom_fwd m it cf upd add m' fu fa : 1 <= mt_ranks m -> hitsOK m it cf (upd ++ add) -> customRates m it cf upd add = Some (m', fu, fa) ->
  omap (rateTask it cf) upd = Some fu /\ omap (rateTask it cf) add = Some fa /\ exists rt, m' = set_rt m rt.
Proof.
  intros Hr HH H. assert (Hu : hitsOK m it cf upd) by (intros t p d r Hi; apply HH, in_or_app; auto). assert (Ha : hitsOK m it cf add) by (intros t p d r Hi; apply HH, in_or_app; auto).
  unfold customRates in H. ob H as xa Ea. ob H as xu Eu. cbv zeta in H. rewrite mpiMap_omap in H by exact Hr.
  change (fun x : ratetask * Z * option Z * Z => let '(t, _, _, _) := x in p <- zget (in_procs it) (rt_process t) ;; updateSingleRate cf (in_rc it) p (rt_index t)) with (taskRate it cf) in H.
  rewrite omap_app in H. destruct (omap (taskRate it cf) (filter isMiss xa)) as [ra|] eqn:Era; [|discriminate]. cbn [obind] in H.
  destruct (omap (taskRate it cf) (filter isMiss xu)) as [ru|] eqn:Eru; [|discriminate]. cbn [obind] in H.
  destruct (fill_fwd _ _ _ _ Ha _ _ ru Ea Era) as (fs & F1 & F2). rewrite F2 in H. cbn [obind snd] in H.
  destruct (fill_fwd _ _ _ _ Hu _ _ [] Eu Eru) as (fs' & F3 & F4). rewrite app_nil_r in F4. rewrite F4 in H. cbn [obind fst snd] in H. ob H as rt Ert. inversion H; subst. eauto.
Qed.
Lemma custom_bwd m it cf upd add fu fa : 1 <= mt_ranks m -> rtInv (mt_rt m) -> numbered it -> hitsOK m it cf (upd ++ add) ->
  omap (rateTask it cf) upd = Some fu -> omap (rateTask it cf) add = Some fa -> exists rt, customRates m it cf upd add = Some (set_rt m rt, fu, fa).
Proof.
  intros Hr HI HN HH Gu Ga. assert (Hu : hitsOK m it cf upd) by (intros t p d r Hi; apply HH, in_or_app; auto). assert (Ha : hitsOK m it cf add) by (intros t p d r Hi; apply HH, in_or_app; auto).
  destruct (fill_bwd m _ _ _ _ Gu) as (xu & ru & Eu & Eru). destruct (fill_bwd m _ _ _ _ Ga) as (xa & ra & Ea & Era).
  unfold customRates. rewrite Ea. cbn [obind]. rewrite Eu. cbn [obind]. cbv zeta. rewrite mpiMap_omap by exact Hr.
  change (fun x : ratetask * Z * option Z * Z => let '(t, _, _, _) := x in p <- zget (in_procs it) (rt_process t) ;; updateSingleRate cf (in_rc it) p (rt_index t)) with (taskRate it cf).
  rewrite omap_app, Era. cbn [obind]. rewrite Eru. cbn [obind].
  destruct (fill_fwd _ _ _ _ Ha _ _ ru Ea Era) as (fs & F1 & F2). rewrite F2. cbn [obind snd].
  destruct (fill_fwd _ _ _ _ Hu _ _ [] Eu Eru) as (fs' & F3 & F4). rewrite app_nil_r in F4. rewrite F4. cbn [obind fst snd].
  destruct (store_total it (combine (filter isMiss xa ++ filter isMiss xu) (ra ++ ru)) HN) with (rt := mt_rt m) as [rt Ert]; [|exact HI|].
  - intros [x r] Hx. apply in_combine_l in Hx. cbn [fst].
    assert (Hl : exists t, lookupTask m it cf t = Some x).
    { apply in_app_or in Hx. destruct Hx as [Hx|Hx]; apply filter_In in Hx; destruct Hx as [Hx _]; [destruct (omap_In _ _ _ _ Ea Hx) as (t & _ & E)|destruct (omap_In _ _ _ _ Eu Hx) as (t & _ & E)]; eauto. }
    destruct Hl as [t Hl]. destruct (lookup_inv _ _ _ _ _ Hl) as (p & d & Ep & _ & ->). cbn [snd]. exists p. rewrite (HN _ _ Ep). exact Ep.
  - rewrite Ert. cbn [obind]. exists rt. congruence.
Qed.

(** ** one round *)
Lemma numbered_uncached it : numbered it -> numbered (uncached it).
Proof. intros H i p E. rewrite uncached_get in E. destruct (zget (in_procs it) i) as [q|] eqn:Eq; [|discriminate]. inversion E; subst. exact (H _ _ Eq). Qed.
Lemma rateTask_uncached it cf t : rateTask (uncached it) cf t = rateTask it cf t.
Proof. unfold rateTask. rewrite uncached_get. destruct (zget (in_procs it) (rt_process t)) as [p|]; reflexivity. Qed.
Lemma hits_empty m it cf ts : hitsOK (set_rt m rtEmpty) it cf ts.
Proof. intros t p d r _ _ _ H. exfalso. apply rtRetrieve_has in H. exact (rtEmpty_has _ _ H). Qed.
Lemma store_none it l : (forall i p, zget (in_procs it) i = Some p -> pr_cache p = false) -> forall rt rt', ofold (storeRate it) l rt = Some rt' -> rt' = rt.
Proof.
  intros HN. induction l as [|[[[[t k] o] n] v] l IH]; intros rt rt' H; [inversion H; reflexivity|]. cbn [ofold storeRate] in H. ob H as rt1 E. ob E as p Ep. rewrite (HN _ _ Ep) in E. inversion E; subst. eauto.
Qed.
Lemma uncached_none it i p : zget (in_procs (uncached it)) i = Some p -> pr_cache p = false.
Proof. rewrite uncached_get. destruct (zget (in_procs it) i); [|discriminate]. intros E. inversion E. reflexivity. Qed.
Lemma custom_plain m it cf upd add m' fu fa : customRates (set_rt m rtEmpty) (uncached it) cf upd add = Some (m', fu, fa) -> m' = set_rt m rtEmpty.
Proof.
  intros H. unfold customRates in H. ob H as xa Ea. ob H as xu Eu. cbv zeta in H. ob H as rates Er. ob H as fa' Efa. ob H as fu' Efu. ob H as rt Ert. inversion H; subst. apply store_none in Ert; [|apply uncached_none]. rewrite Ert. reflexivity.
Qed.
Lemma customPlain_total m it cf upd add fu fa : 1 <= mt_ranks m -> numbered it -> rtInv rtEmpty ->
  omap (rateTask it cf) upd = Some fu -> omap (rateTask it cf) add = Some fa -> customRates (set_rt m rtEmpty) (uncached it) cf upd add = Some (set_rt m rtEmpty, fu, fa).
Proof.
  intros Hr HN HI Gu Ga. destruct (custom_bwd (set_rt m rtEmpty) (uncached it) cf upd add fu fa) as [rt E]; auto.
  - apply numbered_uncached. exact HN.
  - apply hits_empty.
  - rewrite (omap_same _ _ _ (rateTask_uncached it cf)). exact Gu.
  - rewrite (omap_same _ _ _ (rateTask_uncached it cf)). exact Ga.
  - rewrite E. apply custom_plain in E. rewrite E. reflexivity.
Qed.
Definition hitsAt (L : lattice) (m : matcher) (it : interactions) (cf : config) (idx : list Z) : Prop :=
  forall x i p d r, In x idx -> pairIn L it x i -> zget (in_procs it) i = Some p -> hashData cf p x = Some d -> rtRetrieve (mt_rt m) (mt_hash m d) = Some r ->
    updateSingleRate cf (in_rc it) p x = Some r.
Section Round.
Context (L : lattice) (m : matcher) (it : interactions) (cf : config) (idx : list Z).
Context (Hr : 1 <= mt_ranks m) (ND : NoDup idx) (HN : numbered it) (HI : rtInv (mt_rt m)).

Lemma refreshUsed_uncached : ofold (refreshUsed L (in_procs (uncached it))) idx cf = ofold (refreshUsed L (in_procs it)) idx cf.
Proof using. apply ofold_ext. intros a b. unfold refreshUsed. unfold uncached. cbn [set_procs in_procs]. rewrite pairsOf_uncached. reflexivity. Qed.
Lemma pairs_uncached : flat_map (pairsOf L (in_procs (uncached it))) idx = flat_map (pairsOf L (in_procs it)) idx.
Proof using. unfold uncached. cbn [set_procs in_procs]. clear. induction idx as [|x l IH]; [reflexivity|]. cbn [flat_map]. rewrite pairsOf_uncached, IH. reflexivity. Qed.
Lemma tasks_hits cf' rem upd add : matchIndicesWithProcesses (lt_unit L) m (flat_map (pairsOf L (in_procs it)) idx) it cf' = Some (rem, upd, add) -> hitsAt L m it cf' idx -> hitsOK m it cf' (upd ++ add).
Proof using Hr ND.
  intros E H t p d r Ht Ep Ed Er. apply matchTasks_spec in E; [|exact Hr|apply NoDup_pairs; exact ND]. destruct E as [TT TR TU TA NU NA RU RA].
  assert (Hin : In (rt_index t, rt_process t) (flat_map (pairsOf L (in_procs it)) idx)).
  { apply in_app_or in Ht. change (rt_index t, rt_process t) with (tkey t). destruct Ht as [Ht|Ht]; apply (in_map tkey) in Ht; [apply TU in Ht|apply TA in Ht]; apply Ht. }
  apply In_pairs in Hin. eapply H; [apply Hin|apply Hin|exact Ep|exact Ed|exact Er].
Qed.
Lemma calc_fwd m' it' cf' : calculateMatching L m it cf idx = Some (m', it', cf') -> hitsAt L m it cf' idx ->
  calculateMatching L (set_rt m rtEmpty) (uncached it) cf idx = Some (set_rt m' rtEmpty, uncached it', cf').
Proof using All.
  intros H HH. unfold calculateMatching in *. cbv zeta in *. ob H as cf1 Ecf. ob H as tasks Et. destruct tasks as [[rem upd] add]. ob H as r Erc. destruct r as [[m1 upd'] add']. ob H as mi Eu. inversion H; subst; clear H.
  rewrite refreshUsed_uncached, Ecf. cbn [obind]. rewrite pairs_uncached, match_uncached, Et by exact Hr. cbn [obind].
  change (in_custom (uncached it)) with (in_custom it).
  assert (E : (if in_custom it then customRates (set_rt m rtEmpty) (uncached it) cf' upd add else Some (set_rt m rtEmpty, upd, add)) = Some (set_rt m1 rtEmpty, upd', add')).
  { destruct (in_custom it); [|inversion Erc; subst; reflexivity]. destruct (custom_fwd m it cf' upd add m1 upd' add' Hr (tasks_hits _ _ _ _ Et HH) Erc) as (A & B & rt & ->).
    rewrite (customPlain_total _ _ _ _ _ _ _ Hr HN rtEmpty_inv A B). reflexivity. }
  rewrite E. cbn [obind]. rewrite updateProcesses_uncached, Eu. reflexivity.
Qed.
Lemma calc_bwd m'' it'' cf' : calculateMatching L (set_rt m rtEmpty) (uncached it) cf idx = Some (m'', it'', cf') -> hitsAt L m it cf' idx ->
  exists m' it', calculateMatching L m it cf idx = Some (m', it', cf') /\ m'' = set_rt m' rtEmpty /\ it'' = uncached it'.
Proof using Hr ND HN HI.
  intros H HH. unfold calculateMatching in *. cbv zeta in *. rewrite refreshUsed_uncached in H. ob H as cf1 Ecf. rewrite pairs_uncached, match_uncached in H by exact Hr. ob H as tasks Et. destruct tasks as [[rem upd] add].
  change (in_custom (uncached it)) with (in_custom it) in H.
  ob H as r Erc. destruct r as [[m1 upd'] add']. ob H as mi Eu. inversion H; subst; clear H. rewrite Ecf. cbn [obind]. rewrite Et. cbn [obind].
  assert (E : exists rt, (if in_custom it then customRates m it cf' upd add else Some (m, upd, add)) = Some (set_rt m rt, upd', add') /\ m1 = set_rt m rtEmpty).
  { destruct (in_custom it); [|inversion Erc; subst; exists (mt_rt m); split; [destruct m|]; reflexivity]. pose proof Erc as Em. apply custom_plain in Em.
    destruct (custom_fwd (set_rt m rtEmpty) _ _ _ _ _ _ _ Hr (hits_empty m (uncached it) cf' (upd ++ add)) Erc) as (A & B & _). rewrite (omap_same _ _ _ (rateTask_uncached it cf')) in A. rewrite (omap_same _ _ _ (rateTask_uncached it cf')) in B.
    destruct (custom_bwd m it cf' upd add upd' add' Hr HI HN (tasks_hits _ _ _ _ Et HH) A B) as [rt E]. exists rt. auto. }
  destruct E as (rt & E & ->). rewrite E. cbn [obind].
  replace (set_rt m rtEmpty) with (set_rt (set_rt m rt) rtEmpty) in Eu by reflexivity. rewrite updateProcesses_uncached in Eu.
  destruct (updateProcesses (set_rt m rt) rem upd' add' it) as [[m' it']|] eqn:EU; [|discriminate]. cbn [option_map fst snd] in Eu. inversion Eu; subst mi. cbn [obind fst snd].
  exists m', it'. auto.
Qed.
End Round.

Lemma sameP_numbered a b : sameP a b -> numbered a -> numbered b.
Proof. intros S H i p E. destruct (sameP_get _ _ _ _ S E) as (q & Eq & Hs). apply pstatic_fields in Hs. destruct Hs as (_ & _ & -> & _). eapply H; eauto. Qed.

(** ** the event of a step *)
Definition plainMd (md : model) : model := mkMD (md_lat md) (md_cf md) (uncached (md_in md)) (set_rt (md_mt md) rtEmpty).
Lemma pickProcess_uncached it u : pickProcess (uncached it) u = option_map (fun r => (fst r, uncached (snd r))) (pickProcess it u).
Proof.
  unfold pickProcess. replace (pickProcessIndex (uncached it) u) with (pickProcessIndex it u) by reflexivity. destruct (pickProcessIndex it u) as [i|]; [|reflexivity]. cbn [obind].
  rewrite uncached_get. destruct (zget (in_procs it) i) as [p|]; [|reflexivity]. cbn [option_map obind].
  replace (updateRateTable (uncache p)) with (option_map uncache (updateRateTable p)) by (unfold updateRateTable; replace (siteRates (uncache p)) with (siteRates p) by reflexivity; destruct (siteRates p); reflexivity).
  destruct (updateRateTable p) as [p'|]; [|reflexivity]. cbn [option_map obind]. unfold uncached at 1. cbn [set_procs in_procs]. rewrite zset_map. destruct (zset (in_procs it) i p'); reflexivity.
Qed.
Lemma perform_uncached cf p x : performBucketProcess cf (uncache p) x = option_map (fun r => (fst r, uncache (snd r))) (performBucketProcess cf p x).
Proof.
  unfold performBucketProcess. cbv zeta. cbn [uncache pr_number pr_ml pr_aff pr_idmoves]. destruct (zget (cf_mlists (set_event cf (pr_number p) x)) x) as [sl|]; [|reflexivity]. cbn [obind].
  destruct (performLoop _ _ _) as [[[cf1 aff] k]|]; [|reflexivity]. cbn [obind]. destruct (idUpdates _ _ _) as [ups|]; [|reflexivity]. cbn [obind]. destruct (ofold applyIdUpdate ups cf1); reflexivity.
Qed.
Lemma eventPart_uncached md u1 u2 : eventPart (plainMd md) u1 u2 = option_map (fun e => (uncached (fst (fst e)), snd (fst e), snd e)) (eventPart md u1 u2).
Proof.
  unfold eventPart. cbn [plainMd md_in md_cf md_lat]. rewrite pickProcess_uncached. destruct (pickProcess (md_in md) u1) as [[i it]|]; [|reflexivity]. cbn [option_map obind fst snd].
  rewrite uncached_get. destruct (zget (in_procs it) i) as [p|]; [|reflexivity]. cbn [option_map obind]. replace (pickSite (uncache p) u2) with (pickSite p u2) by reflexivity. destruct (pickSite p u2) as [x|]; [|reflexivity]. cbn [obind].
  rewrite perform_uncached. destruct (performBucketProcess (md_cf md) p x) as [[cf1 p1]|]; [|reflexivity]. cbn [option_map obind fst snd]. unfold uncached at 1. cbn [set_procs in_procs]. rewrite zset_map.
  destruct (zset (in_procs it) i p1) as [ps|]; [|reflexivity]. cbn [option_map obind fst snd]. f_equal. f_equal.
  change (set_procs (uncached it) (map uncache ps)) with (uncached (set_procs it ps)). rewrite maxRange_uncached. reflexivity.
Qed.
Lemma table_uncached it : updateProbabilityTable (uncached it) = uncached (updateProbabilityTable it).
Proof. unfold updateProbabilityTable, uncached. cbn [set_procs set_table in_procs in_table]. rewrite probTable_uncached. reflexivity. Qed.
Lemma step_fwd md u1 u2 md' it1 cf1 idx : Inv md -> numbered (md_in md) -> eventPart md u1 u2 = Some (it1, cf1, idx) -> 
  singleStep md u1 u2 = Some md' -> hitsAt (md_lat md) (md_mt md) it1 (md_cf md') idx -> singleStep (plainMd md) u1 u2 = Some (plainMd md').
Proof.
  intros IV HN Ee H HH. rewrite singleStep_split in *. rewrite eventPart_uncached. rewrite Ee in *. cbn [option_map obind fst snd] in *. ob H as r Er. destruct r as [[mt' it'] cf']. cbn [fst snd] in *. inversion H; subst; clear H. cbn [md_cf] in HH.
  destruct (event_parts _ _ _ _ _ _ IV Ee). cbn [plainMd md_lat md_mt].
  rewrite (calc_fwd _ _ _ _ _ (pv_ranks _ _ _ _ _ ep_pre) (pv_nodup _ _ _ _ _ ep_pre) (sameP_numbered _ _ ep_same HN) (pv_rt _ _ _ _ _ ep_pre) _ _ _ Er HH). cbn [obind fst snd]. rewrite table_uncached. reflexivity.
Qed.
Lemma step_bwd md u1 u2 mdu it1 cf1 idx : Inv md -> numbered (md_in md) -> eventPart md u1 u2 = Some (it1, cf1, idx) -> 
  singleStep (plainMd md) u1 u2 = Some mdu -> hitsAt (md_lat md) (md_mt md) it1 (md_cf mdu) idx -> exists md', singleStep md u1 u2 = Some md' /\ mdu = plainMd md'.
Proof.
  intros IV HN Ee H HH. rewrite singleStep_split in *. rewrite eventPart_uncached in H. rewrite Ee in *. cbn [option_map obind fst snd] in *. ob H as r Er. destruct r as [[mt' it'] cf']. cbn [fst snd] in *. inversion H; subst; clear H. cbn [md_cf] in HH.
  destruct (event_parts _ _ _ _ _ _ IV Ee). cbn [plainMd md_lat md_mt] in Er.
  destruct (calc_bwd _ _ _ _ _ (pv_ranks _ _ _ _ _ ep_pre) (pv_nodup _ _ _ _ _ ep_pre) (sameP_numbered _ _ ep_same HN) (pv_rt _ _ _ _ _ ep_pre) _ _ _ Er HH) as (m' & it2 & -> & -> & ->). cbn [obind fst snd].
  eexists. split; [reflexivity|]. unfold plainMd. cbn [md_lat md_cf md_in md_mt]. rewrite table_uncached. reflexivity.
Qed.
