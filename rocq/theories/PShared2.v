(** Proofs: the buffers of a process are filled before they are read. *)
From Verif Require Import PBase SModel SShared PLattice PProcess PMpi PMatcher PPerform PStep PEffect PEvent PCache PShared.
Open Scope Z_scope.
Open Scope list_scope.

Definition shownIt (it : interactions) : interactions := set_procs it (map shownProc (in_procs it)).
Lemma shown_get it i : zget (in_procs (shownIt it)) i = option_map shownProc (zget (in_procs it) i).
Proof. unfold shownIt. cbn [set_procs in_procs]. apply zget_map. Qed.
Lemma mpiMap_same {A} n (f g : A -> option Z) l : (forall a, f a = g a) -> mpiMap n f l = mpiMap n g l.
Proof. intros H. unfold mpiMap. rewrite (omap_same _ (fun rank => l0 <- splitOverProcesses n rank l ;; omap g l0)); [reflexivity|]. intros a. destruct (splitOverProcesses n a l); [|reflexivity]. cbn [obind]. apply omap_same, H. Qed.
Lemma pairsOf_shown L ps x : pairsOf L (map shownProc ps) x = pairsOf L ps x.
Proof.
  unfold pairsOf. rewrite zlen_map. generalize (zrange 0 (zlen ps - 1)). induction ps as [|p ps IH]; intros [|j l]; try reflexivity. cbn [map combine filter]. change (pr_basis (snd (j, shownProc p))) with (pr_basis p). cbn [snd].
  destruct (zmem _ _); cbn [map]; rewrite IH; reflexivity.
Qed.
Lemma maxRange_shown it : maxRange (shownIt it) = maxRange it.
Proof. unfold maxRange, shownIt. cbn [set_procs in_procs]. generalize 1. induction (in_procs it) as [|p ps IH]; intros m; [reflexivity|]. cbn [map fold_left]. apply IH. Qed.
Lemma probTable_shown ps : forall m, probTable m (map shownProc ps) = probTable m ps.
Proof. induction ps as [|p ps IH]; intros m; [reflexivity|]. cbn [map probTable]. rewrite IH. reflexivity. Qed.
Lemma table_shown it : updateProbabilityTable (shownIt it) = shownIt (updateProbabilityTable it).
Proof. unfold updateProbabilityTable, shownIt. cbn [set_procs set_table in_procs in_table]. rewrite probTable_shown. reflexivity. Qed.
Lemma removeSite_shown p x : removeSite (shownProc p) x = option_map shownProc (removeSite p x).
Proof.
  unfold removeSite. change (pr_sites (shownProc p)) with (pr_sites p). change (pr_custom (shownProc p)) with (pr_custom p). change (pr_srates (shownProc p)) with (pr_srates p). change (pr_mult (shownProc p)) with (pr_mult p).
  destruct (swapRemove (pr_sites p) _) as [rs|]; [|reflexivity]. cbn [obind]. destruct (pr_custom p).
  - destruct (swapRemove (pr_srates p) _) as [rr|]; [|reflexivity]. cbn [obind]. destruct (swapRemove (pr_mult p) _) as [rm|]; reflexivity.
  - destruct (swapRemove (pr_mult p) _) as [rm|]; reflexivity.
Qed.
Lemma addSite_shown p x r m : addSite (shownProc p) x r m = shownProc (addSite p x r m).
Proof. unfold addSite. change (pr_custom (shownProc p)) with (pr_custom p). destruct (pr_custom p); reflexivity. Qed.
Lemma modifyProc_shown it i f g : (forall p, g (shownProc p) = option_map shownProc (f p)) -> modifyProc (shownIt it) i g = option_map shownIt (modifyProc it i f).
Proof.
  intros H. unfold modifyProc. rewrite shown_get. destruct (zget (in_procs it) i) as [p|]; [|reflexivity]. cbn [option_map obind]. rewrite H. destruct (f p) as [p'|]; [|reflexivity]. cbn [option_map obind].
  unfold shownIt at 1. cbn [set_procs in_procs]. rewrite zset_map. destruct (zset (in_procs it) i p') as [ps|]; reflexivity.
Qed.
Definition sst (st : interactions * list (list bool)) := (shownIt (fst st), snd st).
Lemma updateProcesses_shown m rem upd add it : updateProcesses m rem upd add (shownIt it) = option_map (fun r => (fst r, shownIt (snd r))) (updateProcesses m rem upd add it).
Proof.
  unfold updateProcesses.
  assert (H1 : forall it inv, ofold doRemove rem (shownIt it, inv) = option_map sst (ofold doRemove rem (it, inv))).
  { intros it1 inv1. apply (ofold_sim sst doRemove doRemove rem) with (a := (it1, inv1)). intros [it0 inv0] [x i]. cbn [sst fst snd doRemove]. rewrite (modifyProc_shown it0 i (fun p => removeSite p x)) by (intros p; apply removeSite_shown).
    destruct (modifyProc it0 i _) as [it2|]; [|reflexivity]. cbn [option_map obind]. destruct (setInv inv0 x i false) as [inv2|]; reflexivity. }
  assert (H2 : forall it, ofold doUpdate upd (shownIt it) = option_map shownIt (ofold doUpdate upd it)).
  { apply (ofold_sim shownIt doUpdate doUpdate upd). intros it0 t. unfold doUpdate. apply modifyProc_shown.
    intros p. rewrite removeSite_shown. destruct (removeSite p _) as [p'|]; [|reflexivity]. cbn [option_map obind]. rewrite addSite_shown. reflexivity. }
  assert (H3 : forall it inv, ofold doAdd add (shownIt it, inv) = option_map sst (ofold doAdd add (it, inv))).
  { intros it1 inv1. apply (ofold_sim sst doAdd doAdd add) with (a := (it1, inv1)). intros [it0 inv0] t. cbn [sst fst snd doAdd].
    rewrite (modifyProc_shown it0 (rt_process t) (fun p => Some (addSite p (rt_index t) (rt_rate t) 1))) by (intros p; rewrite addSite_shown; reflexivity).
    destruct (modifyProc it0 _ _) as [it2|]; [|reflexivity]. cbn [option_map obind]. destruct (setInv inv0 (rt_index t) (rt_process t) true) as [inv2|]; reflexivity. }
  rewrite H1. destruct (ofold doRemove rem (it, mt_inv m)) as [[it1 inv1]|]; [|reflexivity]. cbn [option_map obind sst fst snd].
  rewrite H2. destruct (ofold doUpdate upd it1) as [it2|]; [|reflexivity]. cbn [option_map obind]. rewrite H3. destruct (ofold doAdd add (it2, inv1)) as [[it3 inv3]|]; reflexivity.
Qed.
Lemma match_shown S m pairs it cf : matchIndicesWithProcesses S m pairs (shownIt it) cf = matchIndicesWithProcesses S m pairs it cf.
Proof.
  unfold matchIndicesWithProcesses. rewrite (mpiMap_same _ (taskType S m (shownIt it) cf) (taskType S m it cf)).
  - destruct (mpiMap _ _ pairs) as [types|]; [|reflexivity]. cbn [obind]. apply ofold_ext. intros [[rem upd] add] [[x i] ty]. unfold collectTask. destruct (ty =? 1); [reflexivity|].
    destruct ((ty =? 2) || (ty =? 3)); [|reflexivity]. rewrite shown_get. destruct (zget (in_procs it) i) as [p|]; reflexivity.
  - intros [x i]. unfold taskType. rewrite shown_get. destruct (zget (in_procs it) i) as [p|]; reflexivity.
Qed.
Lemma custom_shown m it cf upd add : customRates m (shownIt it) cf upd add = customRates m it cf upd add.
Proof.
  assert (HL : forall t, lookupTask m (shownIt it) cf t = lookupTask m it cf t) by (intros t; unfold lookupTask; rewrite shown_get; destruct (zget (in_procs it) _); reflexivity).
  unfold customRates. rewrite (omap_same _ _ add HL), (omap_same _ _ upd HL). destruct (omap _ add) as [xa|]; [|reflexivity]. cbn [obind]. destruct (omap _ upd) as [xu|]; [|reflexivity]. cbn [obind]. cbv zeta.
  match goal with |- context [mpiMap _ ?f ?l] => rewrite (mpiMap_same _ f (fun x : ratetask * Z * option Z * Z => let '(t, _, _, _) := x in p <- zget (in_procs it) (rt_process t) ;; updateSingleRate cf (in_rc it) p (rt_index t))) end.
  - destruct (mpiMap _ _ _) as [rates|]; [|reflexivity]. cbn [obind]. destruct (fillRates xa rates) as [fa|]; [|reflexivity]. cbn [obind]. destruct (fillRates xu (snd fa)) as [fu|]; [|reflexivity]. cbn [obind].
    rewrite (ofold_ext (storeRate (shownIt it)) (storeRate it)); [reflexivity|]. intros rt [[[[t k] o] n] r]. unfold storeRate. rewrite shown_get. destruct (zget (in_procs it) n); reflexivity.
  - intros [[[t k] o] n]. rewrite shown_get. destruct (zget (in_procs it) _); reflexivity.
Qed.
Lemma calc_shown L m it cf idx : calculateMatching L m (shownIt it) cf idx = option_map (fun r => (fst (fst r), shownIt (snd (fst r)), snd r)) (calculateMatching L m it cf idx).
Proof.
  unfold calculateMatching. cbv zeta. change (in_procs (shownIt it)) with (map shownProc (in_procs it)). rewrite (flat_map_ext _ (pairsOf L (in_procs it))) by (intros; apply pairsOf_shown).
  rewrite (ofold_ext (refreshUsed L (map shownProc (in_procs it))) (refreshUsed L (in_procs it))) by (intros; unfold refreshUsed; rewrite pairsOf_shown; reflexivity).
  destruct (ofold (refreshUsed L (in_procs it)) idx cf) as [cf1|]; [|reflexivity]. cbn [obind]. rewrite match_shown. destruct (matchIndicesWithProcesses _ _ _ _ _) as [[[rem upd] add]|]; [|reflexivity]. cbn [obind].
  change (in_custom (shownIt it)) with (in_custom it). rewrite custom_shown. destruct (if in_custom it then customRates m it cf1 upd add else Some (m, upd, add)) as [[[m' u'] a']|]; [|reflexivity]. cbn [obind].
  rewrite updateProcesses_shown. destruct (updateProcesses m' rem u' a' it) as [[m2 it2]|]; reflexivity.
Qed.

(** ** the list of changed sites *)
Definition nActive (p : process) : Z := zlen (filter (fun e => isActive (pe_upd e)) (pr_ml p)).
Definition affs (it : interactions) : list (list pentry * list Z) := map (fun p => (pr_ml p, pr_aff p)) (in_procs it).
Lemma modifyProc_affs it i f it' : (forall p p', f p = Some p' -> pr_ml p' = pr_ml p /\ pr_aff p' = pr_aff p) -> modifyProc it i f = Some it' -> affs it' = affs it.
Proof.
  intros Hf H. unfold modifyProc in H. ob H as p Ep. ob H as p' Ep'. ob H as ps Es. injection H as <-. unfold affs. cbn [set_procs in_procs]. apply (map_zset _ _ _ _ _ Es). rewrite zget_map, Ep. cbn. destruct (Hf _ _ Ep') as [-> ->]. reflexivity.
Qed.
Lemma removeSite_affs p x p' : removeSite p x = Some p' -> pr_ml p' = pr_ml p /\ pr_aff p' = pr_aff p.
Proof. unfold removeSite. intros H. ob H as rs E1. destruct (pr_custom p); [ob H as rr E2|]; ob H as rm E3; injection H as <-; auto. Qed.
Lemma addSite_affs p x r m : pr_ml (addSite p x r m) = pr_ml p /\ pr_aff (addSite p x r m) = pr_aff p.
Proof. unfold addSite. destruct (pr_custom p); auto. Qed.
Lemma ofold_inv {A B C} (f : A -> B -> option A) (h : A -> C) l : (forall a b a', f a b = Some a' -> h a' = h a) -> forall a a', ofold f l a = Some a' -> h a' = h a.
Proof. intros H. induction l as [|b l IH]; intros a a' E; cbn [ofold] in E; [injection E as <-; reflexivity|]. ob E as a1 E1. rewrite (IH _ _ E). eauto. Qed.
Lemma updateProcesses_affs m rem upd add it m' it' : updateProcesses m rem upd add it = Some (m', it') -> affs it' = affs it.
Proof.
  unfold updateProcesses. intros H. ob H as st1 E1. destruct st1 as [it1 inv1]. ob H as it2 E2. ob H as st3 E3. destruct st3 as [it3 inv3]. injection H as <- <-.
  assert (A1 : affs it1 = affs it).
  { apply (ofold_inv doRemove (fun st => affs (fst st)) rem) in E1; [exact E1|]. intros [a ia] [x i] [a' ia'] E. cbn [doRemove] in E. ob E as b Eb. ob E as c Ec. injection E as <- <-. cbn [fst]. eapply modifyProc_affs; [|exact Eb]. intros p p'. apply removeSite_affs. }
  assert (A2 : affs it2 = affs it1).
  { apply (ofold_inv doUpdate affs upd) in E2; [exact E2|]. intros a t a' E. unfold doUpdate in E. eapply modifyProc_affs; [|exact E]. intros p p' Hp. ob Hp as q Eq. injection Hp as <-. destruct (addSite_affs q (rt_index t) (rt_rate t) 1) as [-> ->]. eapply removeSite_affs; eauto. }
  apply (ofold_inv doAdd (fun st => affs (fst st)) add) in E3; [cbn [fst] in E3; congruence|]. intros [a ia] t [a' ia'] E. cbn [doAdd] in E. ob E as b Eb. ob E as c Ec. injection E as <- <-. cbn [fst].
  eapply modifyProc_affs; [|exact Eb]. intros p p' Hp. injection Hp as <-. apply addSite_affs.
Qed.
Lemma calc_affs L m it cf idx m' it' cf' : calculateMatching L m it cf idx = Some (m', it', cf') -> affs it' = affs it.
Proof.
  unfold calculateMatching. cbv zeta. intros H. ob H as cf1 E1. ob H as tk E2. destruct tk as [[rem upd] add]. ob H as r E3. destruct r as [[m1 u1] a1]. ob H as mi E4. destruct mi as [m2 it2]. injection H as <- <- <-. eapply updateProcesses_affs; eauto.
Qed.

(** ** alike: the same but for what is in the buffers *)
Definition alike (p q : process) : Prop := shownProc p = shownProc q /\ zlen (pr_aff p) = zlen (pr_aff q) /\ forall i, nActive p <= i -> zget (pr_aff p) i = zget (pr_aff q) i.
Lemma alike_refl p : alike p p.
Proof. split; [reflexivity|]. split; [reflexivity|]. reflexivity. Qed.
Lemma shown_ml p q : shownProc p = shownProc q -> pr_ml p = pr_ml q.
Proof. intros H. change (pr_ml (shownProc p) = pr_ml (shownProc q)). rewrite H. reflexivity. Qed.
Lemma alike_sym p q : alike p q -> alike q p.
Proof. intros (A & B & C). split; [auto|]. split; [auto|]. intros i Hi. symmetry. apply C. unfold nActive in *. rewrite (shown_ml _ _ A). exact Hi. Qed.
Lemma alike_trans p q r : alike p q -> alike q r -> alike p r.
Proof. intros (A & B & C) (A' & B' & C'). split; [congruence|]. split; [congruence|]. intros i Hi. rewrite C by exact Hi. apply C'. unfold nActive in *. rewrite <- (shown_ml _ _ A). exact Hi. Qed.
Definition likeIt (it it' : interactions) : Prop := shownIt it = shownIt it' /\ Forall2 alike (in_procs it) (in_procs it').
Record likeMd (md md' : model) : Prop := { lk_lat : md_lat md = md_lat md'; lk_cf : md_cf md = md_cf md'; lk_mt : md_mt md = md_mt md'; lk_in : likeIt (md_in md) (md_in md') }.
Lemma F2_get {A B} (R : A -> B -> Prop) l l' : Forall2 R l l' -> forall i a, zget l i = Some a -> exists b, zget l' i = Some b /\ R a b.
Proof.
  induction 1 as [|a b l l' H F IH]; intros i x E; [rewrite zget_nil in E; discriminate|]. rewrite zget_cons in E. rewrite zget_cons. destruct (i =? 0); [injection E as <-; eauto|]. apply IH. exact E.
Qed.
Lemma F2_of_get {A B} (R : A -> B -> Prop) l : forall l', zlen l = zlen l' -> (forall i a b, zget l i = Some a -> zget l' i = Some b -> R a b) -> Forall2 R l l'.
Proof.
  induction l as [|a l IH]; intros [|b l'] HL H; [constructor|rewrite zlen_cons in HL; pose proof (zlen_nonneg l'); cbn in HL; lia|rewrite zlen_cons in HL; pose proof (zlen_nonneg l); cbn in HL; lia|]. constructor; [apply (H 0); reflexivity|].
  apply IH; [rewrite !zlen_cons in HL; lia|]. intros i x y Ex Ey. apply (H (i + 1)).
  - rewrite zget_cons. apply zget_range in Ex as R0. destruct (Z.eqb_spec (i + 1) 0); [lia|]. replace (i + 1 - 1) with i by lia. exact Ex.
  - rewrite zget_cons. apply zget_range in Ex as R0. destruct (Z.eqb_spec (i + 1) 0); [lia|]. replace (i + 1 - 1) with i by lia. exact Ey.
Qed.
Lemma shownIt_len a b : shownIt a = shownIt b -> zlen (in_procs a) = zlen (in_procs b).
Proof. intros H. apply (f_equal (fun x => zlen (in_procs x))) in H. unfold shownIt in H. cbn [set_procs in_procs] in H. rewrite !zlen_map in H. exact H. Qed.
Lemma shownIt_get a b i p q : shownIt a = shownIt b -> zget (in_procs a) i = Some p -> zget (in_procs b) i = Some q -> shownProc p = shownProc q.
Proof. intros H Ep Eq. pose proof (shown_get a i) as X. rewrite H, shown_get, Ep, Eq in X. cbn in X. congruence. Qed.
Lemma likeIt_affs a a' b b' : likeIt a a' -> shownIt b = shownIt b' -> affs b = affs a -> affs b' = affs a' -> likeIt b b'.
Proof.
  intros [_ F] S A A'. split; [exact S|]. apply F2_of_get; [apply shownIt_len; exact S|]. intros i p q Ep Eq. pose proof (shownIt_get _ _ _ _ _ S Ep Eq) as SP.
  assert (X : zget (affs b) i = Some (pr_ml p, pr_aff p)) by (unfold affs; rewrite zget_map, Ep; reflexivity). assert (Y : zget (affs b') i = Some (pr_ml q, pr_aff q)) by (unfold affs; rewrite zget_map, Eq; reflexivity).
  rewrite A in X. rewrite A' in Y. unfold affs in X, Y. rewrite zget_map in X, Y. destruct (zget (in_procs a) i) as [p0|] eqn:E0; [|discriminate]. destruct (zget (in_procs a') i) as [q0|] eqn:E1; [|discriminate]. cbn in X, Y. injection X as X1 X2. injection Y as Y1 Y2.
  destruct (F2_get _ _ _ F _ _ E0) as (q1 & E1' & (_ & L & T)). assert (q1 = q0) by congruence. subst q1. split; [exact SP|]. rewrite <- X2, <- Y2. split; [exact L|]. intros j Hj. apply T. unfold nActive in *. rewrite X1. exact Hj.
Qed.
Definition orel {A} (R : A -> A -> Prop) (a b : option A) : Prop := match a, b with Some x, Some y => R x y | None, None => True | _, _ => False end.
Lemma calc_like L m it it' cf idx : likeIt it it' -> orel (fun r r' => fst (fst r) = fst (fst r') /\ likeIt (snd (fst r)) (snd (fst r')) /\ snd r = snd r') (calculateMatching L m it cf idx) (calculateMatching L m it' cf idx).
Proof.
  intros HL. pose proof HL as [S F]. pose proof (calc_shown L m it cf idx) as C. pose proof (calc_shown L m it' cf idx) as C'. rewrite S, C' in C.
  destruct (calculateMatching L m it cf idx) as [[[a b] c]|] eqn:E, (calculateMatching L m it' cf idx) as [[[a' b'] c']|] eqn:E'; cbn [option_map fst snd] in C; try discriminate; cbn [orel fst snd]; [|exact I].
  split; [congruence|]. split; [|congruence]. eapply likeIt_affs; [exact HL|congruence|eapply calc_affs; eauto|eapply calc_affs; eauto].
Qed.

(** ** the event *)
Lemma performEntry_aff pe ce cf aff aff' pos : zlen aff = zlen aff' ->
  orel (fun s s' => fst (fst s) = fst (fst s') /\ snd s = snd s' /\ zlen (snd (fst s)) = zlen (snd (fst s')) /\ snd s = pos + (if isActive (pe_upd pe) then 1 else 0) /\
     forall i, zget (snd (fst s)) i = zget (snd (fst s')) i \/ (zget (snd (fst s)) i = zget aff i /\ zget (snd (fst s')) i = zget aff' i /\ (i <> pos \/ isActive (pe_upd pe) = false)))
    (performEntry pe ce (cf, aff, pos)) (performEntry pe ce (cf, aff', pos)).
Proof.
  intros HL. unfold performEntry, isActive. destruct (activeEntry (pe_upd pe)) as [[]|]; [|cbn; split; [reflexivity|]; split; [reflexivity|]; split; [exact HL|]; split; [lia|]; intros i; right; auto|exact I]. cbn [obind].
  destruct (zget (cf_aid cf) _) as [id|]; [|exact I]. cbn [obind]. destruct (zget (cf_aidcoords cf) id) as [c|]; [|exact I]. cbn [obind]. destruct (zset (cf_aidcoords cf) id _) as [ac|]; [|exact I]. cbn [obind].
  destruct (zget (cf_types cf) _) as [t|]; [|exact I]. cbn [obind]. destruct (applyUpdate t _) as [t'|]; [|exact I]. cbn [obind]. destruct (zset (cf_types cf) _ t') as [ts|]; [|exact I]. cbn [obind].
  destruct (elementsOf _ t') as [els|]; [|exact I]. cbn [obind]. destruct (zset (cf_elements cf) _ els) as [es|]; [|exact I]. cbn [obind].
  destruct (if pe_hasmove pe then Some (cf_aidelements cf) else e <- zget els 0 ;; zset (cf_aidelements cf) id e) as [ae|]; [|exact I]. cbn [obind].
  destruct (zset aff pos (ce_index ce)) as [a1|] eqn:E1, (zset aff' pos (ce_index ce)) as [a2|] eqn:E2; cbn [obind].
  - destruct (zset (cf_moved cf) _ id) as [mv|]; [|exact I]. cbn [obind]. destruct (zset (cf_recent cf) _ _) as [rc|]; [|exact I]. cbn. split; [reflexivity|]. split; [reflexivity|]. split; [rewrite (zset_len _ _ _ _ E1), (zset_len _ _ _ _ E2); exact HL|].
    split; [reflexivity|]. intros i. rewrite (zset_get _ _ _ _ i E1), (zset_get _ _ _ _ i E2). destruct (Z.eqb_spec i pos); [left; reflexivity|right; auto].
  - exfalso. unfold zset in E1, E2. rewrite HL in E1. destruct ((0 <=? pos) && (pos <? zlen aff')); discriminate.
  - exfalso. unfold zset in E1, E2. rewrite HL in E1. destruct ((0 <=? pos) && (pos <? zlen aff')); discriminate.
  - exact I.
Qed.
Lemma performLoop_aff pl : forall sl cf aff aff' pos, zlen aff = zlen aff' -> (forall i, pos + zlen (filter (fun e => isActive (pe_upd e)) pl) <= i -> zget aff i = zget aff' i) -> (forall i, i < pos -> zget aff i = zget aff' i) ->
  orel (fun s s' => s = s') (performLoop pl sl (cf, aff, pos)) (performLoop pl sl (cf, aff', pos)).
Proof.
  induction pl as [|pe pl IH]; intros sl cf aff aff' pos HL HU HD.
  - cbn. f_equal. f_equal. apply zget_ext. intros i. destruct (Z.ltb_spec i pos); [apply HD; lia|]. apply HU. change (zlen (@nil pentry)) with 0. cbn [filter]. cbn; lia.
  - cbn [performLoop]. destruct sl as [|ce sl]; [exact I|]. pose proof (performEntry_aff pe ce cf aff aff' pos HL) as H. destruct (performEntry pe ce (cf, aff, pos)) as [[[c1 a1] p1]|] eqn:E1, (performEntry pe ce (cf, aff', pos)) as [[[c2 a2] p2]|] eqn:E2; try contradiction; [|exact I].
    cbn in H. destruct H as (<- & <- & L1 & Hp & HG). cbn [obind]. cbn [filter] in HU. apply IH; [exact L1| |].
    + intros i Hi. destruct (HG i) as [X|(-> & -> & _)]; [exact X|]. apply HU. destruct (isActive (pe_upd pe)); [rewrite zlen_cons|]; lia.
    + intros i Hi. destruct (HG i) as [X|(-> & -> & X)]; [exact X|]. destruct (isActive (pe_upd pe)); [|apply HD; lia]. apply HD. destruct X; [lia|discriminate].
Qed.
Lemma perform_like cf p q x : alike p q -> orel (fun r r' => fst r = fst r' /\ alike (snd r) (snd r') /\ pr_aff (snd r) = pr_aff (snd r')) (performBucketProcess cf p x) (performBucketProcess cf q x).
Proof.
  intros (S & L & T). unfold performBucketProcess. cbv zeta. assert (EM := shown_ml _ _ S). assert (EN : pr_number p = pr_number q) by (change (pr_number (shownProc p) = pr_number (shownProc q)); rewrite S; reflexivity).
  assert (EI : pr_idmoves p = pr_idmoves q) by (change (pr_idmoves (shownProc p) = pr_idmoves (shownProc q)); rewrite S; reflexivity). rewrite <- EM, <- EN, <- EI.
  destruct (zget (cf_mlists _) x) as [sl|]; [|exact I]. cbn [obind].
  pose proof (performLoop_aff (pr_ml p) sl (set_event cf (pr_number p) x) (pr_aff p) (pr_aff q) 0 L) as H. destruct (performLoop (pr_ml p) sl (_, pr_aff p, 0)) as [[[c1 a1] p1]|], (performLoop (pr_ml p) sl (_, pr_aff q, 0)) as [[[c2 a2] p2]|]; cbn in H.
  - assert (X : (c1, a1, p1) = (c2, a2, p2)) by (apply H; [intros i Hi; apply T; exact Hi|intros i Hi; rewrite !zget_neg by lia; reflexivity]). injection X as <- <- <-. cbn [obind].
    destruct (idUpdates c1 sl (pr_idmoves p)) as [ups|]; [|exact I]. cbn [obind]. destruct (ofold applyIdUpdate ups c1) as [cf2|]; [|exact I]. cbn. split; [reflexivity|]. split; [|reflexivity]. split; [|split; reflexivity]. 
    destruct p, q; cbn in *. injection S as -> -> -> -> -> -> -> -> -> -> -> -> -> ->. reflexivity.
  - exfalso. apply H; [intros i Hi; apply T; exact Hi|intros i Hi; rewrite !zget_neg by lia; reflexivity].
  - exfalso. apply H; [intros i Hi; apply T; exact Hi|intros i Hi; rewrite !zget_neg by lia; reflexivity].
  - exact I.
Qed.
