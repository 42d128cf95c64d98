(** Proofs: steps and constructions of models from processes that differ only in their buffers. *)
From Verif Require Import PBase SModel SShared PLattice PProcess PMpi PMatcher PPerform PStep PEffect PEvent PCache PShared PShared2.
Open Scope Z_scope.
Open Scope list_scope.

(** ** a step *)
Lemma updateRate_like p q : alike p q -> orel (fun a b => alike a b /\ (forall u, pickSite a u = pickSite b u)) (updateRateTable p) (updateRateTable q).
Proof.
  intros (S & L & T). unfold updateRateTable. assert (E : siteRates p = siteRates q) by (change (siteRates (shownProc p) = siteRates (shownProc q)); rewrite S; reflexivity). rewrite <- E. destruct (siteRates p) as [rs|]; [|exact I]. cbn [obind orel].
  split; [split; [exact S|split; [exact L|exact T]]|]. intros u. unfold pickSite. cbn [set_inc pr_inc pr_sites]. assert (ES : pr_sites p = pr_sites q) by (change (pr_sites (shownProc p) = pr_sites (shownProc q)); rewrite S; reflexivity). rewrite ES. reflexivity.
Qed.
Lemma shownIt_set a b ps qs : shownIt a = shownIt b -> map shownProc ps = map shownProc qs -> shownIt (set_procs a ps) = shownIt (set_procs b qs).
Proof. destruct a as [a1 a2 a3 a4 a5], b as [b1 b2 b3 b4 b5]. unfold shownIt. cbn [set_procs in_procs in_table in_wild in_custom in_rc]. intros H E. injection H as _ -> -> -> ->. rewrite E. reflexivity. Qed.
Lemma Forall2_len {A B} (R : A -> B -> Prop) l l' : Forall2 R l l' -> length l = length l'.
Proof. induction 1; cbn [length]; congruence. Qed.
Lemma F2_zset {A B} (R : A -> B -> Prop) l l' i a b m m' : Forall2 R l l' -> R a b -> zset l i a = Some m -> zset l' i b = Some m' -> Forall2 R m m'.
Proof.
  intros F H E E'. apply F2_of_get.
  - rewrite (zset_len _ _ _ _ E), (zset_len _ _ _ _ E'). unfold zlen. rewrite (Forall2_len _ _ _ F). reflexivity.
  - intros j x y Ex Ey. rewrite (zset_get _ _ _ _ j E) in Ex. rewrite (zset_get _ _ _ _ j E') in Ey. destruct (j =? i); [congruence|]. destruct (F2_get _ _ _ F _ _ Ex) as (y' & Ey' & HR). congruence.
Qed.
Lemma F2_none {A B} (R : A -> B -> Prop) l l' i : Forall2 R l l' -> zget l i = None -> zget l' i = None.
Proof.
  intros F E. destruct (zget l' i) as [b|] eqn:E'; [|reflexivity]. exfalso. apply zget_range in E'. destruct (zget_lt l i) as [a Ea]; [|congruence]. unfold zlen in *. rewrite (Forall2_len _ _ _ F). exact E'.
Qed.
Lemma zset_none {A B} (R : A -> B -> Prop) l l' i a b : Forall2 R l l' -> zset l i a = None -> zset l' i b = None.
Proof.
  intros F E. unfold zset in *. assert (X : zlen l' = zlen l) by (unfold zlen; rewrite (Forall2_len _ _ _ F); reflexivity). rewrite X. destruct ((0 <=? i) && (i <? zlen l)); [discriminate|reflexivity].
Qed.
Lemma F2_shown ps qs : Forall2 alike ps qs -> map shownProc ps = map shownProc qs.
Proof. induction 1 as [|p q ps qs H F IH]; [reflexivity|]. cbn [map]. rewrite IH. f_equal. apply H. Qed.
Lemma likeIt_set a b i p q ps qs : likeIt a b -> alike p q -> zset (in_procs a) i p = Some ps -> zset (in_procs b) i q = Some qs -> likeIt (set_procs a ps) (set_procs b qs).
Proof.
  intros [S F] H E E'. pose proof (F2_zset _ _ _ _ _ _ _ _ F H E E') as F'. split; [|exact F']. apply shownIt_set; [exact S|]. apply F2_shown. exact F'.
Qed.
Lemma like_table a b : likeIt a b -> likeIt (updateProbabilityTable a) (updateProbabilityTable b).
Proof. intros [S F]. split; [rewrite <- !table_shown, S; reflexivity|exact F]. Qed.
Lemma like_pick a b u : likeIt a b -> pickProcessIndex a u = pickProcessIndex b u.
Proof. intros [S _]. change (pickProcessIndex (shownIt a) u = pickProcessIndex (shownIt b) u). rewrite S. reflexivity. Qed.
Lemma like_range a b : likeIt a b -> maxRange a = maxRange b.
Proof. intros [S _]. rewrite <- (maxRange_shown a), S. apply maxRange_shown. Qed.
Lemma event_like md md' u1 u2 : likeMd md md' -> orel (fun e e' => likeIt (fst (fst e)) (fst (fst e')) /\ snd (fst e) = snd (fst e') /\ snd e = snd e') (eventPart md u1 u2) (eventPart md' u1 u2).
Proof.
  intros [EL EC EM LK]. unfold eventPart, pickProcess. rewrite <- EC, <- EL, <- (like_pick _ _ _ LK). destruct (pickProcessIndex (md_in md) u1) as [i|]; [|exact I]. cbn [obind].
  pose proof LK as [S F]. destruct (zget (in_procs (md_in md)) i) as [p|] eqn:Ep.
  2:{ rewrite (F2_none _ _ _ _ F Ep). exact I. }
  destruct (F2_get _ _ _ F _ _ Ep) as (q & Eq & HA). rewrite Eq. cbn [obind]. pose proof (updateRate_like _ _ HA) as HU. destruct (updateRateTable p) as [p'|], (updateRateTable q) as [q'|]; try contradiction; [|exact I]. cbn [orel] in HU. destruct HU as [HA' HPk]. cbn [obind].
  destruct (zset (in_procs (md_in md)) i p') as [ps|] eqn:E1. 2:{ rewrite (zset_none _ _ _ _ _ q' F E1). exact I. }
  destruct (zset (in_procs (md_in md')) i q') as [qs|] eqn:E2. 2:{ exfalso. assert (X : zset (in_procs (md_in md)) i p' = None); [|congruence]. unfold zset in *. rewrite (shownIt_len _ _ S). destruct ((0 <=? i) && (i <? zlen (in_procs (md_in md')))); [discriminate|reflexivity]. }
  cbn [obind fst snd set_procs in_procs]. pose proof (likeIt_set _ _ _ _ _ _ _ LK HA' E1 E2) as LK2.
  assert (G1 : zget ps i = Some p') by (rewrite (zset_get _ _ _ _ i E1), Z.eqb_refl; reflexivity). assert (G2 : zget qs i = Some q') by (rewrite (zset_get _ _ _ _ i E2), Z.eqb_refl; reflexivity). rewrite G1, G2. cbn [obind].
  rewrite <- HPk. destruct (pickSite p' u2) as [x|]; [|exact I]. cbn [obind]. pose proof (perform_like (md_cf md) _ _ x HA') as HP. destruct (performBucketProcess (md_cf md) p' x) as [[c1 p1]|], (performBucketProcess (md_cf md) q' x) as [[c2 q1]|]; try contradiction; [|exact I].
  cbn [orel fst snd] in HP. destruct HP as (<- & HA1 & Haff). cbn [obind fst snd]. destruct LK2 as [S2 F2]. cbn [set_procs in_procs] in F2.
  destruct (zset ps i p1) as [ps2|] eqn:E3. 2:{ rewrite (zset_none _ _ _ _ _ q1 F2 E3). exact I. }
  destruct (zset qs i q1) as [qs2|] eqn:E4. 2:{ exfalso. assert (X : zset ps i p1 = None); [|congruence]. unfold zset in *. assert (Y : zlen ps = zlen qs) by (unfold zlen; rewrite (Forall2_len _ _ _ F2); reflexivity). rewrite Y. destruct ((0 <=? i) && (i <? zlen qs)); [discriminate|reflexivity]. }
  cbn [obind orel fst snd]. pose proof (likeIt_set (set_procs (md_in md) ps) (set_procs (md_in md') qs) i p1 q1 ps2 qs2 (conj S2 F2) HA1 E3 E4) as LK3. split; [exact LK3|]. split; [reflexivity|].
  rewrite Haff. rewrite (like_range _ _ LK3). reflexivity.
Qed.
Theorem step_like md md' u1 u2 : likeMd md md' -> orel likeMd (singleStep md u1 u2) (singleStep md' u1 u2).
Proof.
  intros H. rewrite !singleStep_split. pose proof (event_like _ _ u1 u2 H) as HE. destruct (eventPart md u1 u2) as [[[a b] c]|], (eventPart md' u1 u2) as [[[a' b'] c']|]; try contradiction; [|exact I]. cbn [orel fst snd] in HE. destruct HE as (LK & <- & <-). cbn [obind fst snd].
  destruct H as [EL EC EM _]. rewrite <- EL, <- EM. pose proof (calc_like (md_lat md) (md_mt md) a a' b c LK) as HC. destruct (calculateMatching _ _ a b c) as [[[m it] cf]|], (calculateMatching _ _ a' b c) as [[[m' it'] cf']|]; try contradiction; [|exact I].
  cbn [orel fst snd] in HC. destruct HC as (<- & LI & <-). cbn [obind fst snd orel]. constructor; try reflexivity. apply like_table. exact LI.
Qed.

(** ** processes at rest *)
Definition restLike (p q : process) : Prop := alike (clearSites p) (clearSites q).
Lemma rest_trans p q r : restLike p q -> restLike q r -> restLike p r.
Proof. apply alike_trans. Qed.
Lemma rest_sym p q : restLike p q -> restLike q p.
Proof. apply alike_sym. Qed.
Lemma alike_rest p q : alike p q -> restLike p q.
Proof.
  intros (S & L & T). split; [|split; [exact L|exact T]]. destruct p, q. unfold shownProc, set_inc, set_aff, clearSites, set_sites in *. cbn in *. injection S as -> -> -> -> -> -> _ _ _ -> -> -> -> _. reflexivity.
Qed.
Definition restOf (it : interactions) : list process := map (fun p => shownProc (clearSites p)) (in_procs it).
Lemma modifyProc_rest it i f it' : (forall p p', f p = Some p' -> shownProc (clearSites p') = shownProc (clearSites p)) -> modifyProc it i f = Some it' -> restOf it' = restOf it.
Proof. intros Hf H. unfold modifyProc in H. ob H as p Ep. ob H as p' Ep'. ob H as ps Es. injection H as <-. unfold restOf. cbn [set_procs in_procs]. apply (map_zset _ _ _ _ _ Es). rewrite zget_map, Ep. cbn [option_map]. rewrite (Hf _ _ Ep'). reflexivity. Qed.
Lemma removeSite_rest p x p' : removeSite p x = Some p' -> shownProc (clearSites p') = shownProc (clearSites p).
Proof. unfold removeSite. intros H. ob H as rs E1. destruct (pr_custom p); [ob H as rr E2|]; ob H as rm E3; injection H as <-; reflexivity. Qed.
Lemma addSite_rest p x r m : shownProc (clearSites (addSite p x r m)) = shownProc (clearSites p).
Proof. unfold addSite. destruct (pr_custom p); reflexivity. Qed.
Lemma calc_rest L m it cf idx m' it' cf' : calculateMatching L m it cf idx = Some (m', it', cf') -> restOf it' = restOf it.
Proof.
  unfold calculateMatching. cbv zeta. intros H. ob H as cf1 E1. ob H as tk E2. destruct tk as [[rem upd] add]. ob H as r E3. destruct r as [[m1 u1] a1]. ob H as mi E4. destruct mi as [m2 it2]. injection H as <- <- <-. cbn [snd].
  unfold updateProcesses in E4. ob E4 as st1 X1. destruct st1 as [it1 inv1]. ob E4 as it3 X2. ob E4 as st3 X3. destruct st3 as [it4 inv3]. injection E4 as <- <-.
  assert (A1 : restOf it1 = restOf it).
  { apply (ofold_inv doRemove (fun st => restOf (fst st)) rem) in X1; [exact X1|]. intros [a ia] [x i] [a' ia'] E. cbn [doRemove] in E. ob E as b Eb. ob E as c Ec. injection E as <- <-. cbn [fst]. eapply modifyProc_rest; [|exact Eb]. intros p p'. apply removeSite_rest. }
  assert (A2 : restOf it3 = restOf it1).
  { apply (ofold_inv doUpdate restOf u1) in X2; [exact X2|]. intros a t a' E. unfold doUpdate in E. eapply modifyProc_rest; [|exact E]. intros p p' Hp. ob Hp as q Eq. injection Hp as <-. rewrite addSite_rest. eapply removeSite_rest; eauto. }
  apply (ofold_inv doAdd (fun st => restOf (fst st)) a1) in X3; [cbn [fst] in X3; congruence|]. intros [a ia] t [a' ia'] E. cbn [doAdd] in E. ob E as b Eb. ob E as c Ec. injection E as <- <-. cbn [fst].
  eapply modifyProc_rest; [|exact Eb]. intros p p' Hp. injection Hp as <-. apply addSite_rest.
Qed.
Lemma rest_of it it' : restOf it' = restOf it -> affs it' = affs it -> Forall2 restLike (in_procs it) (in_procs it').
Proof.
  intros R A. apply F2_of_get.
  - apply (f_equal zlen) in R. unfold restOf in R. rewrite !zlen_map in R. auto.
  - intros i p q Ep Eq. assert (X : zget (restOf it') i = zget (restOf it) i) by (rewrite R; reflexivity). unfold restOf in X. rewrite !zget_map, Ep, Eq in X. cbn [option_map] in X.
    assert (Y : zget (affs it') i = zget (affs it) i) by (rewrite A; reflexivity). unfold affs in Y. rewrite !zget_map, Ep, Eq in Y. cbn [option_map] in Y. assert (Z0 : pr_aff q = pr_aff p) by congruence.
    split; [congruence|]. change (pr_aff (clearSites p)) with (pr_aff p). change (pr_aff (clearSites q)) with (pr_aff q). rewrite Z0. split; reflexivity.
Qed.
Lemma F2_trans {A} (R : A -> A -> Prop) (HT : forall a b c, R a b -> R b c -> R a c) l : forall m n, Forall2 R l m -> Forall2 R m n -> Forall2 R l n.
Proof. induction l as [|a l IH]; intros m n H1 H2; inversion H1; subst; inversion H2; subst; constructor; eauto. Qed.
Lemma F2_same {A} (R : A -> A -> Prop) (HR : forall a, R a a) l : Forall2 R l l.
Proof. induction l; constructor; auto. Qed.
Theorem step_rest md u1 u2 md' : singleStep md u1 u2 = Some md' -> Forall2 restLike (in_procs (md_in md)) (in_procs (md_in md')).
Proof.
  intros H. rewrite singleStep_split in H. ob H as e Ee. destruct e as [[it1 cf1] idx]. cbn [fst snd] in H. ob H as r Er. destruct r as [[m it] cf]. cbn [fst snd] in H. injection H as <-. cbn [md_in updateProbabilityTable set_table in_procs].
  apply (F2_trans _ rest_trans _ (in_procs it1)); [|apply rest_of; [eapply calc_rest; eauto|eapply calc_affs; eauto]].
  unfold eventPart, pickProcess in Ee. ob Ee as r0 E0. ob E0 as i Ei. ob E0 as p Ep. ob E0 as p' Ep'. ob E0 as ps Eps. injection E0 as <-. cbn [fst snd set_procs in_procs] in Ee. ob Ee as q Eq. ob Ee as x Ex. ob Ee as cp Ecp. destruct cp as [c1 p1]. cbn [fst snd] in Ee. ob Ee as ps2 Eps2. injection Ee as <- <- <-.
  cbn [set_procs in_procs]. rewrite (zset_get _ _ _ _ i Eps), Z.eqb_refl in Eq. injection Eq as <-.
  assert (HA : restLike p p1).
  { destruct (perform_spec _ _ _ _ _ Ecp) as (sl & cfl & aff & ups & PX). destruct (updateRateTable_spec _ _ Ep') as (inc & ->). rewrite (px_p _ _ _ _ _ _ _ _ _ PX). pose proof (px_loop _ _ _ _ _ _ _ _ _ PX) as LX. cbn [set_inc pr_ml pr_aff] in LX.
    split; [reflexivity|]. cbn [set_inc set_aff clearSites set_sites pr_aff]. split; [symmetry; apply (lx_laff _ _ _ _ _ _ _ LX)|]. intros k Hk. unfold nActive in Hk. cbn [clearSites set_sites pr_ml] in Hk. symmetry. rewrite (lx_aff _ _ _ _ _ _ _ LX).
    assert (HL : zlen (activeList (pr_ml p) sl) = zlen (filter (fun e => isActive (pe_upd e)) (pr_ml p))) by (unfold zlen; rewrite activeList_length; [reflexivity|exact (px_len _ _ _ _ _ _ _ _ _ PX)]). rewrite HL. destruct (Z.ltb_spec k (zlen (filter (fun e => isActive (pe_upd e)) (pr_ml p)))); [lia|]. rewrite andb_false_r. reflexivity. }
  apply F2_of_get; [rewrite (zset_len _ _ _ _ Eps2), (zset_len _ _ _ _ Eps); reflexivity|]. intros j a b Ea Eb. rewrite (zset_get _ _ _ _ j Eps2), (zset_get _ _ _ _ j Eps) in Eb. destruct (Z.eqb_spec j i).
  - subst. assert (a = p) by congruence. assert (b = p1) by congruence. subst. exact HA.
  - assert (a = b) by congruence. subst. apply alike_refl.
Qed.
