(** C32, C33: work sharing between MPI ranks. *)
From Verif Require Import PBase SModel PMpi PMatcher XSystems.
Open Scope Z_scope.
Open Scope list_scope.

(** ** C33: chunks are contiguous, cover the work and differ by at most one *)
(** [cs] cuts [0, len) into consecutive pieces *)
Fixpoint consecutive (from : Z) (cs : list (Z * Z)) (to : Z) : Prop :=
  match cs with
  | [] => from = to
  | (start, size) :: cs' => start = from /\ 0 <= size /\ consecutive (from + size) cs' to
  end.
Lemma zget_cons_S {A} (a : A) l i : 0 < i -> zget (a :: l) i = zget l (i - 1).
Proof. intros H. rewrite zget_cons. destruct (Z.eqb_spec i 0); [lia|reflexivity]. Qed.
Lemma consecutive_get cs : forall from to,
  (forall k c, zget cs k = Some c -> 0 <= snd c /\
      fst c = (if k =? 0 then from else match zget cs (k - 1) with Some c' => fst c' + snd c' | None => 0 end)) ->
  to = match zget cs (zlen cs - 1) with Some c => fst c + snd c | None => from end -> consecutive from cs to.
Proof.
  induction cs as [|[a n] cs IH]; intros from to H E.
  - cbn. rewrite zget_nil in E. auto.
  - cbn [consecutive]. destruct (H 0 (a, n) eq_refl) as [H0 H1]. cbn [fst snd] in *. rewrite Z.eqb_refl in H1. split; [auto|]. split; [auto|].
    apply IH.
    + intros k c Hk. pose proof (zget_range _ _ _ Hk) as Hr. destruct (H (k + 1) c) as [A B].
      { rewrite zget_cons_S by lia. replace (k + 1 - 1) with k by lia. exact Hk. }
      split; [exact A|]. destruct (Z.eqb_spec (k + 1) 0); [lia|]. destruct (Z.eqb_spec k 0).
      * subst k. rewrite B. cbn. lia.
      * rewrite B. replace (k + 1 - 1) with k by lia. rewrite zget_cons_S by lia. reflexivity.
    + rewrite E. rewrite zlen_cons. destruct cs as [|c cs]; [cbn; lia|].
      rewrite zget_cons_S by (rewrite zlen_cons; pose proof (zlen_nonneg cs); lia).
      replace (zlen (c :: cs) + 1 - 1 - 1) with (zlen (c :: cs) - 1) by lia.
      destruct (zget (c :: cs) (zlen (c :: cs) - 1)) eqn:E'; [reflexivity|]. exfalso.
      destruct (zget_lt (c :: cs) (zlen (c :: cs) - 1)) as [z Ez]; [rewrite zlen_cons; pose proof (zlen_nonneg cs); lia|congruence].
Qed.
Theorem C33_chunks_partition (ranks len : Z) : 1 <= ranks -> 0 <= len ->
  zlen (determineChunks ranks len) = ranks /\
  consecutive 0 (determineChunks ranks len) len /\
  forall a b, In a (determineChunks ranks len) -> In b (determineChunks ranks len) -> snd a <= snd b + 1.
Proof.
  intros Hr Hl. assert (HL : zlen (determineChunks ranks len) = ranks).
  { unfold zlen. rewrite determineChunks_length. lia. }
  split; [exact HL|]. split.
  - apply consecutive_get.
    + intros k c Hk. pose proof (zget_range _ _ _ Hk) as HR. rewrite HL in HR. rewrite determineChunks_get in Hk by lia.
      inversion Hk; subst c; cbn [fst snd]. split; [apply qsize_nonneg; lia|]. destruct (Z.eqb_spec k 0).
      * subst. apply qstart_0; lia.
      * rewrite determineChunks_get by lia. cbn [fst snd]. replace k with (k - 1 + 1) at 1 by lia. apply qstart_S; lia.
    + rewrite HL, determineChunks_get by lia. cbn [fst snd]. rewrite <- qstart_S by lia. replace (ranks - 1 + 1) with ranks by lia.
      symmetry. apply qstart_end; lia.
  - intros a b Ha Hb. apply In_zget in Ha, Hb. destruct Ha as [i Ei], Hb as [j Ej].
    pose proof (zget_range _ _ _ Ei). pose proof (zget_range _ _ _ Ej). rewrite HL in *.
    rewrite determineChunks_get in Ei by lia. rewrite determineChunks_get in Ej by lia. inversion Ei; inversion Ej; cbn [snd].
    pose proof (qsize_range ranks len Hr Hl i). pose proof (qsize_range ranks len Hr Hl j). lia.
Qed.
Example C33_example : determineChunks 4 10 = [(0, 3); (3, 3); (6, 2); (8, 2)]. Proof. reflexivity. Qed.
Example C33_example_few : determineChunks 4 2 = [(0, 1); (1, 1); (2, 0); (2, 0)]. Proof. reflexivity. Qed.

(** ** C32: split, compute, join gives every rank what one rank computes alone *)
Theorem C32_split_compute_join {A} (ranks : Z) (f : A -> option Z) (work : list A) : 1 <= ranks ->
  mpiMap ranks f work = omap f work.
Proof. apply mpiMap_omap. Qed.
Theorem C32_split_join (ranks : Z) (work : list Z) : 1 <= ranks ->
  (locals <- omap (fun rank => splitOverProcesses ranks rank work) (zrange 0 (ranks - 1)) ;; joinOverProcesses ranks locals) = Some work.
Proof.
  intros Hr. pose proof (mpiMap_omap ranks (fun x : Z => Some x) work Hr) as H. unfold mpiMap in H.
  assert (E : forall l : list Z, omap (fun x => Some x) l = Some l) by (induction l as [|a l IH]; [reflexivity|cbn; rewrite IH; reflexivity]).
  rewrite E in H.
  assert (EQ : omap (fun rank => l <- splitOverProcesses ranks rank work ;; omap (fun x : Z => Some x) l) (zrange 0 (ranks - 1)) =
               omap (fun rank => splitOverProcesses ranks rank work) (zrange 0 (ranks - 1))).
  { apply omap_ext. intros rank _. destruct (splitOverProcesses ranks rank work) as [l|]; [|reflexivity]. cbn [obind]. apply E. }
  rewrite EQ in H. exact H.
Qed.

(** *** the whole simulation: the observable state does not depend on the number of ranks *)
Definition rerank (n : Z) (m : matcher) : matcher := mkMT n (mt_hash m) (mt_rt m) (mt_inv m).
Definition rerankM (n : Z) (md : model) : model := mkMD (md_lat md) (md_cf md) (md_in md) (rerank n (md_mt md)).
Definition rerankR {B C} (n : Z) (r : matcher * B * C) : matcher * B * C := let '(m, b, c) := r in (rerank n m, b, c).

Lemma customRates_rerank n m it cf upd add : 1 <= n -> 1 <= mt_ranks m ->
  customRates (rerank n m) it cf upd add = option_map (rerankR n) (customRates m it cf upd add).
Proof.
  intros Hn Hm. unfold customRates. cbn [mt_ranks mt_hash mt_rt mt_inv rerank].
  change (lookupTask (rerank n m)) with (lookupTask m).
  destruct (omap (lookupTask m it cf) add) as [xa|]; [|reflexivity]. cbn [obind].
  destruct (omap (lookupTask m it cf) upd) as [xu|]; [|reflexivity]. cbn [obind]. rewrite !mpiMap_omap by lia.
  match goal with |- context[omap ?f ?l] => destruct (omap f l) as [rates|]; [|reflexivity] end. cbn [obind].
  destruct (fillRates xa rates) as [fa|]; [|reflexivity]. cbn [obind].
  destruct (fillRates xu (snd fa)) as [fu|]; [|reflexivity]. cbn [obind mt_rt].
  match goal with |- context[ofold ?f ?l ?a] => destruct (ofold f l a) as [rt|]; [|reflexivity] end. reflexivity.
Qed.
Lemma calculateMatching_rerank n L m it cf idx : 1 <= n -> 1 <= mt_ranks m ->
  calculateMatching L (rerank n m) it cf idx = option_map (rerankR n) (calculateMatching L m it cf idx).
Proof.
  intros Hn Hm. unfold calculateMatching. destruct (ofold (refreshUsed L (in_procs it)) idx cf) as [cf'|]; [|reflexivity]. cbn [obind].
  unfold matchIndicesWithProcesses. cbn [mt_ranks rerank]. rewrite !mpiMap_omap by lia.
  change (taskType (lt_unit L) (rerank n m)) with (taskType (lt_unit L) m).
  match goal with |- context[omap ?f ?l] => destruct (omap f l) as [types|]; [|reflexivity] end. cbn [obind].
  match goal with |- context[ofold ?f ?l ?a] => destruct (ofold f l a) as [[[rem upd] add]|]; [|reflexivity] end. cbn [obind].
  assert (HU : forall m0 u a, updateProcesses (rerank n m0) rem u a it = option_map (fun mi => (rerank n (fst mi), snd mi)) (updateProcesses m0 rem u a it)).
  { intros m0 u a. unfold updateProcesses. cbn [mt_inv rerank]. destruct (ofold doRemove rem (it, mt_inv m0)) as [[it1 inv1]|]; [|reflexivity]. cbn [obind].
    destruct (ofold doUpdate u it1) as [it2|]; [|reflexivity]. cbn [obind]. destruct (ofold doAdd a (it2, inv1)) as [[it3 inv3]|]; reflexivity. }
  destruct (in_custom it).
  - rewrite customRates_rerank by lia. destruct (customRates m it cf' upd add) as [[[m1 u1] a1]|]; [|reflexivity]. cbn [obind option_map rerankR].
    rewrite HU. destruct (updateProcesses m1 rem u1 a1 it) as [[m2 it2]|]; reflexivity.
  - cbn [obind]. rewrite HU. destruct (updateProcesses m rem upd add it) as [[m2 it2]|]; reflexivity.
Qed.
Lemma calculateMatching_ranks L m it cf idx m' it' cf' : calculateMatching L m it cf idx = Some (m', it', cf') -> mt_ranks m' = mt_ranks m.
Proof.
  unfold calculateMatching. intros H. ob H as cf1 E1. ob H as tk E2. destruct tk as [[rem upd] add]. ob H as r E3. destruct r as [[m1 u1] a1].
  ob H as mi E4. inversion H; subst; clear H.
  assert (mt_ranks m1 = mt_ranks m) as <-.
  { destruct (in_custom it); [|congruence]. unfold customRates in E3. ob E3 as xa X1. ob E3 as xu X2. ob E3 as rates X3. ob E3 as fa X4. ob E3 as fu X5.
    ob E3 as rt X6. inversion E3; reflexivity. }
  unfold updateProcesses in E4. ob E4 as st S1. destruct st as [i1 v1]. ob E4 as i2 S2. ob E4 as st3 S3. destruct st3 as [i3 v3]. inversion E4; reflexivity.
Qed.
Lemma singleStep_rerank n md u1 u2 : 1 <= n -> 1 <= mt_ranks (md_mt md) ->
  singleStep (rerankM n md) u1 u2 = option_map (rerankM n) (singleStep md u1 u2).
Proof.
  intros Hn Hm. unfold singleStep. cbn [md_in md_lat md_cf md_mt rerankM].
  destruct (pickProcess (md_in md) u1) as [[i it]|]; [|reflexivity]. cbn [obind].
  destruct (zget (in_procs it) i) as [p|]; [|reflexivity]. cbn [obind]. destruct (pickSite p u2) as [x|]; [|reflexivity]. cbn [obind].
  destruct (performBucketProcess (md_cf md) p x) as [[cf p']|]; [|reflexivity]. cbn [obind].
  destruct (zset (in_procs it) i p') as [ps|]; [|reflexivity]. cbn [obind]. rewrite calculateMatching_rerank by lia.
  match goal with |- context[calculateMatching ?a ?b ?c ?d ?e] => destruct (calculateMatching a b c d e) as [[[m' it'] cf']|] end; reflexivity.
Qed.
Lemma singleStep_ranks md u1 u2 md' : singleStep md u1 u2 = Some md' -> mt_ranks (md_mt md') = mt_ranks (md_mt md).
Proof.
  unfold singleStep. intros H. ob H as r E1. destruct r as [i it]. ob H as p E2. ob H as x E3. ob H as cp E4. destruct cp as [cf p'].
  ob H as ps E5. ob H as r E6. destruct r as [[m it''] cf']. inversion H; cbn [md_mt]. eapply calculateMatching_ranks; eauto.
Qed.
Lemma runSteps_rerank n us : forall md, 1 <= n -> 1 <= mt_ranks (md_mt md) ->
  runSteps (rerankM n md) us = option_map (rerankM n) (runSteps md us).
Proof.
  induction us as [|[u1 u2] us IH]; intros md Hn Hm; [reflexivity|]. unfold runSteps in *. cbn [ofold fst snd].
  rewrite singleStep_rerank by lia. destruct (singleStep md u1 u2) as [md1|] eqn:E; [|reflexivity]. cbn [option_map obind].
  apply IH; [lia|]. rewrite (singleStep_ranks _ _ _ _ E). lia.
Qed.
Lemma mkLatticeModel_rerank n n' hash L cf it : 1 <= n -> 1 <= n' ->
  mkLatticeModel n hash L cf it = option_map (rerankM n) (mkLatticeModel n' hash L cf it).
Proof.
  intros Hn Hn'. unfold mkLatticeModel, calculateInitialMatching. cbn [md_lat md_cf md_in md_mt].
  change (mkMatcher n hash (length (cf_coords cf)) (length (in_procs it))) with (rerank n (mkMatcher n' hash (length (cf_coords cf)) (length (in_procs it)))).
  destruct (initMatchLists L (maxRange it) cf) as [cf1|]; [|reflexivity]. cbn [obind].
  destruct (updateProcessMatchLists L cf1 (clearMatching it)) as [it1|]; [|reflexivity]. cbn [obind].
  rewrite calculateMatching_rerank by (cbn; lia).
  match goal with |- context[calculateMatching ?a ?b ?c ?d ?e] => destruct (calculateMatching a b c d e) as [[[m' it'] cf']|] end; reflexivity.
Qed.
(** The same input and the same random numbers give the same configuration and the same lists of events on any
    number of ranks; if the run fails on one number of ranks it fails on every other. *)
Theorem C32_any_number_of_ranks ranks ranks' hash L cf it us : 1 <= ranks -> 1 <= ranks' ->
  (md <- mkLatticeModel ranks hash L cf it ;; md' <- runSteps md us ;; Some (md_cf md', md_in md', mt_rt (md_mt md'), mt_inv (md_mt md'))) =
  (md <- mkLatticeModel ranks' hash L cf it ;; md' <- runSteps md us ;; Some (md_cf md', md_in md', mt_rt (md_mt md'), mt_inv (md_mt md'))).
Proof.
  intros H H'. rewrite (mkLatticeModel_rerank ranks ranks') by lia. destruct (mkLatticeModel ranks' hash L cf it) as [md|] eqn:E; [|reflexivity].
  cbn [option_map obind]. rewrite runSteps_rerank; [|lia|].
  - destruct (runSteps md us); reflexivity.
  - pose proof (mkLatticeModel_rerank ranks' ranks' hash L cf it H' H') as F. rewrite E in F. cbn [option_map] in F.
    inversion F as [F1]. rewrite F1. cbn. lia.
Qed.
(** the run of system 3 succeeds with two ranks, so the theorem speaks about a real run *)
Example C32_example : exists md, runOf 2 xhash x1L x1cf x3in x1us = Some md /\
  exists md', runOf 5 xhash x1L x1cf x3in x1us = Some md' /\ md_cf md' = md_cf md /\ md_in md' = md_in md.
Proof.
  assert (E : somewhere (runOf 2 xhash x1L x1cf x3in x1us) (fun _ => true) = true) by (vm_compute; reflexivity).
  apply somewhere_Some in E. destruct E as (md & H & _). exists md. split; [exact H|].
  apply runOf_Some in H. destruct H as (cf & it & md0 & H1 & H2 & H3 & H4).
  pose proof (C32_any_number_of_ranks 2 5 xhash x1L cf it x1us ltac:(lia) ltac:(lia)) as HC.
  rewrite H3 in HC. cbn [obind] in HC. rewrite H4 in HC. cbn [obind] in HC. symmetry in HC. ob HC as m5 E5. ob HC as m6 E6.
  exists m6. split; [unfold runOf; rewrite H1, H2; cbn [obind]; rewrite E5; exact E6|]. inversion HC. auto.
Qed.

Print Assumptions C33_chunks_partition.
Print Assumptions C32_split_compute_join.
Print Assumptions C32_split_join.
Print Assumptions C32_any_number_of_ranks.
