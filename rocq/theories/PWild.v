(** Bucket processes whose updates may mention the wildcard (the proofs of PBucket.v under weaker assumptions). *)
From Verif Require Import PBase SModel SGeo SEvent SBuild SPlain SStep SBucket SWild PPerform PRun PEffect PEvent PBuild PPlain PRow PStepInv PBucket.
Open Scope string_scope.
Open Scope list_scope.
Open Scope Z_scope.

Lemma mkProcess_any S pt rows basis rate number first p : wfPT pt -> anyUpdates rows ->
  mkConfiguration (map br_c rows) (map br_before rows) pt = Some first ->
  mkProcess S first (setUpdateInfo first (map br_upd rows)) rate basis [] [] number = Some p -> exists es, bucketProc S pt rows basis p es.
Proof.
  intros WP (HNE & _ & WR) E1 H. apply mkConfiguration_info in E1. destruct E1 as [A1 A2 _ _ A5 A6 A7 A8 _ _ _]. destruct (names_wf _ _ WP A7) as [NL1 _].
  unfold mkProcess in H. ob H as acc Eacc. ob H as l El. inversion H; subst p; clear H. cbn [placeMoves] in El. unfold placeMoves in El. cbn in El. inversion El; subst l; clear El.
  unfold configurationsToMatchList in Eacc. ob Eacc as upd Eupd. ob Eacc as origin Eor.
  destruct (mlFold_spec _ _ _ _ _ _ _ _ Eacc) as (es0 & M1 & M2 & M3 & M4 & M5 & M6 & M7 & M8). cbn [ml_list ml_aff app] in M1, M4. clear Eacc.
  rewrite A2, zlen_map in M2, M3. rewrite zlen_zrange in M2. pose proof (zlen_nonneg rows) as Hn. assert (HL0 : zlen es0 = zlen rows) by lia. clear M2.
  assert (EU : omap (updateFromInfo pt) (map br_upd rows) = Some upd).
  { unfold updateTypes in Eupd. cbn [setUpdateInfo cf_update cf_ptypes] in Eupd. rewrite A6 in Eupd. destruct rows as [|r0 rows]; [congruence|]. cbn [map] in *. exact Eupd. }
  assert (HE : forall i r, zget rows i = Some r -> exists e, zget es0 i = Some e /\ entryForB pt r e /\ pe_d2 e = cnorm2 (csub (pe_c e) origin)).
  { intros i r Er. apply zget_range in Er as Hr. destruct (zget_lt es0 i) as [e Ee]; [lia|]. exists e. split; [exact Ee|].
    pose proof (M3 i) as Z1. rewrite zget_zrange in Z1 by lia. rewrite Z.add_0_l in Z1. cbn [obind] in Z1. rewrite Ee, A1, zget_map, Er in Z1. cbn [option_map obind] in Z1. symmetry in Z1.
    ob Z1 as t Et. ob Z1 as u Eu. inversion Z1; subst e; clear Z1. cbn [pe_d2 pe_c]. split; [|reflexivity].
    pose proof (omap_zget _ _ _ i A8) as Z2. rewrite zget_map, Er, Et in Z2. cbn [option_map obind] in Z2. symmetry in Z2.
    pose proof (omap_zget _ _ _ i EU) as Z3. rewrite zget_map, Er, Eu in Z3. cbn [option_map obind] in Z3. symmetry in Z3.
    pose proof (WR r (zget_In _ _ _ Er)) as ND. destruct (updateFromInfo_spec _ _ _ WP ND Z3) as [U1 U2].
    pose proof (bucketOf_len _ _ _ _ Z2) as BL. rewrite NL1, Z.max_r in BL by apply zlen_nonneg.
    constructor; cbn [pe_c pe_match pe_upd pe_hasmove pe_move]; auto.
    intros s k Hs. pose proof (tfind_range _ _ _ WP Hs). destruct (zget_lt t k) as [n En]; [lia|]. rewrite En. f_equal. exact (bucketOf_count _ _ _ _ WP Z2 s k n Hs En). }
  assert (HM : forall e, In e es0 -> pe_hasmove e = false).
  { intros e He. apply In_zget in He. destruct He as [i Ei]. apply zget_range in Ei as Hr. destruct (zget_lt rows i) as [r Er]; [lia|]. destruct (HE i r Er) as (e' & E' & F & _). assert (e' = e) by congruence. subst e'. apply F. }
  exists es0. constructor; cbn [pr_ml pr_idmoves pr_aff pr_basis pr_bucket].
  - exact HL0.
  - intros i r Er. destruct (HE i r Er) as (e & X & Y & _). eauto.
  - rewrite M1. reflexivity.
  - apply idMovesOf_none. intros e He. apply HM. rewrite M1 in He. eapply Permutation_in; [apply isort_perm|exact He].
  - unfold slots. cbn [pr_aff pr_ml]. rewrite M4, M1. rewrite zlen_map. unfold zlen. f_equal. symmetry. apply Permutation_length. apply filter_perm. apply isort_perm.
  - intros a Ha. rewrite M4 in Ha. apply in_map_iff in Ha. destruct Ha as (e & <- & _). reflexivity.
  - rewrite A1, zget_map in Eor. destruct (zget rows 0) as [r0|] eqn:E0; [|discriminate]. cbn in Eor. inversion Eor. exists r0. split; [reflexivity|].
    intros e He. apply In_zget in He. destruct He as [i Ei]. apply zget_range in Ei as Hr. destruct (zget_lt rows i) as [r Er]; [lia|].
    destruct (HE i r Er) as (e' & X1 & _ & X2). assert (e' = e) by congruence. subst e'. congruence.
  - reflexivity.
  - cbn [setUpdateInfo cf_update]. rewrite zlen_map. destruct rows; [congruence|]. rewrite zlen_cons. pose proof (zlen_nonneg rows). match goal with |- negb (?a =? 0) = true => destruct (Z.eqb_spec a 0); [lia|reflexivity] end.
Qed.
Lemma builtBucket_any S pt rows basis p : wfPT pt -> anyUpdates rows -> builtBucket S pt rows basis p -> exists es, bucketProc S pt rows basis p es.
Proof.
  intros WP WR (first & rate & number & E1 & [H|(cutoff & cache & H)]).
  - eapply mkProcess_any; eauto.
  - unfold mkCustomProcess in H. ob H as p0 E0. destruct (mkProcess_any _ _ _ _ _ _ _ _ WP WR E1 E0) as [es BO]. inversion H; subst p; clear H.
    exists es. destruct BO. constructor; cbn [pr_ml pr_idmoves pr_aff pr_basis pr_bucket slots]; auto.
Qed.


Lemma wild_inactive u n : zget u 0 = Some n -> 0 < n -> isActive u = false.
Proof.
  intros E Hn. unfold isActive, activeEntry, bget. rewrite E. cbn [obind]. destruct (0 <? zsum (map Z.abs u)); [|reflexivity].
  destruct (Z.ltb_spec 0 n); [reflexivity|lia].
Qed.
Lemma row_of pt rows e r r' : NoDup (map br_c rows) -> In r rows -> In r' rows -> entryForB pt r' e -> pe_c e = br_c r -> r' = r.
Proof.
  intros ND H H' F E. rewrite (eb_c _ _ _ F) in E. revert ND H H' E. clear. induction rows as [|a rows IH]; intros ND H H' E; [destruct H|].
  cbn [map] in ND. inversion ND as [|? ? Hn ND']; subst. destruct H as [<-|H], H' as [<-|H']; auto.
  - exfalso. apply Hn. rewrite <- E. apply in_map. exact H'.
  - exfalso. apply Hn. rewrite E. apply in_map. exact H.
Qed.
