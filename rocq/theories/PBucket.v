(** Bucket processes: from the stored entries back to the rows of the user. *)
From Verif Require Import PBase SModel SGeo SEvent SBuild SPlain SStep SBucket PEvent PBuild PPlain PRow PStepInv.
Open Scope string_scope.
Open Scope list_scope.
Open Scope Z_scope.

Record bucketProc (S : Z) (pt : tmap) (rows : list brow) (basis : list Z) (p : process) (es : list pentry) : Prop := {
  bo_len : zlen es = zlen rows;
  bo_rows : forall i r, zget rows i = Some r -> exists e, zget es i = Some e /\ entryForB pt r e;
  bo_ml : pr_ml p = isort (peLt S) es;
  bo_idm : pr_idmoves p = [];
  bo_slots : slots p;
  bo_aff : forall a, In a (pr_aff p) -> a = 0;
  bo_d2 : exists r0, zget rows 0 = Some r0 /\ forall e, In e es -> pe_d2 e = cnorm2 (csub (pe_c e) (br_c r0));
  bo_basis : pr_basis p = basis;
  bo_bucket : pr_bucket p = true }.

Lemma tfind_NoDup_In m s (k : Z) : NoDup (map fst m) -> In (s, k) m -> tfind m s = Some k.
Proof.
  induction m as [|[a b] m IH]; intros ND Hin; [destruct Hin|]. cbn [map fst] in ND. inversion ND; subst. cbn [tfind]. destruct (String.eqb_spec a s) as [->|Hne].
  - destruct Hin as [E|Hin]; [inversion E; reflexivity|]. exfalso. apply H1. change s with (fst (s, k)). apply in_map. exact Hin.
  - destruct Hin as [E|Hin]; [inversion E; congruence|]. apply IH; assumption.
Qed.
Lemma updateFromInfo_spec pt info u : wfPT pt -> NoDup (map fst info) -> updateFromInfo pt info = Some u ->
  zlen u = zlen pt /\ forall s k, tfind pt s = Some k -> zget u k = Some (change info s).
Proof.
  intros WP ND H. unfold updateFromInfo in H.
  assert (G : forall info u0 u, ofold (fun u kv => t <- tfind pt (fst kv) ;; zset u t (snd kv)) info u0 = Some u -> NoDup (map fst info) ->
     zlen u = zlen u0 /\ forall s k, tfind pt s = Some k -> zget u k = match tfind info s with Some n => Some n | None => zget u0 k end).
  { clear u info ND H. induction info as [|[a n] info IH]; intros u0 u H ND; cbn [ofold] in H; [inversion H; subst; split; [reflexivity|intros; reflexivity]|].
    ob H as u1 E. cbn [fst snd] in E. ob E as ka Ka. cbn [map fst] in ND. inversion ND as [|? ? Hni ND']; subst. destruct (IH _ _ H ND') as [A B]. split; [rewrite A; eapply zset_len; eauto|].
    intros s k Hs. rewrite (B s k Hs). cbn [tfind]. rewrite (zset_get _ _ _ _ k E). destruct (String.eqb_spec a s) as [->|Hne].
    - assert (ka = k) by congruence. subst ka. rewrite Z.eqb_refl. destruct (tfind info s) as [m|] eqn:Em; [|reflexivity]. exfalso. apply Hni. apply tfind_In in Em. change s with (fst (s, m)). apply in_map. exact Em.
    - destruct (tfind info s); [reflexivity|]. destruct (Z.eqb_spec k ka) as [->|]; [|reflexivity]. exfalso. apply Hne. eapply tfind_inj; eauto. }
  destruct (G _ _ _ H ND) as [A B]. assert (HL : zlen (repeat 0 (length pt)) = zlen pt) by (unfold zlen; rewrite repeat_length; reflexivity). split; [congruence|].
  intros s k Hs. rewrite (B s k Hs). unfold change. destruct (tfind info s); [reflexivity|]. pose proof (tfind_range _ _ _ WP Hs). destruct (zget_lt (repeat 0 (length pt)) k) as [a Ea]; [lia|].
  rewrite Ea. apply zget_In in Ea. apply repeat_spec in Ea. congruence.
Qed.
Lemma idMovesOf_none S l : (forall e, In e l -> pe_hasmove e = false) -> idMovesOf S l = [].
Proof.
  intros H. destruct (idMovesOf S l) as [|[a b] m] eqn:E; [reflexivity|]. assert (Hin : In (a, b) (idMovesOf S l)) by (rewrite E; left; reflexivity).
  apply idMovesOf_In in Hin. destruct Hin as (e & E1 & E2 & _). apply zget_In in E1. rewrite (H e E1) in E2. discriminate.
Qed.

Lemma mkProcess_bucket S pt rows basis rate number first p : wfPT pt -> wfBRows rows ->
  mkConfiguration (map br_c rows) (map br_before rows) pt = Some first ->
  mkProcess S first (setUpdateInfo first (map br_upd rows)) rate basis [] [] number = Some p -> exists es, bucketProc S pt rows basis p es.
Proof.
  intros WP [HNE WR] E1 H. apply mkConfiguration_info in E1. destruct E1 as [A1 A2 _ _ A5 A6 A7 A8 _ _ _]. destruct (names_wf _ _ WP A7) as [NL1 _].
  unfold mkProcess in H. ob H as acc Eacc. ob H as l El. inversion H; subst p; clear H. cbn [placeMoves] in El. unfold placeMoves in El. cbn in El. inversion El; subst l; clear El.
  unfold configurationsToMatchList in Eacc. ob Eacc as upd Eupd. ob Eacc as origin Eor.
  destruct (mlFold_spec _ _ _ _ _ _ _ _ Eacc) as (es0 & M1 & M2 & M3 & M4 & M5 & M6 & M7 & M8). cbn [ml_list ml_aff app] in M1, M4. clear Eacc.
  rewrite A2, zlen_map in M2, M3. rewrite zlen_zrange in M2. pose proof (zlen_nonneg rows) as Hn. assert (HL0 : zlen es0 = zlen rows) by lia. clear M2.
  assert (EU : omap (updateFromInfo pt) (map br_upd rows) = Some upd).
  { unfold updateTypes in Eupd. cbn [setUpdateInfo cf_update cf_ptypes] in Eupd. rewrite A6 in Eupd. destruct rows as [|r0 rows]; [congruence|]. cbn [map] in *. exact Eupd. }
  assert (HE : forall i r, zget rows i = Some r -> exists e, zget es0 i = Some e /\ entryForB pt r e /\ pe_d2 e = cnorm2 (csub (pe_c e) origin)).
  { intros i r Er. apply zget_range in Er as Hr. destruct (zget_lt es0 i) as [e Ee]; [lia|]. exists e. split; [exact Ee|].
    pose proof (M3 i) as Z1. rewrite zget_zrange in Z1 by lia. rewrite Z.add_0_l in Z1. cbn [obind] in Z1. rewrite Ee, A1, zget_map, Er in Z1. cbn [option_map obind] in Z1. symmetry in Z1.
    ob Z1 as t Et. ob Z1 as u Eu. inversion Z1; subst e; clear Z1. cbn [pe_d2 pe_c]. split; [|reflexivity].
    pose proof (omap_zget _ _ _ i A8) as Z2. rewrite zget_map, Er, Et in Z2. cbn [option_map obind] in Z2. symmetry in Z2.
    pose proof (omap_zget _ _ _ i EU) as Z3. rewrite zget_map, Er, Eu in Z3. cbn [option_map obind] in Z3. symmetry in Z3.
    destruct (WR r (zget_In _ _ _ Er)) as [ND _]. destruct (updateFromInfo_spec _ _ _ WP ND Z3) as [U1 U2].
    pose proof (bucketOf_len _ _ _ _ Z2) as BL. rewrite NL1, Z.max_r in BL by apply zlen_nonneg.
    constructor; cbn [pe_c pe_match pe_upd pe_hasmove pe_move]; auto.
    intros s k Hs. pose proof (tfind_range _ _ _ WP Hs). destruct (zget_lt t k) as [n En]; [lia|]. rewrite En. f_equal. exact (bucketOf_count _ _ _ _ WP Z2 s k n Hs En). }
  assert (HM : forall e, In e es0 -> pe_hasmove e = false).
  { intros e He. apply In_zget in He. destruct He as [i Ei]. apply zget_range in Ei as Hr. destruct (zget_lt rows i) as [r Er]; [lia|]. destruct (HE i r Er) as (e' & E' & F & _). assert (e' = e) by congruence. subst e'. apply F. }
  exists es0. constructor; cbn [pr_ml pr_idmoves pr_aff pr_basis pr_bucket].
  - exact HL0.
  - intros i r Er. destruct (HE i r Er) as (e & X & Y & _). eauto.
  - rewrite M1. reflexivity.
  - apply idMovesOf_none. intros e He. apply HM. rewrite M1 in He. eapply Permutation_in; [apply isort_perm|exact He].
  - unfold slots. cbn [pr_aff pr_ml]. rewrite M4, M1. rewrite zlen_map. unfold zlen. f_equal. symmetry. apply Permutation_length. apply filter_perm. apply isort_perm.
  - intros a Ha. rewrite M4 in Ha. apply in_map_iff in Ha. destruct Ha as (e & <- & _). reflexivity.
  - rewrite A1, zget_map in Eor. destruct (zget rows 0) as [r0|] eqn:E0; [|discriminate]. cbn in Eor. inversion Eor. exists r0. split; [reflexivity|].
    intros e He. apply In_zget in He. destruct He as [i Ei]. apply zget_range in Ei as Hr. destruct (zget_lt rows i) as [r Er]; [lia|].
    destruct (HE i r Er) as (e' & X1 & _ & X2). assert (e' = e) by congruence. subst e'. congruence.
  - reflexivity.
  - cbn [setUpdateInfo cf_update]. rewrite zlen_map. destruct rows; [congruence|]. rewrite zlen_cons. pose proof (zlen_nonneg rows). match goal with |- negb (?a =? 0) = true => destruct (Z.eqb_spec a 0); [lia|reflexivity] end.
Qed.
Lemma builtBucket_spec S pt rows basis p : wfPT pt -> wfBRows rows -> builtBucket S pt rows basis p -> exists es, bucketProc S pt rows basis p es.
Proof.
  intros WP WR (first & rate & number & E1 & [H|(cutoff & cache & H)]).
  - eapply mkProcess_bucket; eauto.
  - unfold mkCustomProcess in H. ob H as p0 E0. destruct (mkProcess_bucket _ _ _ _ _ _ _ _ WP WR E1 E0) as [es BO]. inversion H; subst p; clear H.
    exists es. destruct BO. constructor; cbn [pr_ml pr_idmoves pr_aff pr_basis pr_bucket slots]; auto.
Qed.

Section Bucket.
Context (S : Z) (pt : tmap) (rows : list brow) (basis : list Z) (p : process) (es : list pentry).
Context (WP : wfPT pt) (BO : bucketProc S pt rows basis p es) (WR : wfBRows rows).
Lemma bml_row e : In e (pr_ml p) -> exists r, In r rows /\ entryForB pt r e.
Proof using BO.
  intros He. rewrite (bo_ml _ _ _ _ _ _ BO) in He. apply (Permutation_in _ (isort_perm (peLt S) es)) in He. apply In_zget in He. destruct He as [i Ei].
  apply zget_range in Ei as Hr. rewrite (bo_len _ _ _ _ _ _ BO) in Hr. destruct (zget_lt _ _ Hr) as [r Er]. destruct (bo_rows _ _ _ _ _ _ BO i r Er) as (e' & E' & F).
  assert (e' = e) by congruence. subst e'. exists r. split; [eapply zget_In; eauto|exact F].
Qed.
Lemma bucket_sane : sane p.
Proof using WP BO WR.
  constructor.
  - intros e He. destruct (bml_row e He) as (r & Hr & F). destruct WR as [_ HW]. destruct (HW r Hr) as [_ H0]. destruct WP as (_ & _ & W0).
    rewrite (eb_upd _ _ _ F "*" 0 W0). unfold change. rewrite H0. reflexivity.
  - rewrite (bo_idm _ _ _ _ _ _ BO). constructor.
  - rewrite (bo_idm _ _ _ _ _ _ BO). intros a b [].
Qed.
Lemma bucket_cycle : idmovesCycle p.
Proof using BO. unfold idmovesCycle. rewrite (bo_idm _ _ _ _ _ _ BO). split; [constructor|]. intros a. split; intros (b & []). Qed.
Lemma kind_name k : 0 <= k < zlen pt -> exists s, tfind pt s = Some k.
Proof using WP.
  intros Hk. assert (Hin : In k (map snd pt)). { destruct WP as (_ & HP & _). eapply Permutation_in; [apply Permutation_sym; exact HP|]. apply In_zrange. lia. }
  apply in_map_iff in Hin. destruct Hin as ([s k'] & E & Hin). cbn in E. subst k'. exists s. apply In_tfind; [exact Hin|apply WP] || (apply In_tfind; auto; apply WP).
Qed.
Lemma bucket_thrifty : thrifty rows -> noOverdraw p.
Proof using WP BO WR.
  intros HT e He. destruct (bml_row e He) as (r & Hr & F). destruct (HT r Hr) as [T1 T2]. split.
  - intros HW (k & n & En & Hn). apply zget_range in En as Hk. rewrite (eb_lupd _ _ _ F) in Hk. destruct (kind_name k Hk) as [s Hs]. rewrite (eb_upd _ _ _ F s k Hs) in En. inversion En. apply Hn. rewrite <- H0.
    apply T2. destruct WP as (_ & _ & W0). unfold wildEntry in HW. rewrite (eb_match _ _ _ F "*" 0 W0) in HW. inversion HW. unfold howMany in H1.
    destruct (filter (String.eqb "*") (br_before r)) as [|a l] eqn:EF; [discriminate|]. assert (Hin : In a (filter (String.eqb "*") (br_before r))) by (rewrite EF; left; reflexivity).
    apply filter_In in Hin. destruct Hin as [Hin Ea]. apply String.eqb_eq in Ea. subst a. exact Hin.
  - intros k n u En Eu. apply zget_range in Eu as Hk. rewrite (eb_lupd _ _ _ F) in Hk. destruct (kind_name k Hk) as [s Hs].
    rewrite (eb_upd _ _ _ F s k Hs) in Eu. rewrite (eb_match _ _ _ F s k Hs) in En. inversion En; inversion Eu. apply T1.
Qed.
End Bucket.

(** the same for plain processes *)
Lemma plain_thrifty S pt rows basis p es : wfPT pt -> plainOf S pt rows basis p es -> wfRows rows -> noOverdraw p.
Proof.
  intros WP PO WR e He. apply In_zget in He. destruct He as [j Ej]. destruct (ml_row _ _ _ _ _ _ PO j e Ej) as (i & r & Er & _ & F). split.
  - intros HW HC. apply (entry_wild _ WP _ _ F) in HW. apply (entry_changes _ WP _ _ F) in HC. apply HC. destruct WR as [_ HR]. rewrite HW. symmetry. apply (HR r); [eapply zget_In; eauto|exact HW].
  - intros k n u En Eu. destruct (en_kinds _ _ _ F) as (kb & ka & K1 & K2 & [U1 U2] & LU & UU). apply U2 in En. apply UU in Eu. subst n u. destruct (k =? ka), (k =? kb); lia.
Qed.
Lemma plain_cycle S pt rows basis p es : plainOf S pt rows basis p es -> wfRows rows -> 0 < S < 1000000 -> movesPermute rows -> idmovesCycle p.
Proof. intros PO WR HS MP. split; [eapply idm_to; eauto|eapply idm_cycle; eauto]. Qed.
Lemma plain_width S pt rows basis p es : plainOf S pt rows basis p es -> forall e, In e (pr_ml p) -> zlen (pe_match e) = zlen pt /\ zlen (pe_upd e) = zlen pt.
Proof.
  intros PO e He. apply In_zget in He. destruct He as [j Ej]. destruct (ml_row _ _ _ _ _ _ PO j e Ej) as (i & r & Er & _ & F). destruct (en_kinds _ _ _ F) as (kb & ka & K1 & K2 & [U1 U2] & LU & UU). auto.
Qed.
Lemma bucket_width S pt rows basis p es : bucketProc S pt rows basis p es -> forall e, In e (pr_ml p) -> zlen (pe_match e) = zlen pt /\ zlen (pe_upd e) = zlen pt.
Proof. intros BO e He. destruct (bml_row _ _ _ _ _ _ BO e He) as (r & _ & F). split; apply F. Qed.
