(** The backend constructors succeed on consistent arguments. *)
From Verif Require Import PProcess PTypes.
From Verif Require Export PBuild.
Open Scope string_scope.
Open Scope list_scope.
Open Scope Z_scope.

Lemma typeNamesOf_total pt : wfPT pt -> exists names, typeNamesOf pt = Some names /\ zlen names = zlen pt.
Proof.
  intros WP. unfold typeNamesOf. destruct (maxType_wf _ WP) as [HM H1]. rewrite HM.
  assert (G : forall (l : list (string * Z)) (names : list string), (forall s k, In (s, k) l -> 0 <= k < zlen names) -> exists names', ofold (fun names kv => zset names (snd kv) (fst kv)) l names = Some names').
  { induction l as [|[s k] l IH]; intros names H; [eexists; reflexivity|]. cbn [ofold fst snd]. destruct (zset_lt names k s) as [n1 E]; [apply (H s k); left; reflexivity|]. rewrite E. cbn [obind]. apply IH. intros s' k' Hin. rewrite (zset_len _ _ _ _ E). apply (H s'). right. exact Hin. }
  destruct (G pt (repeat EmptyString (Z.to_nat (zlen pt)))) as [names E].
  { intros s k Hin. rewrite zlen_repeat. destruct WP as (_ & P & _). assert (X : In k (zrange 0 (zlen pt - 1))) by (apply (Permutation_in _ P); change k with (snd (s, k)); apply in_map; exact Hin). apply In_zrange in X. lia. }
  exists names. split; [exact E|]. apply (names_wf pt names WP). unfold typeNamesOf. rewrite HM. exact E.
Qed.
Lemma mkConfiguration_total pt coords els : wfPT pt -> zlen coords = zlen els -> (forall e, In e els -> e <> [] /\ forall s, In s e -> exists k, tfind pt s = Some k) -> exists cf, mkConfiguration coords els pt = Some cf.
Proof.
  intros WP HL HE. unfold mkConfiguration. destruct (typeNamesOf_total pt WP) as (names & EN & LN).
  destruct (ofold_total (fun ae => zlen ae = zlen els) (fun ae i => e <- zget els i ;; s <- zget e 0 ;; zset ae i s) (zrange 0 (zlen coords - 1)) (repeat EmptyString (length els))) as (ae & EA & _).
  2: { unfold zlen. rewrite repeat_length. reflexivity. }
  - intros ae i Hi HA. apply In_zrange in Hi. destruct (zget_lt els i) as [e E]; [lia|]. rewrite E. cbn [obind]. destruct (HE e (zget_In _ _ _ E)) as [NE _]. destruct e as [|s e]; [congruence|]. rewrite zget_0. cbn [obind].
    destruct (zset_lt ae i s) as [ae' E2]; [lia|]. exists ae'. split; [exact E2|]. rewrite (zset_len _ _ _ _ E2). exact HA.
  - rewrite EA. cbn [obind]. rewrite EN. cbn [obind]. destruct (omap_total (bucketOf pt (zlen names)) els) as [types ET].
    + intros e He. destruct (HE e He) as [_ K]. destruct (bucketOf_some pt (zlen names) e) as [b Hb]; [|exists b; exact Hb]. intros s Hs. destruct (K s Hs) as [k Hk]. exists k. split; [exact Hk|]. rewrite LN. exact (tfind_range _ _ _ WP Hk).
    + rewrite ET. eexists. reflexivity.
Qed.
Lemma mkProcess_total S pt rows basis rate number origins vectors first second : wfPT pt -> rows <> [] ->
  mkConfiguration (map rw_c rows) (map (fun r => [rw_before r]) rows) pt = Some first -> mkConfiguration (map rw_c rows) (map (fun r => [rw_after r]) rows) pt = Some second ->
  zlen origins = zlen vectors -> (forall o, In o origins -> 0 <= o < zlen rows) -> exists p, mkProcess S first second rate basis origins vectors number = Some p.
Proof.
  intros WP NE E1 E2 HL HO. apply mkConfiguration_info in E1, E2. destruct (names_wf _ _ WP (ci_names _ _ _ _ E1)) as [L1 _]. destruct (names_wf _ _ WP (ci_names _ _ _ _ E2)) as [L2 _].
  assert (NR : 0 < zlen rows) by (destruct rows; [congruence|]; rewrite zlen_cons; pose proof (zlen_nonneg rows); lia).
  assert (LE : zlen (cf_elements first) = zlen rows) by (rewrite (ci_elements _ _ _ _ E1); apply zlen_map).
  assert (LC : zlen (cf_coords first) = zlen rows) by (rewrite (ci_coords _ _ _ _ E1); apply zlen_map).
  assert (LT1 : zlen (cf_types first) = zlen rows) by (rewrite (omap_zlen _ _ _ (ci_types _ _ _ _ E1)), zlen_map; reflexivity).
  assert (LT2 : zlen (cf_types second) = zlen rows) by (rewrite (omap_zlen _ _ _ (ci_types _ _ _ _ E2)), zlen_map; reflexivity).
  assert (W1 : forall t, In t (cf_types first) -> zlen t = zlen pt).
  { intros t Ht. destruct (omap_In _ _ _ _ (ci_types _ _ _ _ E1) Ht) as (e & He & Eb). apply in_map_iff in He. destruct He as (r & <- & _). destruct (bucketOf_known _ _ _ _ Eb (rw_before r) (or_introl eq_refl)) as (k & Hk & _). apply (bucketOf_one _ _ _ _ _ Hk) in Eb. destruct Eb as [[X _] Y]. lia. }
  assert (W2 : forall t, In t (cf_types second) -> zlen t = zlen pt).
  { intros t Ht. destruct (omap_In _ _ _ _ (ci_types _ _ _ _ E2) Ht) as (e & He & Eb). apply in_map_iff in He. destruct He as (r & <- & _). destruct (bucketOf_known _ _ _ _ Eb (rw_after r) (or_introl eq_refl)) as (k & Hk & _). apply (bucketOf_one _ _ _ _ _ Hk) in Eb. destruct Eb as [[X _] Y]. lia. }
  unfold mkProcess, configurationsToMatchList, updateTypes. rewrite (ci_update _ _ _ _ E2), LE.
  destruct (omap_total (fun i => t1 <- zget (cf_types first) i ;; t2 <- zget (cf_types second) i ;; updateFromTypes t1 t2) (zrange 0 (zlen rows - 1))) as [upd EU].
  { intros i Hi. apply In_zrange in Hi. destruct (zget_lt (cf_types first) i) as [t1 T1]; [lia|]. destruct (zget_lt (cf_types second) i) as [t2 T2]; [lia|]. rewrite T1, T2. cbn [obind]. unfold updateFromTypes. apply omap_total. intros j Hj. apply In_zrange in Hj.
    pose proof (W1 _ (zget_In _ _ _ T1)). pose proof (W2 _ (zget_In _ _ _ T2)). unfold bget. destruct (zget_lt t2 j) as [a A]; [lia|]. destruct (zget_lt t1 j) as [b B]; [lia|]. rewrite A, B. eexists. reflexivity. }
  rewrite EU. cbn [obind]. pose proof (omap_zlen _ _ _ EU) as LU. rewrite zlen_zrange in LU. destruct (zget_lt (cf_coords first) 0) as [origin EO]; [lia|]. rewrite EO. cbn [obind].
  assert (EF : exists acc, ofold (mlStep S origin (cf_coords first) (cf_types first) upd) (zrange 0 (zlen rows - 1)) (mkML 1 0 [] []) = Some acc /\ zlen (ml_list acc) = zlen rows).
  { assert (G : forall idx acc, (forall i, In i idx -> 0 <= i < zlen rows) -> exists acc', ofold (mlStep S origin (cf_coords first) (cf_types first) upd) idx acc = Some acc' /\ zlen (ml_list acc') = zlen (ml_list acc) + zlen idx).
    { induction idx as [|i idx IH]; intros acc Hi; [exists acc; split; [reflexivity|rewrite zlen_nil; lia]|]. cbn [ofold]. unfold mlStep at 1. pose proof (Hi i (or_introl eq_refl)). destruct (zget_lt (cf_coords first) i) as [c C]; [lia|]. destruct (zget_lt (cf_types first) i) as [t T]; [lia|]. destruct (zget_lt upd i) as [u U]; [lia|]. rewrite C, T, U. cbn [obind].
      match goal with |- exists acc', ofold _ _ ?x = _ /\ _ => destruct (IH x) as (acc' & X1 & X2) end; [intros j Hj; apply Hi; right; exact Hj|]. exists acc'. split; [exact X1|]. rewrite X2. cbn [ml_list]. rewrite zlen_app, !zlen_cons, zlen_nil. lia. }
    destruct (G (zrange 0 (zlen rows - 1)) (mkML 1 0 [] [])) as (acc & X & Y); [intros i Hi; apply In_zrange in Hi; lia|]. exists acc. split; [exact X|]. rewrite Y, zlen_zrange. cbn [ml_list]. rewrite zlen_nil. lia. }
  destruct EF as (acc & EF & LA). rewrite EF. cbn [obind]. unfold placeMoves.
  destruct (ofold_total (fun l => zlen l = zlen rows) (fun l i => o <- zget origins i ;; v <- zget vectors i ;; e <- zget l o ;; zset l o (set_move e v)) (zrange 0 (zlen origins - 1)) (ml_list acc)) as (l & EL & _).
  2: exact LA.
  - intros l i Hi Hl. apply In_zrange in Hi. destruct (zget_lt origins i) as [o O]; [lia|]. destruct (zget_lt vectors i) as [v V]; [lia|]. rewrite O, V. cbn [obind]. pose proof (HO o (zget_In _ _ _ O)). destruct (zget_lt l o) as [e E]; [lia|]. rewrite E. cbn [obind]. destruct (zset_lt l o (set_move e v)) as [l' Z]; [lia|].
    exists l'. split; [exact Z|]. rewrite (zset_len _ _ _ _ Z). exact Hl.
  - rewrite EL. eexists. reflexivity.
Qed.
