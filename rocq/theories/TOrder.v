(** C52: the order in which positions are listed does not matter. *)
From Coq Require Import Sorted.
From Verif Require Import PBase SModel SGeo SEvent SBuild SPlain SStep SBucket SOrder PLattice PProcess PMatcher PPerform PStep PGeo PPossible PRun PEffect PRematch PEvent PBuild PPlain PBucket POrder XCheck XSystems XRows.
Open Scope string_scope.
Open Scope list_scope.
Open Scope Z_scope.

Lemma custom_same S first second first' second' rate basis origins vectors origins' vectors' number cutoff cache p p' :
  (forall q q', mkProcess S first second rate basis origins vectors number = Some q -> mkProcess S first' second' rate basis origins' vectors' number = Some q' -> q = q') ->
  mkCustomProcess S first second rate basis cutoff origins vectors number cache = Some p -> mkCustomProcess S first' second' rate basis cutoff origins' vectors' number cache = Some p' -> p = p'.
Proof. intros H H1 H2. unfold mkCustomProcess in *. ob H1 as q Eq. ob H2 as q' Eq'. rewrite (H q q' Eq Eq') in H1. congruence. Qed.

(** ** C52 *)
(** Two lists of rows with the same first row (the centre, from which distances are measured) and otherwise the same rows in any order:
    the constructors make the same process of them, with and without a rate calculator.  The positions differ, and distances which differ
    do so by more than the tolerance. *)
Theorem C52_plain S pt r0 a b rate basis number custom p p' : 0 < S -> wfPT pt ->
  Permutation a b -> NoDup (map rw_c (r0 :: a)) -> clearlyApart S (rw_c r0) (map rw_c (r0 :: a)) ->
  madePlain S pt (r0 :: a) rate basis number custom p -> madePlain S pt (r0 :: b) rate basis number custom p' -> p = p'.
Proof.
  intros HS WP HP ND HA (f & s & o & v & E1 & E2 & MG & H) (f' & s' & o' & v' & F1 & F2 & MG' & H').
  assert (HPr : Permutation (r0 :: a) (r0 :: b)) by (constructor; exact HP).
  assert (HM : forall q q', mkProcess S f s rate basis o v number = Some q -> mkProcess S f' s' rate basis o' v' number = Some q' -> q = q').
  { intros q q' Eq Eq'. destruct (mkProcess_plain _ _ _ _ _ _ _ _ _ _ _ WP E1 E2 MG Eq) as [es PO]. destruct (mkProcess_plain _ _ _ _ _ _ _ _ _ _ _ WP F1 F2 MG' Eq') as [fs PO'].
    assert (R1 : forall rows q es, plainOf S pt rows basis q es -> zget rows 0 = Some r0 -> Forall2 (entryOfRow pt (rw_c r0)) rows es).
    { intros rows q0 es0 P E0. apply Forall2_zget; [apply P|]. intros i r e Hr He. destruct (po_rows _ _ _ _ _ _ P i r Hr) as (e' & He' & EF). assert (e' = e) by congruence. subst e'.
      split; [exact EF|]. destruct (po_d2 _ _ _ _ _ _ P) as (r1 & X1 & X2). assert (r1 = r0) by congruence. subst r1. rewrite (X2 e (zget_In _ _ _ He)), (en_c _ _ _ EF). reflexivity. }
    pose proof (R1 _ _ _ PO eq_refl) as RA. pose proof (R1 _ _ _ PO' eq_refl) as RB.
    pose proof (perm_related _ (entryOfRow_fun pt (rw_c r0)) _ _ HPr _ _ RA RB) as HPe.
    assert (HCs : map pe_c es = map rw_c (r0 :: a)) by (clear -RA; induction RA as [|? ? ? ? [X _] ? IH]; [reflexivity|]; cbn [map]; f_equal; [apply X|exact IH]).
    assert (ES : pr_ml q = pr_ml q').
    { rewrite (po_ml _ _ _ _ _ _ PO), (po_ml _ _ _ _ _ _ PO'). eapply sorted_same; [exact HS|exact HPe|rewrite HCs; reflexivity|exact HA|exact ND|].
      intros e He. destruct (po_d2 _ _ _ _ _ _ PO) as (r1 & X1 & X2). injection X1 as <-. apply X2. exact He. }
    rewrite (mkProcess_fields _ _ _ _ _ _ _ _ _ Eq), (mkProcess_fields _ _ _ _ _ _ _ _ _ Eq'), ES.
    apply mkConfiguration_info in E2, F2. rewrite (ci_update _ _ _ _ E2), (ci_update _ _ _ _ F2). reflexivity. }
  destruct custom as [[cutoff cache]|]; [eapply custom_same; eauto|apply HM; assumption].
Qed.
Theorem C52_bucket S pt r0 a b rate basis number custom p p' : 0 < S -> wfPT pt -> wfBRows (r0 :: a) ->
  Permutation a b -> NoDup (map br_c (r0 :: a)) -> clearlyApart S (br_c r0) (map br_c (r0 :: a)) ->
  madeBucket S pt (r0 :: a) rate basis number custom p -> madeBucket S pt (r0 :: b) rate basis number custom p' -> p = p'.
Proof.
  intros HS WP WR HP ND HA (f & E1 & H) (f' & F1 & H').
  assert (HPr : Permutation (r0 :: a) (r0 :: b)) by (constructor; exact HP).
  assert (WR' : wfBRows (r0 :: b)) by (split; [discriminate|]; intros r Hr; apply WR; apply (Permutation_in _ (Permutation_sym HPr)); exact Hr).
  assert (HM : forall q q', mkProcess S f (setUpdateInfo f (map br_upd (r0 :: a))) rate basis [] [] number = Some q -> mkProcess S f' (setUpdateInfo f' (map br_upd (r0 :: b))) rate basis [] [] number = Some q' -> q = q').
  { intros q q' Eq Eq'. destruct (mkProcess_bucket _ _ _ _ _ _ _ _ WP WR E1 Eq) as [es PO]. destruct (mkProcess_bucket _ _ _ _ _ _ _ _ WP WR' F1 Eq') as [fs PO'].
    assert (R1 : forall rows q es, bucketProc S pt rows basis q es -> zget rows 0 = Some r0 -> Forall2 (entryOfBRow pt (br_c r0)) rows es).
    { intros rows q0 es0 P E0. apply Forall2_zget; [apply P|]. intros i r e Hr He. destruct (bo_rows _ _ _ _ _ _ P i r Hr) as (e' & He' & EF). assert (e' = e) by congruence. subst e'.
      split; [exact EF|]. destruct (bo_d2 _ _ _ _ _ _ P) as (r1 & X1 & X2). assert (r1 = r0) by congruence. subst r1. rewrite (X2 e (zget_In _ _ _ He)), (eb_c _ _ _ EF). reflexivity. }
    pose proof (R1 _ _ _ PO eq_refl) as RA. pose proof (R1 _ _ _ PO' eq_refl) as RB.
    pose proof (perm_related _ (fun r e e' => entryOfBRow_fun pt (br_c r0) r e e' WP) _ _ HPr _ _ RA RB) as HPe.
    assert (HCs : map pe_c es = map br_c (r0 :: a)) by (clear -RA; induction RA as [|? ? ? ? [X _] ? IH]; [reflexivity|]; cbn [map]; f_equal; [apply X|exact IH]).
    assert (ES : pr_ml q = pr_ml q').
    { rewrite (bo_ml _ _ _ _ _ _ PO), (bo_ml _ _ _ _ _ _ PO'). eapply sorted_same; [exact HS|exact HPe|rewrite HCs; reflexivity|exact HA|exact ND|].
      intros e He. destruct (bo_d2 _ _ _ _ _ _ PO) as (r1 & X1 & X2). injection X1 as <-. apply X2. exact He. }
    rewrite (mkProcess_fields _ _ _ _ _ _ _ _ _ Eq), (mkProcess_fields _ _ _ _ _ _ _ _ _ Eq'), ES.
    cbn [setUpdateInfo cf_update]. rewrite !zlen_map. pose proof (Permutation_length HPr) as LP. unfold zlen. rewrite LP. reflexivity. }
  destruct custom as [[cutoff cache]|]; [eapply custom_same; eauto|apply HM; assumption].
Qed.

Lemma omap_perm {A B} (f : A -> option B) l m : Permutation l m -> forall es, omap f l = Some es -> exists fs, omap f m = Some fs /\ Permutation es fs.
Proof.
  induction 1; intros es E.
  - exists es. split; [exact E|reflexivity].
  - cbn [omap] in *. ob E as b Eb. ob E as bs Ebs. injection E as <-. destruct (IHPermutation _ Ebs) as (fs & F & P). rewrite Eb. cbn [Base.obind]. rewrite F. cbn [Base.obind]. eexists. split; [reflexivity|]. constructor. exact P.
  - cbn [omap] in *. ob E as b Eb. ob E as bs Ebs. ob Ebs as c Ec. ob Ebs as cs Ecs. injection Ebs as <-. injection E as <-. rewrite Ec. cbn [Base.obind]. rewrite Eb. cbn [Base.obind]. rewrite Ecs. cbn [Base.obind].
    eexists. split; [reflexivity|]. constructor.
  - destruct (IHPermutation1 _ E) as (fs & F & P). destruct (IHPermutation2 _ F) as (gs & G & Q). exists gs. split; [exact G|]. etransitivity; eauto.
Qed.
(** Surroundings: the sites around x, listed in any order, give the same list of surroundings. *)
Theorem C52_surroundings L basis R W cf x idx : wf_lattice L -> 0 <= R -> geoInput L basis R W cf -> zlen (cf_coords cf) = nsites L -> zlen (cf_types cf) = nsites L -> 0 <= x < nsites L ->
  Permutation idx (neighbourIndices L x R) -> configMatchList L cf x idx = configMatchList L cf x (neighbourIndices L x R).
Proof.
  intros WF HR GI LC LT Hx HP. destruct (scratch_eq L R cf x WF HR LC LT Hx) as (g & A1 & A2 & A3 & A4). pose proof A3 as A5. unfold scratchML in A5. rewrite A4 in A5. rewrite A5.
  pose proof (withTypes_geom (cf_types cf) g) as GG. rewrite (gi_coords _ _ _ _ _ GI) in A1.
  pose proof (basis_range L x WF Hx) as Hb. pose proof (gi_clean _ _ _ _ _ GI _ Hb) as HC.
  assert (SG : sortedGeo L basis R x g) by (apply scratchGeo_sorted; auto; apply GI).
  set (cl := map (withTypes (cf_types cf)) g) in *. unfold configMatchList in *. ob A5 as center Ec. rewrite Ec. cbn [Base.obind]. ob A5 as es Ees. injection A5 as Ecl.
  destruct (omap_perm _ _ _ (Permutation_sym HP) _ Ees) as (fs & F & P). rewrite F. cbn [Base.obind]. f_equal. rewrite <- Ecl. symmetry.
  pose proof (isort_perm (ceLt (lt_unit L)) es) as PI. rewrite Ecl in PI.
  assert (S0 : forall c, csub c czero = c) by (intros c; unfold csub, czero; cbn; rewrite !Z.sub_0_r; destruct c; reflexivity).
  assert (HG : forall e, In e es -> ce_d2 e = cnorm2 (ce_c e) /\ inReach L basis R (basisSiteFromIndex L x) (ce_c e)).
  { intros e He. apply (Permutation_in _ (Permutation_sym PI)) in He. unfold cl in He. apply in_map_iff in He. destruct He as (c & <- & Hc). cbn [withTypes ce_d2 ce_c]. pose proof (sg_good _ _ _ _ _ SG) as Q. rewrite Forall_forall in Q. exact (Q c Hc). }
  assert (HS0 : 0 < lt_unit L) by (destruct WF; lia).
  apply (isort_order ce_c ce_d2 (lt_unit L) HS0 czero es fs P).
  - intros a b (e & He & ->) (f & Hf & ->). rewrite !S0. apply HC; apply HG; assumption.
  - apply (Permutation_NoDup (Permutation_map ce_c PI)). rewrite (geom_eq_c _ _ GG). pose proof (sg_sorted _ _ _ _ _ SG) as Q. clear -Q. induction Q as [|c l Q IH HF]; constructor; auto.
    intros Hin. rewrite Forall_forall in HF. specialize (HF _ Hin). rewrite clt_irrefl in HF. discriminate.
  - intros e He. rewrite S0. apply HG. exact He.
Qed.

(** ** examples *)
Definition clearlyApartb (S : Z) (c0 : coord) (cs : list coord) : bool :=
  forallb (fun a => forallb (fun b => (cnorm2 (csub a c0) =? cnorm2 (csub b c0)) || distFar S (cnorm2 (csub a c0)) (cnorm2 (csub b c0))) cs) cs.
Lemma clearlyApartb_sound S c0 cs : clearlyApartb S c0 cs = true -> clearlyApart S c0 cs.
Proof.
  intros H v w (a & Ha & ->) (b & Hb & ->) HN. unfold clearlyApartb in H. rewrite forallb_forall in H. specialize (H a Ha). rewrite forallb_forall in H. specialize (H b Hb).
  apply orb_true_iff in H. destruct H as [H|H]; [apply Z.eqb_eq in H; contradiction|exact H].
Qed.
Definition madePlainOf (S : Z) (pt : tmap) (rows : list row) (origins : list Z) (vectors : list coord) rate basis number : option process :=
  first <- mkConfiguration (map rw_c rows) (map (fun r => [rw_before r]) rows) pt ;; second <- mkConfiguration (map rw_c rows) (map (fun r => [rw_after r]) rows) pt ;;
  mkProcess S first second rate basis origins vectors number.
Lemma madePlainOf_sound S pt rows origins vectors rate basis number p : movesGiven rows origins vectors -> madePlainOf S pt rows origins vectors rate basis number = Some p -> madePlain S pt rows rate basis number None p.
Proof. intros MG H. unfold madePlainOf in H. ob H as f Ef. ob H as s Es. exists f, s, origins, vectors. auto. Qed.
(** three rows around A, of which two exchange their particles *)
Definition c52a : row := mkRow (mkC 10 0 0) "B" "A" (Some (mkC (-10) 0 0)).
Definition c52b : row := mkRow (mkC 0 10 0) "B" "B" None.
Definition c52c : row := mkRow (mkC 0 (-10) 0) "*" "*" None.
Definition c520 : row := mkRow czero "A" "B" (Some (mkC 10 0 0)).
Definition boundedGet {A} (l : list A) (P : Z -> A -> Prop) : Prop := forall i a, zget l i = Some a -> P i a.
Lemma get4 {A} (a b c d : A) i x : zget [a; b; c; d] i = Some x -> (i = 0 /\ x = a) \/ (i = 1 /\ x = b) \/ (i = 2 /\ x = c) \/ (i = 3 /\ x = d).
Proof.
  intros H. apply zget_range in H as R. change (0 <= i < 4) in R. assert (i = 0 \/ i = 1 \/ i = 2 \/ i = 3) as [ -> | [ -> | [ -> | -> ] ] ] by lia; cbn in H; injection H as <-; auto 10.
Qed.
Lemma get2 {A} (a b : A) i x : zget [a; b] i = Some x -> (i = 0 /\ x = a) \/ (i = 1 /\ x = b).
Proof. intros H. apply zget_range in H as R. change (0 <= i < 2) in R. assert (i = 0 \/ i = 1) as [ -> | -> ] by lia; cbn in H; injection H as <-; auto. Qed.
Ltac moves4 := split; [reflexivity|]; split; [repeat constructor; cbn; intuition discriminate|]; split; [intros o Ho; cbn in Ho; cbn; intuition lia|];
  intros i r v Hr; apply get4 in Hr; destruct Hr as [[-> ->]|[[-> ->]|[[-> ->]|[-> ->]]]]; (split; [intros Hv; cbn in Hv; first [discriminate Hv|injection Hv as <-; first [exists 0; split; reflexivity|exists 1; split; reflexivity]]|
    intros (k & H1 & H2); apply get2 in H1; apply get2 in H2; destruct H1 as [[-> H1]|[-> H1]], H2 as [[K ->]|[K ->]]; try discriminate K; try discriminate H1; reflexivity]).
Example C52_example : exists S pt r0 a b rate basis number p, 0 < S /\ wfPT pt /\ a <> b /\ Permutation a b /\ NoDup (map rw_c (r0 :: a)) /\ clearlyApart S (rw_c r0) (map rw_c (r0 :: a)) /\
  madePlain S pt (r0 :: a) rate basis number None p /\ madePlain S pt (r0 :: b) rate basis number None p /\ zlen (pr_ml p) = 4 /\ zlen (pr_idmoves p) = 2.
Proof.
  exists 10, x1pt, c520, [c52a; c52b; c52c], [c52c; c52b; c52a], 3, [0], 1.
  assert (HP : Permutation [c52a; c52b; c52c] [c52c; c52b; c52a]) by (change (Permutation ([c52a] ++ [c52b; c52c]) (([c52c] ++ [c52b]) ++ [c52a])); rewrite Permutation_app_comm; apply Permutation_app_tail; apply perm_swap).
  assert (M1 : movesGiven (c520 :: [c52a; c52b; c52c]) [0; 1] [mkC 10 0 0; mkC (-10) 0 0]) by moves4.
  assert (M2 : movesGiven (c520 :: [c52c; c52b; c52a]) [0; 3] [mkC 10 0 0; mkC (-10) 0 0]) by moves4.
  assert (ND : NoDup (map rw_c (c520 :: [c52a; c52b; c52c]))) by (repeat constructor; cbn; intuition discriminate).
  assert (CA : clearlyApart 10 (rw_c c520) (map rw_c (c520 :: [c52a; c52b; c52c]))) by (apply clearlyApartb_sound; vm_compute; reflexivity).
  assert (WP : wfPT x1pt) by (apply wfPTb_sound; vm_compute; reflexivity).
  destruct (madePlainOf 10 x1pt (c520 :: [c52a; c52b; c52c]) [0; 1] [mkC 10 0 0; mkC (-10) 0 0] 3 [0] 1) as [p|] eqn:E; [|vm_compute in E; discriminate].
  destruct (madePlainOf 10 x1pt (c520 :: [c52c; c52b; c52a]) [0; 3] [mkC 10 0 0; mkC (-10) 0 0] 3 [0] 1) as [p'|] eqn:E'; [|vm_compute in E'; discriminate].
  pose proof (madePlainOf_sound _ _ _ _ _ _ _ _ _ M1 E) as H1. pose proof (madePlainOf_sound _ _ _ _ _ _ _ _ _ M2 E') as H2.
  assert (p = p') by (apply (C52_plain 10 x1pt c520 _ _ 3 [0] 1 None p p' eq_refl WP HP ND CA H1 H2)). subst p'.
  exists p. split; [reflexivity|]. split; [exact WP|]. split; [discriminate|]. split; [exact HP|]. split; [exact ND|]. split; [exact CA|]. split; [exact H1|]. split; [exact H2|].
  vm_compute in E. injection E as <-. split; reflexivity.
Qed.

Example C52_bucket_example : exists S pt r0 a b rate basis number cutoff p, 0 < S /\ wfPT pt /\ wfBRows (r0 :: a) /\ a <> b /\ Permutation a b /\ NoDup (map br_c (r0 :: a)) /\ clearlyApart S (br_c r0) (map br_c (r0 :: a)) /\
  madeBucket S pt (r0 :: a) rate basis number (Some (cutoff, true)) p /\ madeBucket S pt (r0 :: b) rate basis number (Some (cutoff, true)) p /\ zlen (pr_ml p) = 3.
Proof.
  set (r0 := mkBRow czero ["A"] [("A", -1); ("B", 1)]). set (r1 := mkBRow (mkC 10 0 0) ["B"; "A"] [("B", -1)]). set (r2 := mkBRow (mkC 0 0 10) ["*"] []).
  exists 10, x1pt, r0, [r1; r2], [r2; r1], 3, [0], 1, 15.
  assert (HP : Permutation [r1; r2] [r2; r1]) by apply perm_swap.
  assert (WP : wfPT x1pt) by (apply wfPTb_sound; vm_compute; reflexivity).
  assert (WR : wfBRows (r0 :: [r1; r2])) by (split; [discriminate|]; intros r Hr; cbn in Hr; destruct Hr as [<-|[<-|[<-|[]]]]; vm_compute; repeat split; auto; try (intros [|]; discriminate); try discriminate; repeat constructor; cbn; intuition discriminate).
  assert (ND : NoDup (map br_c (r0 :: [r1; r2]))) by (repeat constructor; cbn; intuition discriminate).
  assert (CA : clearlyApart 10 (br_c r0) (map br_c (r0 :: [r1; r2]))) by (apply clearlyApartb_sound; vm_compute; reflexivity).
  set (mk := fun rows => first <- mkConfiguration (map br_c rows) (map br_before rows) x1pt ;; mkCustomProcess 10 first (setUpdateInfo first (map br_upd rows)) 3 [0] 15 [] [] 1 true).
  assert (MS : forall rows p, mk rows = Some p -> madeBucket 10 x1pt rows 3 [0] 1 (Some (15, true)) p) by (intros rows p H; unfold mk in H; ob H as f Ef; exists f; auto).
  destruct (mk (r0 :: [r1; r2])) as [p|] eqn:E; [|vm_compute in E; discriminate].
  destruct (mk (r0 :: [r2; r1])) as [p'|] eqn:E'; [|vm_compute in E'; discriminate].
  assert (p = p') by (apply (C52_bucket 10 x1pt r0 _ _ 3 [0] 1 (Some (15, true)) p p' eq_refl WP WR HP ND CA (MS _ _ E) (MS _ _ E'))). subst p'.
  exists p. split; [reflexivity|]. split; [exact WP|]. split; [exact WR|]. split; [discriminate|]. split; [exact HP|]. split; [exact ND|]. split; [exact CA|]. split; [apply MS; exact E|]. split; [apply MS; exact E'|].
  vm_compute in E. injection E as <-. reflexivity.
Qed.
Strategy expand [xaCheck].
Example C52_surroundings_example : exists L basis R W cf x cl, wf_lattice L /\ 0 <= R /\ geoInput L basis R W cf /\ zlen (cf_coords cf) = nsites L /\ zlen (cf_types cf) = nsites L /\ 0 <= x < nsites L /\
  rev (neighbourIndices L x R) <> neighbourIndices L x R /\ configMatchList L cf x (rev (neighbourIndices L x R)) = Some cl /\ configMatchList L cf x (neighbourIndices L x R) = Some cl /\ 5 < zlen cl.
Proof.
  assert (H : xaCheck (fun cf it md md' => geoInputb x1L x1basis 1 (zlen (cf_ptypes cf)) cf && (zlen (cf_coords cf) =? nsites x1L) && (zlen (cf_types cf) =? nsites x1L) &&
    match configMatchList x1L cf 5 (neighbourIndices x1L 5 1) with Some cl => 5 <? zlen cl | None => false end) = true) by (vm_compute; reflexivity).
  unfold xaCheck in H. apply userCheck_sound in H. destruct H as (cf & it & md & md' & US & HQ).
  destruct (configMatchList x1L cf 5 (neighbourIndices x1L 5 1)) as [cl|] eqn:E; [|rewrite andb_false_r in HQ; discriminate].
  rewrite !andb_true_iff in HQ. destruct HQ as (((H1 & H2) & H3) & H4). apply geoInputb_sound in H1.
  assert (WF : wf_lattice x1L) by (repeat split; vm_compute; first [reflexivity|discriminate]).
  exists x1L, x1basis, 1, (zlen (cf_ptypes cf)), cf, 5, cl. split; [exact WF|]. split; [lia|]. split; [exact H1|]. split; [lia|]. split; [lia|]. split; [vm_compute; split; [discriminate|reflexivity]|].
  split; [vm_compute; discriminate|]. split; [|split; [exact E|lia]].
  rewrite <- E. eapply C52_surroundings; eauto; try lia; [vm_compute; split; [discriminate|reflexivity]|]. apply Permutation_sym, Permutation_rev.
Qed.

(** Distances within the tolerance of each other: the comparison of the code is not transitive, and the order does matter.  Coordinates in
    units of 1e-6; the three positions are at distances 1.000000, 1.000006 and 1.000012 from the centre. *)
Definition c52x : row := mkRow (mkC 1000000 0 0) "A" "B" None.
Definition c52y : row := mkRow (mkC 999000 44844 0) "B" "A" None.
Definition c52z : row := mkRow (mkC 998000 63403 0) "A" "A" None.
Lemma nomoves rows : (forall r, In r rows -> rw_move r = None) -> movesGiven rows [] [].
Proof. intros H. split; [reflexivity|]. split; [constructor|]. split; [intros o []|]. intros i r v Hr. rewrite (H r (zget_In _ _ _ Hr)). split; [discriminate|]. intros (k & Hk & _). rewrite zget_nil in Hk. discriminate. Qed.
Theorem C52_tolerance_refuted : exists S pt r0 a b rate basis number p p', 0 < S /\ wfPT pt /\ Permutation a b /\ NoDup (map rw_c (r0 :: a)) /\
  madePlain S pt (r0 :: a) rate basis number None p /\ madePlain S pt (r0 :: b) rate basis number None p' /\ pr_ml p <> pr_ml p'.
Proof.
  set (r0 := mkRow czero "A" "B" None).
  exists 1000000, x1pt, r0, [c52x; c52y; c52z], [c52z; c52x; c52y], 3, [0], 1.
  destruct (madePlainOf 1000000 x1pt (r0 :: [c52x; c52y; c52z]) [] [] 3 [0] 1) as [p|] eqn:E; [|vm_compute in E; discriminate].
  destruct (madePlainOf 1000000 x1pt (r0 :: [c52z; c52x; c52y]) [] [] 3 [0] 1) as [p'|] eqn:E'; [|vm_compute in E'; discriminate].
  exists p, p'. split; [reflexivity|]. split; [apply wfPTb_sound; vm_compute; reflexivity|].
  split; [change [c52z; c52x; c52y] with ([c52z] ++ [c52x; c52y]); rewrite Permutation_app_comm; reflexivity|].
  split; [repeat constructor; cbn; intuition discriminate|].
  split; [eapply madePlainOf_sound; [|exact E]; apply nomoves; intros r [<-|[<-|[<-|[<-|[]]]]]; reflexivity|].
  split; [eapply madePlainOf_sound; [|exact E']; apply nomoves; intros r [<-|[<-|[<-|[<-|[]]]]]; reflexivity|].
  vm_compute in E, E'. injection E as <-. injection E' as <-. discriminate.
Qed.
(** The first row is special: distances are measured from it.  Here two rows change places; the entries keep their positions but not their
    distances. *)
Theorem C52_first_row_refuted : exists S pt r0 r1 rate basis number p p', 0 < S /\ wfPT pt /\
  madePlain S pt [r0; r1] rate basis number None p /\ madePlain S pt [r1; r0] rate basis number None p' /\ pr_ml p <> pr_ml p'.
Proof.
  set (r0 := mkRow czero "A" "B" None). exists 10, x1pt, r0, c52b, 3, [0], 1.
  destruct (madePlainOf 10 x1pt [r0; c52b] [] [] 3 [0] 1) as [p|] eqn:E; [|vm_compute in E; discriminate].
  destruct (madePlainOf 10 x1pt [c52b; r0] [] [] 3 [0] 1) as [p'|] eqn:E'; [|vm_compute in E'; discriminate].
  exists p, p'. split; [reflexivity|]. split; [apply wfPTb_sound; vm_compute; reflexivity|].
  split; [eapply madePlainOf_sound; [|exact E]; apply nomoves; intros r [<-|[<-|[]]]; reflexivity|].
  split; [eapply madePlainOf_sound; [|exact E']; apply nomoves; intros r [<-|[<-|[]]]; reflexivity|].
  vm_compute in E, E'. injection E as <-. injection E' as <-. discriminate.
Qed.

Print Assumptions C52_plain.
Print Assumptions C52_bucket.
Print Assumptions C52_surroundings.
Print Assumptions C52_tolerance_refuted.
Print Assumptions C52_first_row_refuted.
