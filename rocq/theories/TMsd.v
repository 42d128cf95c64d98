(** C39, C58, C63, C64: mean square displacement and block averages. *)
From Verif Require Import PBase PGeo PStepInv PAnalysis MMsd SMsd SBlocker PMsd.
From Verif Require Import SModel SGeo SEvent SBuild SPlain SStep SBucket PStep PRun PPlain PRow PBuild TStep TAtoms XCheck XSystems XRows.
From Coq Require Import ZifyBool.
Open Scope string_scope.
Open Scope list_scope.
Open Scope Z_scope.

(** ** C39 *)
(** The parameters of the analysis: [H] history steps, [nb] bins sharing the time [tmax], the cell vectors, a block size; n atoms. *)
Section C39.
Context (H nb tmax size n : Z) (track : string) (ca cb cc : coord) (start : Z * config) (steps : list (Z * config)).
Context (H1 : 1 <= H) (Hnb : 0 <= nb) (Ht : 0 < tmax) (Hs : forall o, In o (start :: steps) -> nAtoms n o) (Hf : forwards (fst start) (map fst steps)).
Notation run := (msRun H nb tmax track (transpose3 ca cb cc) size start steps).
Notation stopsOf := (fun id => stops track id start steps).
(** all the comparisons due in the run, and those of bin b *)
Notation due := (allCompared (H - 1) n stopsOf).

Lemma run_inv : exists ms log t, run = Some ms /\ msInv H nb tmax size n track ca cb cc t stopsOf log ms.
Proof.
  destruct start as [t0 cf0]. destruct (start_ok H nb tmax size n track ca cb cc H1 Hnb Ht t0 cf0 (Hs _ (or_introl eq_refl))) as (ms0 & E0 & I0).
  destruct (msSteps_ok H nb tmax size n track ca cb cc H1 Hnb Ht steps t0 _ _ _ I0 (fun o Ho => Hs o (or_intror Ho)) Hf) as (ms & log & t & E & I).
  exists ms, log, t. split; [|exact I]. unfold msRun. cbn [fst snd]. rewrite E0. exact E.
Qed.
(** The analysis never fails. *)
Theorem C39_runs : exists ms, run = Some ms.
Proof. destruct run_inv as (ms & _ & _ & E & _). eauto. Qed.
(** The history of an atom holds its last stops, newest first, at most H of them. *)
Theorem C39_history ms id h : run = Some ms -> zget (ms_history ms) id = Some h ->
  zlen h = Z.min H (zlen (stops track id start steps)) /\
  forall k, 0 <= k < zlen h -> zget h k = zget (stops track id start steps) (zlen (stops track id start steps) - 1 - k).
Proof.
  intros E Eh. destruct run_inv as (ms' & log & t & E' & I). rewrite E in E'. injection E' as <-. pose proof (zget_range _ _ _ Eh) as HR. rewrite (mi_len _ _ _ _ _ _ _ _ _ _ _ _ _ I) in HR.
  rewrite (mi_hist _ _ _ _ _ _ _ _ _ _ _ _ _ I id HR) in Eh. injection Eh as <-. set (v := stops track id start steps) in *. rewrite zlen_firstn, zlen_rev. split; [lia|].
  intros k Hk. rewrite firstn_get. replace (k <? Z.of_nat (Z.to_nat H)) with true by lia. rewrite !zget_nth by lia. rewrite nth_error_rev_local by (unfold zlen in *; lia). f_equal. unfold zlen in *. lia.
Qed.
(** Each move is compared with each stored stop exactly once, in the bin of the time difference: every bin holds the number of comparisons due in it,
    the sum of their squared displacements and the sum of the squares of these. *)
Theorem C39_bins ms b : run = Some ms -> 0 <= b < nb ->
  zget (ms_bins ms) b = Some (tally (fallsIn tmax nb b) due) /\
  zget (ms_hist ms) b = Some (csum (map (squared ca cb cc) (filter (fallsIn tmax nb b) due))) /\
  zget (ms_sqr ms) b = Some (csum (map (fun c => squares (squared ca cb cc c)) (filter (fallsIn tmax nb b) due))).
Proof.
  intros E Hb. destruct run_inv as (ms' & log & t & E' & I). rewrite E in E'. injection E' as <-. pose proof (mi_fits _ _ _ _ _ _ _ _ _ _ _ _ _ I) as F. pose proof (mi_log _ _ _ _ _ _ _ _ _ _ _ _ _ I) as P.
  assert (PF : forall f, Permutation (filter f log) (filter f due)) by (intros f; now apply Permutation_filter_local).
  split; [|split].
  - rewrite (mf_bins _ _ _ _ _ _ _ _ _ _ F b Hb). f_equal. unfold tally. now rewrite (zlen_perm _ _ (PF _)).
  - rewrite (mf_hist _ _ _ _ _ _ _ _ _ _ F b Hb). f_equal. apply csum_perm. apply Permutation_map, PF.
  - rewrite (mf_sqr _ _ _ _ _ _ _ _ _ _ F b Hb). f_equal. apply csum_perm. apply Permutation_map, PF.
Qed.
(** The same resolved by how many stops lie between the stops compared: counts per bin, and counts of all comparisons, also of those beyond tmax. *)
Theorem C39_lags ms k : run = Some ms ->
  (0 <= k < H -> zget (ms_hcounts ms) k = Some (tally (fun c => lag c =? k + 1) due)) /\
  (0 <= k < H - 1 -> exists row, zget (ms_hbins ms) k = Some row /\ zlen row = nb /\
     forall b, 0 <= b < nb -> zget row b = Some (tally (fun c => (lag c =? k + 1) && fallsIn tmax nb b c) due)).
Proof.
  intros E. destruct run_inv as (ms' & log & t & E' & I). rewrite E in E'. injection E' as <-. pose proof (mi_fits _ _ _ _ _ _ _ _ _ _ _ _ _ I) as F. pose proof (mi_log _ _ _ _ _ _ _ _ _ _ _ _ _ I) as P.
  assert (PT : forall f, tally f log = tally f due) by (intros f; unfold tally; apply zlen_perm; now apply Permutation_filter_local).
  split; intros Hk.
  - rewrite (mf_hcounts _ _ _ _ _ _ _ _ _ _ F k Hk). now rewrite PT.
  - destruct (mf_hbins _ _ _ _ _ _ _ _ _ _ F k Hk) as (row & E1 & E2 & E3). exists row. split; [exact E1|]. split; [exact E2|]. intros b Hb. rewrite (E3 b Hb). now rewrite PT.
Qed.
(** The blocks of a bin are cut from its squared displacements, listed in some order (that of their registration). *)
Theorem C39_blocks ms b : run = Some ms -> 0 <= b < nb ->
  exists values blocks rest, Permutation values (map (squared ca cb cc) (filter (fallsIn tmax nb b) due)) /\ cutIn size values blocks rest /\
    zget (bl_blocks (ms_blocker ms)) b = Some (map csum blocks).
Proof.
  intros E Hb. destruct run_inv as (ms' & log & t & E' & I). rewrite E in E'. injection E' as <-. pose proof (mi_fits _ _ _ _ _ _ _ _ _ _ _ _ _ I) as F. pose proof (mi_log _ _ _ _ _ _ _ _ _ _ _ _ _ I) as P.
  destruct (mf_blocker _ _ _ _ _ _ _ _ _ _ F) as (calls & [B1 B2 B3 B4 B5] & HC).
  destruct (zget_lt (bl_since (ms_blocker ms)) b) as (s & Es); [lia|]. destruct (zget_lt (bl_current (ms_blocker ms)) b) as (c & Ec); [lia|]. destruct (zget_lt (bl_blocks (ms_blocker ms)) b) as (bs & Eb); [lia|].
  destruct (B5 b s c bs Es Ec Eb) as (blocks & rest & CI & _ & _ & ->). rewrite HC in CI by exact Hb. exists (map (squared ca cb cc) (filter (fallsIn tmax nb b) log)), blocks, rest.
  split; [apply Permutation_map; now apply Permutation_filter_local|]. split; [exact CI|exact Eb].
Qed.

(** ** C63 *)
(** Result number r of bin b is the mean of the squared displacements in direction r over the comparisons that fall in the bin, 0 if there are none. *)
Theorem C63_means ms r f b : run = Some ms -> zget directions r = Some f -> 0 <= b < nb ->
  exists row q, zget (msResults ms) r = Some row /\ zlen row = nb /\ zget row b = Some q /\
    let values := map (fun c => f (squared ca cb cc c)) (filter (fallsIn tmax nb b) due) in (values <> [] -> isMean values q) /\ (values = [] -> (q == 0)%Q).
Proof.
  intros E Hf' Hb. pose proof (C39_bins ms b E Hb) as (B1 & B2 & _).
  assert (L : zlen (ms_hist ms) = nb /\ zlen (ms_bins ms) = nb).
  { destruct run_inv as (ms' & log & t & E' & I). rewrite E in E'. injection E' as <-. pose proof (mi_fits _ _ _ _ _ _ _ _ _ _ _ _ _ I) as F. split; [apply (mf_lhist _ _ _ _ _ _ _ _ _ _ F)|apply (mf_lbins _ _ _ _ _ _ _ _ _ _ F)]. }
  destruct L as [L1 L2]. exists (msResult f ms), (inject_Z (f (csum (map (squared ca cb cc) (filter (fallsIn tmax nb b) due)))) / inject_Z (msDivisor (tally (fallsIn tmax nb b) due)))%Q.
  pose proof (zget_In _ _ _ Hf') as HIn. split; [|split; [|split]].
  - change (msResults ms) with (map (fun g => msResult g ms) directions).
    rewrite zget_map, Hf'. reflexivity.
  - unfold msResult. rewrite zlen_map, zlen_combine; lia.
  - unfold msResult. rewrite zget_map, (combine_zget _ _ _ _ _ B2 B1). reflexivity.
  - cbv zeta. set (sel := filter (fallsIn tmax nb b) due). rewrite <- (zsum_directions f HIn). rewrite map_map. set (vs := map (fun c => f (squared ca cb cc c)) sel). assert (ET : tally (fallsIn tmax nb b) due = zlen vs) by (unfold vs; rewrite zlen_map; reflexivity). rewrite ET.
    destruct vs as [|v vs']; [split; [easy|intros _; reflexivity]|]. split; [intros _|discriminate]. split; [cbn; lia|]. pose proof (zlen_nonneg vs'). unfold msDivisor. rewrite zlen_cons. replace (zlen vs' + 1 =? 0) with false by lia.
    field. intros X. unfold Qeq in X. cbn in X. lia.
Qed.
(** The time of bin b is the centre of the bin. *)
Theorem C63_times ms b : run = Some ms -> 0 <= b < nb -> exists q, zlen (msTimes ms) = nb /\ zget (msTimes ms) b = Some q /\ (q * inject_Z (2 * nb) == inject_Z ((2 * b + 1) * tmax))%Q.
Proof.
  intros E Hb. assert (EP : ms_tmax ms = tmax /\ ms_nbins ms = nb).
  { destruct run_inv as (ms' & log & t & E' & I). rewrite E in E'. injection E' as <-. pose proof (mi_fits _ _ _ _ _ _ _ _ _ _ _ _ _ I) as F. split; [apply (mf_tmax _ _ _ _ _ _ _ _ _ _ F)|apply (mf_nbins _ _ _ _ _ _ _ _ _ _ F)]. }
  destruct EP as [E1 E2]. unfold msTimes. rewrite E1, E2. rewrite zlen_map, zlen_zrange. rewrite zget_map, zget_zrange by lia. eexists. split; [lia|]. split; [reflexivity|].
  replace (0 + b) with b by lia. rewrite !inject_Z_mult, inject_Z_plus, inject_Z_mult. change (inject_Z 2) with 2%Q. change (inject_Z 1) with 1%Q. field. intros X. unfold Qeq in X. cbn in X. lia.
Qed.
(** The effective number of steps of bin b is the mean lag of the comparisons in the bin, 0 if there are none. *)
Theorem C63_steps ms : run = Some ms -> exists neff, msNeff ms = Some neff /\ zlen neff = nb /\
  forall b, 0 <= b < nb -> exists q, zget neff b = Some q /\
    let lags := map lag (filter (fallsIn tmax nb b) due) in (lags <> [] -> isMean lags q) /\ (lags = [] -> (q == 0)%Q).
Proof.
  intros E.
  assert (L : zlen (ms_bins ms) = nb /\ zlen (ms_hbins ms) = H - 1).
  { destruct run_inv as (ms' & log & t & E' & I). rewrite E in E'. injection E' as <-. pose proof (mi_fits _ _ _ _ _ _ _ _ _ _ _ _ _ I) as F. split; [apply (mf_lbins _ _ _ _ _ _ _ _ _ _ F)|apply (mf_lhbins _ _ _ _ _ _ _ _ _ _ F)]. }
  destruct L as [L1 L2].
  assert (ROW : forall k row, zget (ms_hbins ms) k = Some row -> zlen row = nb /\ forall b, 0 <= b < nb -> zget row b = Some (tally (fun c => (lag c =? k + 1) && fallsIn tmax nb b c) due)).
  { intros k row Er. pose proof (zget_range _ _ _ Er). destruct (C39_lags ms k E) as [_ X]. destruct (X ltac:(lia)) as (row' & R1 & R2 & R3). rewrite Er in R1. injection R1 as <-. auto. }
  assert (CNT : forall b n, zget (ms_bins ms) b = Some n -> n = tally (fallsIn tmax nb b) due /\ 0 <= b < nb).
  { intros b m Eb. pose proof (zget_range _ _ _ Eb) as HB. rewrite L1 in HB. destruct (C39_bins ms b E HB) as (X & _). rewrite Eb in X. injection X as ->. auto. }
  destruct (neff_all ms) as (neff & EN & LN & HN).
  - intros k row Er. rewrite L1. apply (ROW k row Er).
  - intros b m Eb. destruct (CNT _ _ Eb) as [-> _]. apply zlen_nonneg.
  - intros k row b m v Er Eb Ev Z0. destruct (CNT _ _ Eb) as [-> HB]. destruct (ROW _ _ Er) as [_ R]. rewrite (R b HB) in Ev. injection Ev as <-. unfold tally in *. apply zlen_0 in Z0.
    clear - Z0. induction due as [|c l IH]; [reflexivity|]. cbn [filter] in *. destruct (fallsIn tmax nb b c) eqn:F; [discriminate|]. rewrite Bool.andb_false_r. auto.
  - exists neff. split; [exact EN|]. split; [lia|]. intros b Hb. destruct (zget_lt (ms_bins ms) b) as (m & Eb); [lia|]. destruct (HN b m Eb) as (q & Q1 & Q2 & Q3). destruct (CNT _ _ Eb) as [Em _]. exists q. split; [exact Q1|]. cbv zeta.
    assert (EW : weighted (ms_hbins ms) b (zlen (ms_hbins ms)) = zsum (map lag (filter (fallsIn tmax nb b) due))).
    { rewrite (lags_sum _ (H - 1)) by (try lia; intros c Hc; unfold allCompared in Hc; apply in_flat_map in Hc; destruct Hc as (id & _ & Hc); eapply compared_lags; exact Hc).
      unfold weighted. rewrite L2. f_equal. apply map_ext_in. intros k Hk. apply In_zrange in Hk. destruct (zget_lt (ms_hbins ms) k) as (row & Er); [lia|]. rewrite Er. destruct (ROW _ _ Er) as [_ R]. rewrite (R b Hb). reflexivity. }
    rewrite EW in Q2. set (ls := map lag (filter (fallsIn tmax nb b) due)) in *. assert (EL : m = zlen ls) by (rewrite Em; unfold ls; rewrite zlen_map; reflexivity). split.
    + intros NE. split; [destruct ls; [easy|cbn; lia]|]. rewrite <- EL. exact Q2.
    + intros ->. apply Q3. rewrite EL. reflexivity.
Qed.
(** The safe cutoff is the first bin in which the comparisons with the largest possible lag number more than one percent of their maximum over the bins;
    nb if there is none.  It exists when there are at least two history steps and a bin. *)
Theorem C63_cutoff ms : run = Some ms -> 2 <= H -> 1 <= nb ->
  let last := fun b => tally (fun c => (lag c =? H - 1) && fallsIn tmax nb b c) due in
  exists cut top, msSafeCutoff ms = Some cut /\ 0 <= cut <= nb /\ (exists b, 0 <= b < nb /\ top = last b) /\ (forall b, 0 <= b < nb -> last b <= top) /\
    (forall b, 0 <= b < cut -> 100 * last b <= top) /\ (cut < nb -> top < 100 * last cut).
Proof.
  intros E H2 Hnb1 last. destruct (C39_lags ms (H - 2) E) as [_ X]. destruct (X ltac:(lia)) as (row & R1 & R2 & R3).
  assert (L2 : zlen (ms_hbins ms) = H - 1).
  { destruct run_inv as (ms' & log & t & E' & I). rewrite E in E'. injection E' as <-. pose proof (mi_fits _ _ _ _ _ _ _ _ _ _ _ _ _ I) as F. apply (mf_lhbins _ _ _ _ _ _ _ _ _ _ F). }
  assert (ER : exists tl, rev (ms_hbins ms) = row :: tl).
  { destruct (rev (ms_hbins ms)) as [|r0 tl] eqn:EV; [apply (f_equal (@List.length _)) in EV; rewrite rev_length in EV; cbn in EV; unfold zlen in L2; lia|]. exists tl. f_equal.
    pose proof (nth_error_rev_local (ms_hbins ms) 0) as N. rewrite EV in N. cbn [nth_error] in N. rewrite zget_nth in R1 by lia. assert (EQ : Some r0 = Some row); [|now injection EQ].
    rewrite N by (unfold zlen in L2; lia). rewrite <- R1. f_equal. unfold zlen in L2. lia. }
  destruct ER as (tl & ER). replace (H - 2 + 1) with (H - 1) in R3 by lia. unfold msSafeCutoff. rewrite ER. destruct row as [|c row]; [rewrite zlen_nil in R2; lia|].
  set (limit := (inject_Z (fold_left Z.max row c) * (1 # 100))%Q). destruct (firstAbove_spec limit (c :: row) 0) as (S1 & S2 & S3). cbv zeta in S1, S2, S3. set (cut := firstAbove limit 0 (c :: row)) in *.
  destruct (fold_max_spec row c) as (M1 & M2 & M3). set (top := fold_left Z.max row c) in *.
  assert (LE : forall v, (inject_Z v <= limit)%Q <-> 100 * v <= top) by (intros v; unfold limit, Qle, Qmult, inject_Z; cbn [Qnum Qden]; change (Z.pos (1 * 100)) with 100; lia).
  exists cut, top. split; [reflexivity|]. split; [lia|]. split; [|split; [|split]].
  - apply In_zget in M3. destruct M3 as (b & Eb). pose proof (zget_range _ _ _ Eb). exists b. split; [lia|]. rewrite R3 in Eb by lia. now injection Eb.
  - intros b Hb. assert (In (last b) (c :: row)) by (eapply zget_In; apply R3; exact Hb). destruct H0 as [<-|H0]; [exact M1|auto].
  - intros b Hb. apply LE. apply (S2 b); [exact Hb|]. rewrite Z.sub_0_r. apply R3. lia.
  - intros Hc. apply Z.nle_gt. intros X0. apply LE in X0. assert (LT : (limit < inject_Z (last cut))%Q) by (apply S3; rewrite Z.sub_0_r; apply R3; lia). exact (Qlt_not_le _ _ LT X0).
Qed.
End C39.

(** In a simulation the observations fit the atoms of the lattice, so that the analysis of every run is as described. *)
Lemma reach_nAtoms ranks hash L cf it spec md t : userInput ranks L cf it spec -> allProcs it spec permuting -> reachable ranks hash L cf it md -> nAtoms (nsites L) (t, md_cf md).
Proof.
  intros UI HP HR. pose proof (ui_wf _ _ _ _ _ UI) as WI. destruct (start_ids _ _ _ _ _ UI) as (A0 & A1 & A2). pose proof (user_std _ _ _ _ _ UI) as ST.
  destruct (reach_cframe _ _ _ _ _ _ HR) as (md0 & SC & CF). unfold nAtoms. cbn [snd].
  split; [rewrite (cfr_le _ _ CF), (sc_elements _ _ SC); apply (wi_elements _ _ _ _ WI)|].
  split; [rewrite (cfr_lae _ _ CF), (sc_aidel _ _ SC); exact A2|].
  split; [rewrite (cfr_lac _ _ CF), (sc_aidcoords _ _ SC), A1; apply (wi_coords _ _ _ _ WI)|]. clear SC CF md0.
  assert (HM : zlen (cf_moved (md_cf md)) = zlen (cf_recent (md_cf md))).
  { destruct (reachable_info _ _ _ _ _ _ WI HR) as (cf1 & it2 & RI). destruct (initMatchLists_fields _ _ _ _ (ri_init _ _ _ _ _ _ _ _ RI)) as (mls & m & _ & _ & ->). pose proof (ri_frame _ _ _ _ _ _ _ _ RI) as CF.
    rewrite (cfr_lm _ _ CF), (cfr_lr _ _ CF). cbn. unfold vresize, zlen. rewrite !app_length, !firstn_length, !repeat_length. lia. }
  revert HM. revert md HR. apply (reach_ind _ _ _ _ _ (fun md => zlen (cf_moved (md_cf md)) = zlen (cf_recent (md_cf md)) -> forall id, In id (movedAtomIDs (md_cf md)) -> 0 <= id < nsites L)).
  - intros md0 E0 _ id Hid. exfalso. assert (E : cf_nmoved (md_cf md0) = 0).
    { destruct (ui_cf _ _ _ _ _ UI) as (coords & els & E). unfold mkConfiguration in E. ob E as ae X1. ob E as nm X2. ob E as ty X3. injection E as E.
      transitivity (cf_nmoved cf); [|now rewrite <- E]. clear - E0. unfold mkLatticeModel, calculateInitialMatching in E0. cbn [md_lat md_cf md_in md_mt] in E0. ob E0 as md1 E1. injection E0 as <-. cbn [md_cf].
      ob E1 as cf1 X1. ob E1 as it1 X2. ob E1 as r X3. destruct r as [[mt it'] cf']. injection E1 as <-. cbn [md_cf]. destruct (calculateMatching_cf _ _ _ _ _ _ _ _ X3) as [mls ->]. destruct (initMatchLists_fields _ _ _ _ X1) as (mls1 & m & _ & _ & ->). reflexivity. }
    unfold movedAtomIDs in Hid. rewrite E in Hid. exact Hid.
  - intros md u1 u2 md' HR _ HS HM id Hid. destruct (std_step _ _ _ _ _ ST _ _ _ _ HR HS) as (i & p & x & ys & Ep & _ & _ & _ & _ & _ & EF).
    pose proof (C21_labels _ _ _ _ _ _ _ UI HP HR) as PL.
    assert (HL : 0 < nsites L).
    { pose proof (zlen_nonneg ys). assert (Hn : 0 <= nsites L) by (pose proof (zlen_nonneg (cf_coords cf)) as HN; rewrite (wi_coords _ _ _ _ WI) in HN; exact HN). destruct (Z.eq_dec (nsites L) 0) as [E|]; [|lia]. exfalso.
      destruct (zget_lt (movedAtomIDs (md_cf md')) 0) as (w & _); [destruct (In_zget _ _ Hid) as (k & Ek); apply zget_range in Ek; lia|].
      unfold movedAtomIDs, vresize in Hid. rewrite (ef_nmoved _ _ _ _ _ _ EF) in Hid. assert (zlen (pr_ml p) <> 0).
      { intros Z0. apply zlen_0 in Z0. rewrite Z0 in Hid. exact Hid. }
      pose proof (ef_len _ _ _ _ _ _ EF) as EL. destruct (zget_lt ys 0) as (y & Ey); [pose proof (zlen_nonneg (pr_ml p)); lia|]. apply zget_In in Ey. apply (ef_range _ _ _ _ _ _ EF) in Ey. lia. }
    unfold movedAtomIDs, vresize in Hid. apply in_app_or in Hid. destruct Hid as [Hid|Hid]; [|apply repeat_spec in Hid; lia].
    apply In_zget in Hid. destruct Hid as (k & Ek). pose proof Ek as Ek2. rewrite firstn_get in Ek. destruct (k <? Z.of_nat (Z.to_nat (cf_nmoved (md_cf md')))) eqn:EK; [|discriminate]. pose proof (zget_range _ _ _ Ek) as HK.
    destruct (zget_lt (cf_recent (md_cf md')) k) as (v & Ev); [lia|].
    destruct (proj1 (ef_moved _ _ _ _ _ _ EF id v)) as (j & e & y & _ & _ & _ & Eid & _); [exists k; repeat split; auto; lia|].
    apply zget_In in Eid. apply (Permutation_in _ PL) in Eid. apply In_zrange in Eid. lia.
Qed.
Theorem C39_simulation ranks hash L cf it spec md us mds t0 times H nb tmax size track ca cb cc :
  userInput ranks L cf it spec -> allProcs it spec permuting -> reachable ranks hash L cf it md -> runStates md us = Some mds ->
  length times = length mds -> forwards t0 times -> 1 <= H -> 0 <= nb -> 0 < tmax ->
  (forall o, In o ((t0, md_cf md) :: combine times (map md_cf mds)) -> nAtoms (nsites L) o) /\
  exists ms, msRun H nb tmax track (transpose3 ca cb cc) size (t0, md_cf md) (combine times (map md_cf mds)) = Some ms.
Proof.
  intros UI HP HR HS HL HF H1 Hnb Ht.
  assert (HALL : forall m, In m (md :: mds) -> reachable ranks hash L cf it m).
  { clear HL. revert md mds HR HS. induction us as [|(u1, u2) us IH]; intros md mds HR HS; cbn in HS.
    - injection HS as <-. intros m [<-|[]]. exact HR.
    - ob HS as md1 E1. ob HS as l E2. injection HS as <-. intros m [<-|Hm]; [exact HR|]. apply (IH md1 l); [|exact E2|exact Hm]. eapply reach_step; eauto. }
  assert (HA : forall o, In o ((t0, md_cf md) :: combine times (map md_cf mds)) -> nAtoms (nsites L) o).
  { intros [t c] [E|Ho].
    - injection E as <- <-. eapply reach_nAtoms; eauto.
    - apply in_combine_r in Ho. apply in_map_iff in Ho. destruct Ho as (m & <- & Hm). eapply reach_nAtoms; eauto. apply HALL. now right. }
  split; [exact HA|]. apply (C39_runs H nb tmax size (nsites L)); auto. cbn [fst].
  replace (map fst (combine times (map md_cf mds))) with times; [exact HF|]. clear - HL. rewrite <- (map_length md_cf) in HL. revert HL. generalize (map md_cf mds). intros l. revert l. induction times as [|t ts IH]; intros [|c l] HL; try discriminate; [reflexivity|]. cbn. f_equal. apply IH. now injection HL.
Qed.

(** *** Examples *)
(** one atom A at site 0 that hops three times, one atom B *)
Definition xmCf (nmoved : Z) (moved : list Z) (p0 p1 : coord) : config :=
  mkCF nmoved [mkC 0 0 0; mkC 1 0 0] [p0; p1] [["A"]; ["B"]] ["A"; "B"] [[0; 1; 0]; [0; 0; 1]] [0; 1] moved [] ["*"; "A"; "B"] [] [] [("*", 0); ("A", 1); ("B", 2)] 0 0.
Definition xmStart : Z * config := (0, xmCf 0 [] (mkC 0 0 0) (mkC 1 0 0)).
Definition xmSteps : list (Z * config) :=
  [(5, xmCf 2 [0; 1] (mkC 1 0 0) (mkC 0 0 0)); (9, xmCf 2 [1; 0] (mkC 1 1 0) (mkC 0 (-1) 0)); (30, xmCf 1 [0; 1] (mkC 2 1 0) (mkC 0 (-1) 0))].
Example C39_example : exists ms, msRun 3 5 20 "A" (transpose3 (mkC 2 0 0) (mkC 0 1 0) (mkC 0 0 1)) 2 xmStart xmSteps = Some ms /\
  (forall o, In o (xmStart :: xmSteps) -> nAtoms 2 o) /\ forwards (fst xmStart) (map fst xmSteps) /\
  zget (ms_history ms) 0 = Some [(mkC 2 1 0, 30); (mkC 1 1 0, 9); (mkC 1 0 0, 5)] /\ zget (ms_history ms) 1 = Some [] /\
  ms_bins ms = [0; 2; 1; 0; 0] /\ ms_hist ms = [czero; mkC 4 1 0; mkC 4 1 0; czero; czero] /\ ms_hcounts ms = [3; 2; 0] /\ ms_hbins ms = [[0; 2; 0; 0; 0]; [0; 0; 1; 0; 0]].
Proof.
  eexists. split; [vm_compute; reflexivity|]. split.
  { intros o [<-|[<-|[<-|[<-|[]]]]]; (split; [reflexivity|split; [reflexivity|split; [reflexivity|intros id Hid; vm_compute in Hid; intuition lia]]]). }
  split; [intros d Hd; vm_compute in Hd; intuition (subst; lia)|]. repeat split.
Qed.
(** a simulation of hops meets the hypotheses *)
Example C39_simulation_example : exists ranks hash L cf it spec md us mds,
  userInput ranks L cf it spec /\ allProcs it spec permuting /\ reachable ranks hash L cf it md /\ runStates md us = Some mds /\ length mds = 1%nat.
Proof.
  assert (E : xbCheck (fun cf it md md' => true) = true) by (vm_compute; reflexivity). unfold xbCheck in E. apply userCheck_sound in E. destruct E as (cf & it & md & md' & US & _).
  pose proof (us_step _ _ _ _ _ _ _ _ _ _ _ _ _ _ _ _ _ US) as HS.
  assert (PU : plainUser 2 x1L cf it (rowsIn xbSpecs)) by (eapply userSystem_plain; [reflexivity|exact US]).
  exists 2, xhash, x1L, cf, it, (fun i => Plain (rowsIn xbSpecs i)), md, [(dev 1 100, dev 1 2)], [md']. split; [exact (pu_user _ _ _ _ _ PU)|]. split; [intros i p _; apply hop_show|]. split; [reached US|]. split; [|reflexivity].
  cbn [runStates]. rewrite HS. reflexivity.
Qed.

(** ** C58 *)
(** Every bin of the blocker holds the sums of the complete blocks of the values registered for the bin, in order; dividing by the block size gives their means. *)
Theorem C58_blocks nb size calls : 0 <= nb -> (forall c, In c calls -> 0 <= fst c < nb) ->
  exists bl0 bl, mkBlocker nb size = Some bl0 /\ blRegisterAll bl0 calls = Some bl /\ bl_size bl = size /\ zlen (bl_blocks bl) = nb /\
    forall b, 0 <= b < nb -> exists blocks rest, cutIn size (registeredIn b calls) blocks rest /\ zget (bl_blocks bl) b = Some (map csum blocks).
Proof.
  intros Hn HC. destruct (mkBlocker_inv nb size Hn) as (bl0 & E0 & I0). destruct (blRegisterAll_inv nb size calls [] bl0 I0 HC) as (bl & E & [B1 B2 B3 B4 B5]).
  exists bl0, bl. repeat (split; [assumption|]). intros b Hb. destruct (zget_lt (bl_since bl) b) as (s & Es); [lia|]. destruct (zget_lt (bl_current bl) b) as (c & Ec); [lia|]. destruct (zget_lt (bl_blocks bl) b) as (bs & Eb); [lia|].
  destruct (B5 b s c bs Es Ec Eb) as (blocks & rest & CI & _ & _ & ->). eauto.
Qed.
(** The cut is determined by the values. *)
Theorem C58_cut_unique {A} size (values : list A) blocks rest blocks' rest' : cutIn size values blocks rest -> cutIn size values blocks' rest' -> blocks = blocks' /\ rest = rest'.
Proof.
  intros (E & HS & HR & H0) (E' & HS' & HR' & H0'). destruct (Z_lt_dec 0 size) as [HP|HP].
  2: { rewrite H0 in * by lia. rewrite H0' in * by lia. cbn in *. split; [reflexivity|congruence]. }
  subst values. specialize (HR HP). specialize (HR' HP). clear H0 H0'. revert blocks' HS' E'. induction blocks as [|b bs IH]; intros [|b' bs'] HS' E'; cbn [concat app] in E'.
  - auto.
  - exfalso. subst rest. rewrite <- app_assoc, zlen_app in HR. rewrite (HS' b') in HR by now left. pose proof (zlen_nonneg (concat bs' ++ rest')). lia.
  - exfalso. subst rest'. rewrite <- app_assoc, zlen_app in HR'. rewrite (HS b) in HR' by now left. pose proof (zlen_nonneg (concat bs ++ rest)). lia.
  - rewrite <- !app_assoc in E'. assert (LB : length b = length b') by (pose proof (HS b (or_introl eq_refl)); pose proof (HS' b' (or_introl eq_refl)); unfold zlen in *; lia).
    assert (EB : b = b' /\ concat bs ++ rest = concat bs' ++ rest').
    { clear - LB E'. revert b' LB E'. induction b as [|x b IH]; intros [|y b'] LB E'; try discriminate; [auto|]. cbn in *. injection E' as -> E'. destruct (IH b' ltac:(congruence) E') as [-> ?]. auto. }
    destruct EB as [-> EB]. destruct (IH (fun k Hk => HS k (or_intror Hk)) bs' (fun k Hk => HS' k (or_intror Hk)) EB) as [-> ->]. auto.
Qed.
(** Registering more values never changes the completed blocks. *)
Theorem C58_kept bl more bl' b blocks : blRegisterAll bl more = Some bl' -> zget (bl_blocks bl) b = Some blocks -> exists new, zget (bl_blocks bl') b = Some (blocks ++ new).
Proof. intros E Hb. exact (blRegisterAll_kept more _ _ E b blocks Hb). Qed.
(** What is reported for a bin: with at least two complete blocks, the standard error of the block means about the mean of all the values, and its error
    estimate; with fewer, -1. *)
Theorem C58_reported nb size calls bl0 bl counts sums : 0 <= nb -> (forall c, In c calls -> 0 <= fst c < nb) -> mkBlocker nb size = Some bl0 -> blRegisterAll bl0 calls = Some bl ->
  zlen counts = nb -> zlen sums = nb -> (forall b, 0 <= b < nb -> zget counts b = Some (zlen (registeredIn b calls)) /\ zget sums b = Some (csum (registeredIn b calls))) ->
  exists data, blValues bl counts sums = Some data /\ zlen data = nb /\
    forall b, 0 <= b < nb -> exists blocks rest std err, cutIn size (registeredIn b calls) blocks rest /\ zget data b = Some (std, err) /\
      (zlen blocks <= 1 -> std = mkRC3 (-1) (-1) (-1) /\ err = mkRC3 (-1) (-1) (-1)) /\
      (2 <= zlen blocks -> forall f g, In (f, g) components -> let k := IZR (zlen blocks) in
         (0 <= g std /\ g std ^ 2 * (k * (k - 1)) = deviation f (meanOf f (registeredIn b calls)) blocks /\ 0 <= g err /\ g err ^ 2 * (2 * k - 2) = g std ^ 2)%R).
Proof.
  intros Hn HC E0 E L1 L2 HV. destruct (C58_blocks nb size calls Hn HC) as (bl0' & bl' & E0' & E' & ES & LB & HB). rewrite E0 in E0'. injection E0' as <-. rewrite E in E'. injection E' as <-.
  destruct (blValues_ok bl counts sums) as (data & ED & LD & HD); [lia|lia|]. exists data. split; [exact ED|]. split; [lia|]. intros b Hb. destruct (HB b Hb) as (blocks & rest & CI & Eb). destruct (HV b Hb) as [V1 V2].
  pose proof (HD _ _ _ _ V1 V2 Eb) as EG. rewrite ES in EG. exists blocks, rest, (fst (blSigma size (zlen (registeredIn b calls)) (csum (registeredIn b calls)) (map csum blocks))), (snd (blSigma size (zlen (registeredIn b calls)) (csum (registeredIn b calls)) (map csum blocks))).
  split; [exact CI|]. split; [rewrite EG; f_equal; apply surjective_pairing|]. split.
  - intros H. rewrite blSigma_few by (rewrite zlen_map; exact H). split; reflexivity.
  - intros H f g HG. exact (blSigma_many size _ blocks rest f g HG CI H).
Qed.
(** With the block size the Python class passes (0) there are no blocks at all. *)
Theorem C58_switched_off nb calls bl0 bl b bs : 0 <= nb -> (forall c, In c calls -> 0 <= fst c < nb) -> mkBlocker nb 0 = Some bl0 -> blRegisterAll bl0 calls = Some bl -> zget (bl_blocks bl) b = Some bs -> bs = [].
Proof.
  intros Hn HC E0 E Hb. destruct (C58_blocks nb 0 calls Hn HC) as (bl0' & bl' & E0' & E' & _ & LB & HB). rewrite E0 in E0'. injection E0' as <-. rewrite E in E'. injection E' as <-. pose proof (zget_range _ _ _ Hb) as HR.
  destruct (HB b ltac:(lia)) as (blocks & rest & (_ & _ & _ & H0) & Eb). rewrite (H0 ltac:(lia)) in Eb. rewrite Hb in Eb. injection Eb as ->. reflexivity.
Qed.
(** five values in blocks of two *)
Definition xcalls : list (Z * coord) := [(1, mkC 1 0 2); (0, mkC 7 7 7); (1, mkC 3 0 0); (1, mkC 2 2 2); (1, mkC 4 0 0); (1, mkC 9 9 9)].
Example C58_example : exists bl0 bl, mkBlocker 2 2 = Some bl0 /\ blRegisterAll bl0 xcalls = Some bl /\ bl_blocks bl = [[]; [mkC 4 0 2; mkC 6 2 2]] /\ (forall c, In c xcalls -> 0 <= fst c < 2) /\
  cutIn 2 (registeredIn 1 xcalls) [[mkC 1 0 2; mkC 3 0 0]; [mkC 2 2 2; mkC 4 0 0]] [mkC 9 9 9].
Proof.
  eexists. eexists. split; [reflexivity|]. split; [vm_compute; reflexivity|]. split; [reflexivity|]. split; [intros c Hc; cbn in Hc; intuition (subst; cbn; lia)|].
  repeat split; try reflexivity; try lia. intros k [<-|[<-|[]]]; reflexivity.
Qed.

(** The results of the run of C39_example. *)
Example C63_example : exists ms neff, msRun 3 5 20 "A" (transpose3 (mkC 2 0 0) (mkC 0 1 0) (mkC 0 0 1)) 0 xmStart xmSteps = Some ms /\
  zget (msResults ms) 3 = Some [0 # 1; 5 # 2; 5 # 1; 0 # 1; 0 # 1]%Q /\ msNeff ms = Some neff /\ map Qred neff = [0 # 1; 1 # 1; 2 # 1; 0 # 1; 0 # 1]%Q /\ msSafeCutoff ms = Some 2.
Proof. eexists. eexists. split; [vm_compute; reflexivity|]. repeat split; vm_compute; reflexivity. Qed.

(** ** C64 *)
(** Accepted arguments. *)
Definition accepted (funit : Z) (hs nb tm ty : pyval) (a : Z * Z * pyfloat * string) : Prop := pyMSD funit hs nb tm ty = Ok a.
(** Every accepted set of arguments has whole numbers not below 0 and a bin. *)
Theorem C64_accepted funit hs nb tm ty H n t track : accepted funit hs nb tm ty (H, n, t, track) -> 0 <= H /\ 1 <= n /\ fneg t = false /\ ty = VStr track.
Proof.
  unfold accepted, pyMSD. assert (CI : forall v d z, 0 <= d -> checkPositiveInteger v d = Ok z -> 0 <= z).
  { intros v d z Hd. unfold checkPositiveInteger. destruct v; cbn [asInt]; try discriminate.
    - destruct (d <? 0) eqn:E0; [discriminate|]. intros X. injection X as <-. lia.
    - destruct b; intros X; injection X as <-; lia.
    - destruct (z0 <? 0) eqn:E0; [discriminate|]. intros X. injection X as <-. lia. }
  destruct (checkPositiveInteger hs 5) as [h|] eqn:E1; [|discriminate]. destruct (checkPositiveInteger nb 100) as [m|] eqn:E2; [|discriminate]. destruct (checkPositiveFloat tm _) as [f|] eqn:E3; [|discriminate]. cbn [MPy.obind].
  destruct ty; try discriminate. destruct (m =? 0) eqn:E4; [discriminate|]. intros X. injection X as <- <- <- <-. apply CI in E1; [|lia]. apply CI in E2; [|lia]. split; [exact E1|]. split; [lia|]. split; [|reflexivity].
  unfold checkPositiveFloat in E3. destruct tm; cbn [asFloat] in E3; try discriminate.
  - destruct (fneg (FNum (100 * funit))) eqn:EF; [discriminate|]. injection E3 as <-. exact EF.
  - destruct (fneg f0) eqn:EF; [discriminate|]. injection E3 as <-. exact EF.
Qed.
(** An accepted analysis with at least one history step and a positive t_max never fails. *)
Theorem C64_works_partial funit hs nb tm ty H n tmax track ca cb cc natoms start steps : accepted funit hs nb tm ty (H, n, FNum tmax, track) -> 1 <= H -> 0 < tmax ->
  (forall o, In o (start :: steps) -> nAtoms natoms o) -> forwards (fst start) (map fst steps) -> exists ms, msRun H n tmax track (transpose3 ca cb cc) 0 start steps = Some ms.
Proof. intros A H1 Ht Hs Hf. destruct (C64_accepted _ _ _ _ _ _ _ _ _ A) as (_ & A2 & _). apply (C39_runs H n tmax 0 natoms); auto. lia. Qed.
(** Not every accepted analysis works: no history steps are accepted, and then setup always fails; t_max = 0 is accepted, and then the first step
    that compares two stops fails. *)
Theorem C64_no_history_refuted : exists funit hs nb tm ty H n tmax track, accepted funit hs nb tm ty (H, n, FNum tmax, track) /\ 0 < tmax /\
  forall ca cb cc start steps, msRun H n tmax track (transpose3 ca cb cc) 0 start steps = None.
Proof. exists 1000, (VInt 0), (VInt 5), (VFloat (FNum 20000)), (VStr "A"), 0, 5, 20000, "A". split; [reflexivity|]. split; [lia|]. reflexivity. Qed.
Theorem C64_no_time_refuted : exists funit hs nb tm ty H n tmax track start steps, accepted funit hs nb tm ty (H, n, FNum tmax, track) /\ 1 <= H /\
  (forall o, In o (start :: steps) -> nAtoms 2 o) /\ forwards (fst start) (map fst steps) /\ forall ca cb cc, msRun H n tmax track (transpose3 ca cb cc) 0 start steps = None.
Proof.
  exists 1000, (VInt 3), (VInt 5), (VFloat (FNum 0)), (VStr "A"), 3, 5, 0, "A", xmStart, xmSteps. destruct C39_example as (_ & _ & A & B & _). split; [reflexivity|]. split; [lia|]. split; [exact A|]. split; [exact B|]. intros ca cb cc. vm_compute. reflexivity.
Qed.
(** Without bins the constructor raises ZeroDivisionError, and a tracked type that is not one of the possible types raises Error at setup. *)
Theorem C64_no_bins funit hs tm track H f : checkPositiveInteger hs 5 = Ok H -> checkPositiveFloat tm (FNum (100 * funit)) = Ok f -> pyMSD funit hs (VInt 0) tm (VStr track) = Raise ZeroDivision.
Proof. intros E1 E2. unfold pyMSD. rewrite E1. cbn [MPy.obind]. rewrite E2. reflexivity. Qed.
Theorem C64_track ptypes track : pySetupCheck ptypes track = Ok tt <-> exists k, tfind ptypes track = Some k.
Proof. unfold pySetupCheck. destruct (tfind ptypes track); split; [eauto|auto|discriminate|intros [k X]; discriminate]. Qed.
(** With a single history step nothing is ever compared, and the safe cutoff printed with the results fails. *)
Theorem C64_one_step nb tmax size n track ca cb cc start steps ms : 0 <= nb -> 0 < tmax -> (forall o, In o (start :: steps) -> nAtoms n o) -> forwards (fst start) (map fst steps) ->
  msRun 1 nb tmax track (transpose3 ca cb cc) size start steps = Some ms -> msSafeCutoff ms = None /\ forall b v, zget (ms_bins ms) b = Some v -> v = 0.
Proof.
  intros Hnb Ht Hs Hf E. destruct (run_inv 1 nb tmax size n track ca cb cc start steps ltac:(lia) Hnb Ht Hs Hf) as (ms' & log & t & E' & I). rewrite E in E'. injection E' as <-. pose proof (mi_fits _ _ _ _ _ _ _ _ _ _ _ _ _ I) as F. split.
  - unfold msSafeCutoff. pose proof (mf_lhbins _ _ _ _ _ _ _ _ _ _ F) as L. change (1 - 1) with 0 in L. apply zlen_0 in L. rewrite L. reflexivity.
  - intros b v Eb. pose proof (zget_range _ _ _ Eb) as HB. rewrite (mf_lbins _ _ _ _ _ _ _ _ _ _ F) in HB. destruct (C39_bins 1 nb tmax size n track ca cb cc start steps ltac:(lia) Hnb Ht Hs Hf ms b E HB) as (X & _). rewrite Eb in X. injection X as ->.
    replace (allCompared 0 n (fun id => stops track id start steps)) with (@nil comparison); [reflexivity|]. symmetry. unfold allCompared, compared. induction (zrange 0 (n - 1)) as [|id ids IHi]; [reflexivity|]. cbn [flat_map]. rewrite IHi, app_nil_r. clear. generalize (stops track id start steps). intros v. generalize (zrange 0 (zlen v - 1)). intros ks. induction ks as [|k ks IHk]; [reflexivity|]. exact IHk.
Qed.

Print Assumptions C39_runs.
Print Assumptions C39_history.
Print Assumptions C39_bins.
Print Assumptions C39_lags.
Print Assumptions C39_blocks.
Print Assumptions C39_simulation.
Print Assumptions C58_blocks.
Print Assumptions C58_cut_unique.
Print Assumptions C58_kept.
Print Assumptions C58_reported.
Print Assumptions C58_switched_off.
Print Assumptions C63_means.
Print Assumptions C63_times.
Print Assumptions C63_steps.
Print Assumptions C63_cutoff.
Print Assumptions C64_accepted.
Print Assumptions C64_works_partial.
Print Assumptions C64_no_history_refuted.
Print Assumptions C64_no_time_refuted.
Print Assumptions C64_no_bins.
Print Assumptions C64_track.
Print Assumptions C64_one_step.
