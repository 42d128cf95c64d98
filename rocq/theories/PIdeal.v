(** Proofs about the ideal chain: geometry, what is enabled, what an event does. *)
From Verif Require Import PBase SModel SGeo SEvent SBuild SPlain SStep SBucket SPossible PLattice PProcess PMatcher PPerform PStep PGeo PPossible PRun PEffect PRematch PEvent PBuild PPlain PRow PStepInv PBucket PRegular PSelect TMatch TStep TSelect TPossible.
From Verif Require Export SIdeal.
From Coq Require Import ZifyBool.
Open Scope string_scope.
Open Scope list_scope.
Open Scope Z_scope.

Section Geometry.
Context (L : lattice) (WF : wf_lattice L) (basis : list coord) (WB : wf_basis L basis).

Lemma place_get x : 0 <= x < nsites L -> zget (generateLatticeSites L basis) x = Some (place L basis x).
Proof using WF WB.
  intros Hx. destruct (zget_lt (generateLatticeSites L basis) x) as [c Ec]; [rewrite (lattice_sites_len L WF); [exact Hx|apply WB]|].
  rewrite Ec. f_equal. destruct (site_coord_get L WF basis WB x c Hx Ec) as (i & j & k & b & beta & (Hi & Hj & Hk & Hb) & -> & Eb & _ & ->).
  unfold place. assert (Em : globalIndex L i j k b mod lt_nb L = b /\ globalIndex L i j k b / lt_nb L = (i * lt_rb L + j) * lt_rc L + k).
  { pose proof (Z.div_mod (globalIndex L i j k b) (lt_nb L)). unfold globalIndex in *. destruct WF. split.
    - symmetry. apply Z.mod_unique_pos with ((i * lt_rb L + j) * lt_rc L + k); [lia|ring].
    - symmetry. apply Z.div_unique_pos with b; [lia|ring]. }
  destruct Em as [-> ->]. assert (Ebn : nth (Z.to_nat b) basis czero = beta).
  { unfold zget in Eb. destruct (Z.ltb_spec b 0); [lia|]. apply nth_error_nth. exact Eb. }
  rewrite Ebn. destruct WF.
  assert (E1 : ((i * lt_rb L + j) * lt_rc L + k) / (lt_rb L * lt_rc L) = i) by (symmetry; apply Z.div_unique_pos with (j * lt_rc L + k); nia).
  assert (E2 : ((i * lt_rb L + j) * lt_rc L + k) / lt_rc L = i * lt_rb L + j) by (symmetry; apply Z.div_unique_pos with k; nia).
  assert (E3 : (i * lt_rb L + j) mod lt_rb L = j) by (symmetry; apply Z.mod_unique_pos with i; nia).
  assert (E4 : ((i * lt_rb L + j) * lt_rc L + k) mod lt_rc L = k) by (symmetry; apply Z.mod_unique_pos with (i * lt_rb L + j); nia).
  cbv zeta. rewrite E1, E2, E3, E4. reflexivity.
Qed.
Lemma basis_mod x : 0 <= x -> basisSiteFromIndex L x = x mod lt_nb L.
Proof using WF. intros Hx. unfold basisSiteFromIndex. destruct WF. apply Z.rem_mod_nonneg; lia. Qed.

Lemma around_spec (p : bool) rep d c : 0 < rep * lt_unit L -> around L p rep (d - c) = true <-> sameMod p (rep * lt_unit L) d c.
Proof using.
  intros HP. unfold around, sameMod. destruct p; rewrite Z.eqb_eq; [|lia]. split.
  - intros H. apply Z.mod_divide in H; [|lia]. destruct H as [n H]. exists (- n). lia.
  - intros [n ->]. replace (d - (d + n * (rep * lt_unit L))) with (- n * (rep * lt_unit L)) by ring. apply Z.mod_mul. lia.
Qed.
Lemma there_spec x c y : 0 <= x < nsites L -> 0 <= y < nsites L -> there L basis x c y = true <-> siteAt L (generateLatticeSites L basis) x c y.
Proof using WF WB.
  intros Hx Hy. unfold there. rewrite !andb_true_iff. destruct WF.
  rewrite !around_spec by nia. split.
  - intros H. exists (place L basis x), (place L basis y). split; [apply place_get; exact Hx|]. split; [apply place_get; exact Hy|].
    unfold sameDisp, csub. cbn [cx cy cz]. tauto.
  - intros (a & b & Ea & Eb & H). rewrite place_get in Ea, Eb by assumption. injection Ea as <-. injection Eb as <-.
    unfold sameDisp, csub in H. cbn [cx cy cz] in H. tauto.
Qed.
End Geometry.

(** ** States *)
Lemma shows_unique cf s s' : shows cf s -> shows cf s' -> s = s'.
Proof.
  unfold shows. intros -> H. revert s' H. induction s as [|t s IH]; intros [|t' s'] H; try discriminate; [reflexivity|]. injection H as <- H. f_equal. apply IH. exact H.
Qed.
Lemma shows_get cf s y t : shows cf s -> (zget (cf_elements cf) y = Some [t] <-> zget s y = Some t).
Proof. unfold shows. intros ->. rewrite zget_map. destruct (zget s y); cbn [option_map]; split; congruence. Qed.
Lemma closeTo_eq S a b : S < 100000 -> closeTo S a b -> a = b.
Proof. intros HS (A & B & C). destruct a as [a1 a2 a3], b as [b1 b2 b3]. cbn [cx cy cz] in *. f_equal; lia. Qed.

(** sums over the listed events are sums over the sites *)
Lemma listed_sum (l : list (Z * Z)) (S : list Z) (f : Z -> bool) (c : Z) (g : Z -> Z) : NoDup (map fst l) -> NoDup S ->
  (forall x r, In (x, r) l <-> In x S /\ f x = true /\ r = c) ->
  zsum (map (fun e => g (fst e) * snd e) l) = zsum (map (fun x => g x * (if f x then c else 0)) S).
Proof.
  intros N1 N2 H. assert (P : Permutation l (map (fun x => (x, c)) (filter f S))).
  { apply NoDup_Permutation.
    - eapply NoDup_map_inv; exact N1.
    - apply (NoDup_map_inv fst). rewrite map_map. cbn [fst]. rewrite map_id. apply NoDup_filter. exact N2.
    - intros [x r]. rewrite H, in_map_iff. split.
      + intros (A & B & ->). exists x. rewrite filter_In. auto.
      + intros (y & E & Hy). injection E as <- <-. apply filter_In in Hy. tauto. }
  rewrite (zsum_perm _ _ (Permutation_map (fun e => g (fst e) * snd e) P)). rewrite map_map. cbn [fst snd]. clear.
  induction S as [|x S IH]; [reflexivity|]. cbn [filter map]. rewrite zsum_cons. destruct (f x); cbn [map]; rewrite ?zsum_cons, IH; lia.
Qed.

Section Chain.
Context (ranks : Z) (hash : list Z -> Z) (L : lattice) (basis : list coord) (cf : config) (it : interactions) (prs : list iproc)
        (CH : chainInput ranks L basis cf it prs).
Notation coords := (generateLatticeSites L basis).
Notation enabled := (enabled L basis).
Notation fire := (fire L basis).
Notation propensity := (propensity L basis).
Notation sites := (sites L).

Lemma ch_ui : userInput ranks L cf it (fun i => Plain (rowsOfProc prs i)). Proof using CH. apply CH. Qed.
Lemma ch_wi : wfInput ranks L cf it. Proof using CH. apply ch_ui. Qed.
Lemma ch_wf : wf_lattice L. Proof using CH. apply ch_wi. Qed.
Lemma ch_wb : wf_basis L basis. Proof using CH. apply CH. Qed.
Lemma ch_pt : wfPT (cf_ptypes cf). Proof using CH. apply ch_ui. Qed.
Lemma In_sites x : In x sites <-> 0 <= x < nsites L.
Proof using. unfold SIdeal.sites. rewrite In_zrange. lia. Qed.
Lemma proc_of i pr : zget prs i = Some pr -> exists p, zget (in_procs it) i = Some p.
Proof using CH. intros E. apply zget_lt. rewrite <- (ch_len _ _ _ _ _ _ CH). eapply zget_range; eauto. Qed.
Lemma proc_back i p : zget (in_procs it) i = Some p -> exists pr, zget prs i = Some pr.
Proof using CH. intros E. apply zget_lt. rewrite (ch_len _ _ _ _ _ _ CH). eapply zget_range; eauto. Qed.
Lemma rows_of i pr : zget prs i = Some pr -> rowsOfProc prs i = ip_rows pr.
Proof using. unfold rowsOfProc. intros ->. reflexivity. Qed.

(** every reachable configuration shows a state *)
Lemma shows_some md : reachable ranks hash L cf it md -> exists s, shows (md_cf md) s /\ zlen s = nsites L.
Proof using CH.
  intros HR. pose proof (C20_single_occupancy _ _ _ _ _ _ _ (ch_user _ _ _ _ _ _ CH) HR) as HS. destruct (reach_lens _ _ _ _ _ _ ch_wi HR) as (_ & EL & _).
  assert (A : forall l : list (list string), (forall y e, zget l y = Some e -> exists t, e = [t]) -> exists s, l = map (fun t => [t]) s).
  { clear. induction l as [|e l IH]; intros H; [exists []; reflexivity|]. destruct (H 0 e eq_refl) as [t ->]. destruct IH as [s ->].
    - intros y e E. apply (H (y + 1)). pose proof (zget_range _ _ _ E). rewrite zget_cons. destruct (Z.eqb_spec (y + 1) 0); [lia|]. replace (y + 1 - 1) with y by lia. exact E.
    - exists (t :: s). reflexivity. }
  destruct (A (cf_elements (md_cf md))) as [s E].
  - intros y e E. destruct (HS y) as (t & Ht & _); [rewrite <- EL; eapply zget_range; eauto|]. exists t. congruence.
  - exists s. split; [exact E|]. rewrite <- EL, E, zlen_map. reflexivity.
Qed.
Lemma shows_len md s : reachable ranks hash L cf it md -> shows (md_cf md) s -> zlen s = nsites L.
Proof using CH. intros HR HS. destruct (shows_some md HR) as (s' & H1 & H2). rewrite (shows_unique _ _ _ HS H1). exact H2. Qed.
Lemma chain_nonneg md : reachable ranks hash L cf it md -> nonNegative (md_cf md).
Proof using CH.
  intros HR y t k n Ey En. destruct (C20_single_occupancy _ _ _ _ _ _ _ (ch_user _ _ _ _ _ _ CH) HR y) as (s & _ & k0 & t0 & _ & Et & [_ HU]).
  - destruct (reach_lens _ _ _ _ _ _ ch_wi HR) as (<- & _). eapply zget_range; eauto.
  - assert (t0 = t) by congruence. subst t0. rewrite (HU k n En). destruct (k =? k0); lia.
Qed.
Lemma has_one md s y t : reachable ranks hash L cf it md -> shows (md_cf md) s -> 0 <= y < nsites L -> (hasAtLeast (md_cf md) y t 1 <-> typeIs s y t = true).
Proof using CH.
  intros HR HS Hy. destruct (C20_single_occupancy _ _ _ _ _ _ _ (ch_user _ _ _ _ _ _ CH) HR y Hy) as (s0 & E0 & k0 & t0 & F0 & G0 & [_ HU]).
  pose proof (proj1 (shows_get _ _ _ _ HS) E0) as Es. unfold typeIs. rewrite Es. destruct (reach_static _ _ _ _ _ _ HR) as (_ & _ & EP). rewrite EP in *. split.
  - intros (k & b & m & Fk & Eb & Em & Hm). rewrite EP in Fk. assert (b = t0) by congruence. subst b. pose proof (HU k m Em) as X. destruct (Z.eqb_spec k k0); [|lia]. subst k.
    apply String.eqb_eq. eapply tfind_inj; eauto. apply ch_pt.
  - intros X. apply String.eqb_eq in X. subst t. destruct (zget t0 k0) as [m|] eqn:Em.
    + exists k0, t0, m. rewrite EP. split; [exact F0|]. split; [exact G0|]. split; [exact Em|]. rewrite (HU k0 m Em), Z.eqb_refl. lia.
    + exfalso. destruct (zget_lt t0 k0) as [m Em']; [|congruence]. pose proof (reach_width ranks hash L cf it (user_std _ _ _ _ _ ch_ui)) as W.
      rewrite (W md HR t0 (zget_In _ _ _ G0)). eapply tfind_range; [apply ch_pt|exact F0].
Qed.

Lemma enabled_spec md s i pr x : reachable ranks hash L cf it md -> shows (md_cf md) s -> zget prs i = Some pr -> In x sites ->
  (listed md i x <-> enabled pr x s = true).
Proof using CH.
  intros HR HS Ei Hx. apply In_sites in Hx. destruct (proc_of i pr Ei) as [p Ep]. destruct (ch_proc _ _ _ _ _ _ CH i pr p Ei Ep) as (_ & Eb & _ & _ & PL).
  rewrite (C06_rows_listed_iff_possible ranks hash L basis cf it _ md i p (ip_basis pr) x ch_ui (ch_geo _ _ _ _ _ _ CH) (ch_wild _ _ _ _ _ _ CH) HR (chain_nonneg md HR) Ep Eb); [|cbn [positions]; rewrite (rows_of _ _ Ei); exact PL|exact Hx].
  cbn [rowsMatch]. rewrite (rows_of _ _ Ei). unfold SIdeal.enabled. rewrite andb_true_iff, Z.eqb_eq, (basis_mod L ch_wf x) by lia.
  apply and_iff_compat_l. rewrite forallb_forall. destruct (reach_static _ _ _ _ _ _ HR) as (EC & _). rewrite (gi_coords _ _ _ _ _ (ch_geo _ _ _ _ _ _ CH)) in EC.
  rewrite EC. split.
  - intros H r Hr. apply orb_true_iff. unfold wildRow. rewrite String.eqb_eq. destruct (H r Hr) as [H1|(y & H1 & H2)]; [left; exact H1|right].
    assert (Hy : 0 <= y < nsites L) by (destruct H1 as (_ & d & _ & Ed & _); apply zget_range in Ed; rewrite (lattice_sites_len L ch_wf) in Ed; [exact Ed|apply ch_wb]).
    apply existsb_exists. exists y. split; [apply In_sites; exact Hy|]. rewrite andb_true_iff. split; [apply (there_spec L ch_wf basis ch_wb); auto|]. eapply has_one; eauto.
  - intros H r Hr. specialize (H r Hr). unfold wildRow in H. rewrite orb_true_iff, String.eqb_eq in H. destruct H as [H|H]; [left; exact H|right].
    apply existsb_exists in H. destruct H as (y & Hy & H). apply In_sites in Hy. apply andb_true_iff in H. destruct H as [H1 H2].
    exists y. split; [apply (there_spec L ch_wf basis ch_wb) in H1; auto|]. eapply has_one; eauto.
Qed.

(** the listed events are the enabled ones, with the rate constant of the process *)
Lemma evt_spec md s i x r : reachable ranks hash L cf it md -> shows (md_cf md) s ->
  (evt (md_in md) i x r <-> exists pr, zget prs i = Some pr /\ In x sites /\ enabled pr x s = true /\ r = ip_rate pr).
Proof using CH.
  intros HR HS. pose proof (ch_wi) as WI. assert (Hne : in_procs it <> []).
  { pose proof (ch_len _ _ _ _ _ _ CH) as E. pose proof (ch_some _ _ _ _ _ _ CH) as N. intros X. rewrite X in E. destruct prs; [congruence|]. rewrite zlen_cons in E. pose proof (zlen_nonneg l). cbn in E. lia. }
  destruct (C10_total_rate _ _ _ _ _ _ WI HR Hne) as [_ HRt]. specialize (HRt (ch_custom _ _ _ _ _ _ CH)). split.
  - intros H. destruct (HRt _ _ _ H) as (p & Ep & ->). destruct (proc_back i p Ep) as [pr Ei]. exists pr. destruct (ch_proc _ _ _ _ _ _ CH i pr p Ei Ep) as (Er & _).
    assert (Hx : In x sites). { destruct (reachable_info _ _ _ _ _ _ WI HR) as (cf1 & it2 & RI). apply (iv_evt _ (ri_inv _ _ _ _ _ _ _ _ RI)) in H. rewrite (ri_lat _ _ _ _ _ _ _ _ RI) in H. apply In_sites. apply H. }
    split; [exact Ei|]. split; [exact Hx|]. split; [|exact Er]. apply (enabled_spec md s i pr x HR HS Ei Hx). eexists. exact H.
  - intros (pr & Ei & Hx & He & ->). apply (enabled_spec md s i pr x HR HS Ei Hx) in He. destruct He as [r H]. destruct (HRt _ _ _ H) as (p & Ep & ->).
    destruct (ch_proc _ _ _ _ _ _ CH i pr p Ei Ep) as (<- & _). exact H.
Qed.
Lemma procs_len md : reachable ranks hash L cf it md -> zlen (in_procs (md_in md)) = zlen prs.
Proof using CH.
  intros HR. destruct (reachable_info _ _ _ _ _ _ ch_wi HR) as (cf1 & it2 & RI). rewrite (ch_len _ _ _ _ _ _ CH), (sameP_len _ _ (ri_same _ _ _ _ _ _ _ _ RI)).
  destruct (updateML_get _ _ _ _ (ri_expand _ _ _ _ _ _ _ _ RI)) as (Hl & _). rewrite Hl. unfold clearMatching. cbn [set_procs in_procs]. apply zlen_map.
Qed.
Lemma events_nodup md i p' : reachable ranks hash L cf it md -> zget (in_procs (md_in md)) i = Some p' -> NoDup (map fst (events p')).
Proof using CH.
  intros HR Ep. destruct (reachable_info _ _ _ _ _ _ ch_wi HR) as (cf1 & it2 & RI). pose proof (bi_proc _ _ (iv_binv _ (ri_inv _ _ _ _ _ _ _ _ RI)) i p' Ep) as PI.
  rewrite (events_fst p') by apply PI. apply PI.
Qed.
Lemma events_sum md s i p' pr g : reachable ranks hash L cf it md -> shows (md_cf md) s -> zget (in_procs (md_in md)) i = Some p' -> zget prs i = Some pr ->
  zsum (map (fun e => g (fst e) * snd e) (events p')) = zsum (map (fun x => g x * propensity pr x s) sites).
Proof using CH.
  intros HR HS Ep Ei. unfold SIdeal.propensity. apply listed_sum; [eapply events_nodup; eauto|apply NoDup_zrange|].
  intros x r. rewrite <- (Logic.and_assoc (In x sites)). transitivity (evt (md_in md) i x r).
  - split; [intros H; exists p'; auto|]. intros (p1 & E1 & H). congruence.
  - rewrite (evt_spec md s i x r HR HS). split; [intros (pr' & E & H); assert (pr' = pr) by congruence; subst; tauto|intros H; exists pr; tauto].
Qed.
Lemma processRate_ideal md s i p' pr : reachable ranks hash L cf it md -> shows (md_cf md) s -> zget (in_procs (md_in md)) i = Some p' -> zget prs i = Some pr ->
  processRate p' = processTotal L basis pr s.
Proof using CH.
  intros HR HS Ep Ei. pose proof (events_sum md s i p' pr (fun _ => 1) HR HS Ep Ei) as H. unfold processRate, processTotal.
  assert (E1 : map snd (events p') = map (fun e => 1 * snd e) (events p')) by (apply map_ext; intros; lia).
  assert (E2 : map (fun x => propensity pr x s) sites = map (fun x => 1 * propensity pr x s) sites) by (apply map_ext; intros; lia).
  rewrite E1, E2. exact H.
Qed.
Lemma processRates_ideal md s : reachable ranks hash L cf it md -> shows (md_cf md) s ->
  map processRate (in_procs (md_in md)) = map (fun pr => processTotal L basis pr s) prs.
Proof using CH.
  intros HR HS. pose proof (procs_len md HR) as EL. apply zget_ext. intros i. rewrite !zget_map.
  destruct (zget (in_procs (md_in md)) i) as [p'|] eqn:Ep.
  - destruct (zget_lt prs i) as [pr Ei]; [rewrite <- EL; eapply zget_range; eauto|]. rewrite Ei. cbn [option_map]. f_equal. eapply processRate_ideal; eauto.
  - destruct (zget prs i) as [pr|] eqn:Ei; [|reflexivity]. exfalso. destruct (zget_lt (in_procs (md_in md)) i) as [p Ep']; [rewrite EL; eapply zget_range; eauto|congruence].
Qed.
Lemma totalRate_ideal md s : reachable ranks hash L cf it md -> shows (md_cf md) s -> totalRate (md_in md) = Some (total L basis prs s).
Proof using CH.
  intros HR HS. destruct (C10_total_rate _ _ _ _ _ _ ch_wi HR) as [-> _].
  - intros X. pose proof (ch_len _ _ _ _ _ _ CH) as E. pose proof (ch_some _ _ _ _ _ _ CH) as N. rewrite X in E. destruct prs; [congruence|]. rewrite zlen_cons in E. pose proof (zlen_nonneg l). cbn in E. lia.
  - rewrite (processRates_ideal md s HR HS). reflexivity.
Qed.
Lemma rate_nonneg i pr : zget prs i = Some pr -> 0 <= ip_rate pr.
Proof using CH. intros Ei. destruct (proc_of i pr Ei) as [p Ep]. apply (ch_proc _ _ _ _ _ _ CH i pr p Ei Ep). Qed.
Lemma propensity_nonneg i pr x s : zget prs i = Some pr -> 0 <= propensity pr x s.
Proof using CH. intros Ei. unfold SIdeal.propensity. pose proof (rate_nonneg i pr Ei). destruct (enabled pr x s); lia. Qed.
(** something can happen *)
Lemma ratesOK_ideal md s : reachable ranks hash L cf it md -> shows (md_cf md) s -> 0 < total L basis prs s -> ratesOK md.
Proof using CH.
  intros HR HS HT. split.
  - intros i x r H. apply (evt_spec md s) in H; auto. destruct H as (pr & Ei & _ & _ & ->). eapply rate_nonneg; eauto.
  - assert (A : forall l : list Z, 0 < zsum l -> exists a, In a l /\ 0 < a).
    { clear. induction l as [|a l IH]; intros H; [cbn in H; lia|]. rewrite zsum_cons in H. destruct (Z_lt_dec 0 a) as [Ha|Ha]; [exists a; split; [left; reflexivity|exact Ha]|].
      destruct IH as (b & Hb & Hp); [lia|]. exists b. split; [right; exact Hb|exact Hp]. }
    apply A in HT. destruct HT as (a & Ha & Pa). apply in_map_iff in Ha. destruct Ha as (pr & <- & Hpr). apply A in Pa. destruct Pa as (b & Hb & Pb).
    apply in_map_iff in Hb. destruct Hb as (x & <- & Hx). apply In_zget in Hpr. destruct Hpr as [i Ei]. exists i, x, (ip_rate pr). unfold SIdeal.propensity in Pb.
    destruct (enabled pr x s) eqn:Ee; [|lia]. split; [|exact Pb]. apply (evt_spec md s i x _ HR HS). exists pr. auto.
Qed.

(** ** What an event does *)
Lemma fire_get pr x s y : zlen s = nsites L -> zget (fire pr x s) y =
  option_map (fun t => match find (fun r => negb (wildRow r) && there L basis x (rw_c r) y) (ip_rows pr) with Some r => rw_after r | None => t end) (zget s y).
Proof using.
  intros Hl. unfold SIdeal.fire. rewrite zget_map.
  destruct (zget s y) as [t|] eqn:Ey.
  - pose proof (zget_range _ _ _ Ey). assert (Ez : zget sites y = Some y) by (unfold SIdeal.sites; rewrite zget_zrange; [f_equal; lia|lia]).
    rewrite (proj2 (PRow.combine_get sites s y y t)) by auto. reflexivity.
  - destruct (zget (combine sites s) y) as [[z t]|] eqn:E; [|reflexivity]. apply PRow.combine_get in E. destruct E; congruence.
Qed.

(** the event the deviates select *)
Definition pickedEvent (md : model) (u1 u2 : deviate) : option (Z * Z) :=
  i <- pickProcessIndex (md_in md) u1 ;; p <- zget (in_procs (md_in md)) i ;; q <- updateRateTable p ;; x <- pickSite q u2 ;; Some (i, x).
Lemma picked_step md u1 u2 md' : reachable ranks hash L cf it md -> singleStep md u1 u2 = Some md' ->
  pickedEvent md u1 u2 = Some (cf_lastproc (md_cf md'), cf_lastsite (md_cf md')).
Proof using CH.
  intros HR H. destruct (reachable_info _ _ _ _ _ _ ch_wi HR) as (cf1 & it2 & RI). destruct (step_of _ _ _ _ _ _ _ _ _ _ _ ch_wi RI H) as (i & p & p' & x & sl & cf2 & cfl & p1 & aff & ups & SO).
  destruct SO. destruct so_site as (q & Eq & Ex). destruct so_last as [-> ->]. unfold pickedEvent. rewrite so_pick. cbn [obind]. rewrite so_proc. cbn [obind]. rewrite Eq. cbn [obind]. rewrite Ex. cbn [obind].
  destruct (proc_back i p so_orig) as [pr Ei]. destruct (ch_proc _ _ _ _ _ _ CH i pr p Ei so_orig) as (_ & _ & -> & _). reflexivity.
Qed.

Lemma step_fire md u1 u2 md' s : reachable ranks hash L cf it md -> singleStep md u1 u2 = Some md' -> shows (md_cf md) s ->
  exists i pr x, zget prs i = Some pr /\ In x sites /\ enabled pr x s = true /\ cf_lastproc (md_cf md') = i /\ cf_lastsite (md_cf md') = x /\ shows (md_cf md') (fire pr x s).
Proof using CH.
  intros HR H HS. pose proof (reach_step _ _ _ _ _ _ _ _ _ HR H) as HR'. pose proof (ch_user _ _ _ _ _ _ CH) as PU. pose proof ch_ui as UI.
  destruct (plain_step ranks hash _ _ _ _ ch_wi (plain_input _ _ _ _ _ PU) (ui_fits _ _ _ _ _ UI) _ _ _ _ HR H) as (i & p & x & ys & Ep & _ & HL & Hx & A1 & A2 & RE).
  destruct (proc_back i p Ep) as [pr Ei]. destruct (ch_proc _ _ _ _ _ _ CH i pr p Ei Ep) as (_ & _ & En & _ & PL). rewrite (rows_of _ _ Ei) in RE.
  assert (Hs : In x sites) by (apply In_sites; exact Hx).
  exists i, pr, x. split; [exact Ei|]. split; [exact Hs|]. split; [apply (enabled_spec md s i pr x HR HS Ei Hs); exact HL|]. split; [congruence|]. split; [exact A2|].
  destruct (shows_some md' HR') as (s' & HS' & Hl'). pose proof (shows_len md s HR HS) as Hl. replace (fire pr x s) with s'; [exact HS'|].
  destruct (ui_procs _ _ _ _ _ UI i p Ep) as ([_ WR] & _). rewrite (rows_of _ _ Ei) in WR.
  destruct (reach_static _ _ _ _ _ _ HR) as (EC & _). rewrite (gi_coords _ _ _ _ _ (ch_geo _ _ _ _ _ _ CH)) in EC.
  assert (AT : forall j r y, zget (ip_rows pr) j = Some r -> zget ys j = Some y -> rw_before r <> "*" -> siteAt L coords x (rw_c r) y).
  { intros j r y Er Ey Hb. destruct (re_site _ _ _ _ _ _ RE j r y Er Ey Hb) as (a & b & d & Ea & Eb & SD & CT). apply closeTo_eq in CT; [|apply (ui_unit _ _ _ _ _ UI)]. subst d. rewrite EC in Ea, Eb. exists a, b. auto. }
  apply zget_ext. intros y. rewrite fire_get by exact Hl. destruct (zget s y) as [t|] eqn:Ey.
  - pose proof (zget_range _ _ _ Ey) as Hy. rewrite Hl in Hy. cbn [option_map]. apply (shows_get (md_cf md') s'); [exact HS'|].
    destruct (find _ (ip_rows pr)) as [r|] eqn:Ef.
    + apply find_some in Ef. destruct Ef as [Hr Hf]. apply andb_true_iff in Hf. destruct Hf as [Hw Ht]. apply negb_true_iff in Hw. unfold wildRow in Hw. apply String.eqb_neq in Hw.
      apply (there_spec L ch_wf basis ch_wb) in Ht; auto. apply In_zget in Hr. destruct Hr as [j Ej]. destruct (zget_lt ys j) as [y' Ey']; [rewrite (re_len _ _ _ _ _ _ RE); eapply zget_range; eauto|].
      pose proof (AT j r y' Ej Ey' Hw) as HA. assert (y' = y) by (eapply (siteAt_unique L ch_wf basis ch_wb); eauto). subst y'.
      apply (re_after _ _ _ _ _ _ RE j r y Ej Ey'). intros X. apply Hw. apply WR; [eapply zget_In; eauto|exact X].
    + assert (KEEP : zget (cf_elements (md_cf md')) y = zget (cf_elements (md_cf md)) y).
      { destruct (in_dec Z.eq_dec y ys) as [Hi|Hi]; [|apply (re_other _ _ _ _ _ _ RE); exact Hi]. apply In_zget in Hi. destruct Hi as [j Ej].
        destruct (zget_lt (ip_rows pr) j) as [r Er]; [rewrite <- (re_len _ _ _ _ _ _ RE); eapply zget_range; eauto|]. pose proof (find_none _ _ Ef r (zget_In _ _ _ Er)) as Hf. cbn beta in Hf.
        destruct (string_dec (rw_before r) "*") as [Hb|Hb].
        - apply (re_same _ _ _ _ _ _ RE j r y Er Ej). rewrite Hb. apply WR; [eapply zget_In; eauto|exact Hb].
        - exfalso. apply andb_false_iff in Hf. destruct Hf as [Hf|Hf].
          + apply negb_false_iff in Hf. unfold wildRow in Hf. apply String.eqb_eq in Hf. congruence.
          + apply (AT j r y Er Ej) in Hb. apply (there_spec L ch_wf basis ch_wb) in Hb; auto. congruence. }
      rewrite KEEP. apply (shows_get (md_cf md) s); assumption.
  - cbn [option_map]. destruct (zget s' y) as [t|] eqn:Ey'; [|reflexivity]. exfalso. destruct (zget_lt s y) as [t' E]; [rewrite Hl, <- Hl'; eapply zget_range; eauto|congruence].
Qed.

(** a step with deviates from (0, 1], when something can happen *)
Lemma step_ideal md u1 u2 s : reachable ranks hash L cf it md -> shows (md_cf md) s -> 0 < total L basis prs s -> 0 < dv_num u1 <= dv_den u1 -> 0 < dv_num u2 <= dv_den u2 ->
  forall md', singleStep md u1 u2 = Some md' ->
  exists s', shows (md_cf md') s' /\ idealStep L basis prs s (cf_lastproc (md_cf md'), cf_lastsite (md_cf md')) s'.
Proof using CH.
  intros HR HS HT U1 U2 md' H. destruct (step_fire md u1 u2 md' s HR H HS) as (i & pr & x & Ei & Hx & He & A1 & A2 & HS'). exists (fire pr x s). split; [exact HS'|].
  rewrite A1, A2. constructor; [exact Ei|exact Hx|].
  pose proof (picked_step md u1 u2 md' HR H) as HP. rewrite A1, A2 in HP. unfold pickedEvent in HP. ob HP as i0 E1. ob HP as p E2. ob HP as q E3. ob HP as x0 E4. injection HP as -> ->.
  pose proof (ratesOK_ideal md s HR HS HT) as OK. destruct (zset_lt (in_procs (md_in md)) i q) as [ps Es]; [eapply zget_range; eauto|].
  assert (PP : pickProcess (md_in md) u1 = Some (i, set_procs (md_in md) ps)) by (unfold pickProcess; rewrite E1; cbn [obind]; rewrite E2; cbn [obind]; rewrite E3; cbn [obind]; rewrite Es; reflexivity).
  destruct (C14_selected_is_available _ _ _ _ _ _ _ _ _ _ q x ch_wi HR OK U1 U2 PP) as (r & Hr & Pr); [cbn [set_procs in_procs]; rewrite (zset_get _ _ _ _ _ Es), Z.eqb_refl; reflexivity|exact E4|].
  apply (evt_spec md s i x r HR HS) in Hr. destruct Hr as (pr' & Ei' & _ & _ & ->). assert (pr' = pr) by congruence. subst pr'. unfold SIdeal.propensity. rewrite He. exact Pr.
Qed.
End Chain.
