(** From the arguments of the constructors to the input of the backend, for every kind of process. *)
From Coq Require Import Reals.
From Verif Require Import PBase PEnv SModel SEvent SGeo SBuild SPlain SStep SBucket SPossible PLattice PBuild PBucket PEffect PTotal POrder PTypes TTypes PPyProcess TPyProcess TPyBucket TPyLattice TPyInter PIdeal PRegular PStep PPlain PStepInv TChain PPyChain PPyChain2.
From Verif Require Export PPyChain4.
From Coq Require Import ZifyBool.
Open Scope string_scope.
Open Scope list_scope.
Open Scope Z_scope.

(** ** The configuration *)
Lemma dictZip_keys names : NoDup ("*" :: names) -> forall t, (exists k, tfind (dictZip ("*" :: names)) t = Some k) <-> t = "*" \/ In t names.
Proof.
  intros ND t. split.
  - intros [k H]. apply tfind_In in H. rewrite dictZip_nodup in H by exact ND. apply in_combine_l in H. destruct H as [<-|H]; auto.
  - intros H. assert (I : In t ("*" :: names)) by (destruct H as [->|H]; [left; reflexivity|right; exact H]). apply In_zget in I. destruct I as [k Hk]. exists k. apply (dictZip_wf _ ND). exact Hk.
Qed.
Lemma fits_nodup possible present : (forall given, possible = VList (map VStr given) -> NoDup given) -> possibleFits possible present -> NoDup ("*" :: possibleNames possible present) /\ incl present (possibleNames possible present).
Proof.
  intros HD [[-> Hn]|(names & -> & Hn & Hi)]; cbn [possibleNames].
  - split; [constructor; [rewrite sortedSet_In; exact Hn|apply sortedSet_NoDup]|]. intros x Hx. apply sortedSet_In. exact Hx.
  - rewrite flat_strs. split; [constructor; [exact Hn|apply HD; reflexivity]|exact Hi].
Qed.
Lemma possibleNames_same possible a b : (forall t, In t a <-> In t b) -> forall t, In t (possibleNames possible a) <-> In t (possibleNames possible b).
Proof. intros H t. destruct possible; cbn [possibleNames]; try reflexivity; rewrite !sortedSet_In; apply H. Qed.
(** the possible types *)
Lemma possible_read possible present pt : (forall given, possible = VList (map VStr given) -> NoDup given) -> possibleTypes possible (sortedSet present) = Ok pt ->
  wfPT pt /\ (forall t, (exists k, tfind pt t = Some k) <-> t = "*" \/ In t (possibleNames possible present)) /\ incl present (possibleNames possible present).
Proof.
  intros HD H. apply possibleTypes_cases in H. destruct H as [HF ->]. destruct (fits_nodup possible present HD HF) as [ND HI]. split; [apply (dictZip_wf _ ND)|]. split; [apply dictZip_keys; exact ND|exact HI].
Qed.
(** what a configuration given by single names, or by buckets, gives to the backend *)
Record configRead (L : lattice) (possible : pyval) (ns : particles) (kc : kconf) (els : list (list string)) : Prop := {
  cd_pt : wfPT (kc_possible kc);
  cd_keys : forall t, (exists k, tfind (kc_possible kc) t = Some k) <-> usable possible (present ns) t;
  cd_els : backendElements kc = Ok els;
  cd_len : zlen els = nsites L;
  cd_known : forall e, In e els -> e <> [] /\ forall t, In t e -> exists k, tfind (kc_possible kc) t = Some k;
  cd_numbers : Forall2 (fun e n => forall t, SBucket.howMany t e = Z.max 0 (STypes.countOf t n)) els ns;
  cd_one : forall i t, zget ns i = Some [(1, t)] -> zget els i = Some [t] }.
Lemma countOf_one t s : STypes.countOf t [(1, s)] = if String.eqb s t then 1 else 0.
Proof. unfold STypes.countOf. cbn [filter snd]. destruct (String.eqb s t); reflexivity. Qed.
Lemma plain_read S L types default possible kc s : wf_lattice L -> KMCConfiguration S L types default possible = Ok kc -> (forall given, possible = VList (map VStr given) -> NoDup given) ->
  readsTypes L types default s -> kc_types kc = KPlain s /\ configRead L possible (oneEachSite s) kc (map (fun t => [t]) s).
Proof.
  intros WF H HD HT. pose proof (types_read _ _ _ _ _ _ _ WF H HT) as KT. split; [exact KT|].
  assert (PR : present (oneEachSite s) = s). { unfold present, oneEachSite. rewrite map_map. cbn [map snd]. clear. induction s as [|t s IH]; [reflexivity|]. cbn [map concat app]. rewrite IH. reflexivity. }
  assert (PT : possibleTypes possible (sortedSet s) = Ok (kc_possible kc)).
  { destruct types as [| | | | |l| |]; try discriminate. cbn [KMCConfiguration] in H. destruct (detectTypesFormat l) as [[]|e]; cbn [MPy.obind] in H; try discriminate.
    - destruct default; try discriminate. destruct (checkTypes l _) as [ts|e]; cbn [MPy.obind] in H; [|discriminate]. destruct (possibleTypes possible _) as [pt|e] eqn:EP; cbn [MPy.obind] in H; [|discriminate]. injection H as <-. cbn [kc_types] in KT. injection KT as <-. exact EP.
    - destruct (longTypes _ _ _) as [ts|e]; cbn [MPy.obind] in H; [|discriminate]. destruct (possibleTypes possible _) as [pt|e] eqn:EP; cbn [MPy.obind] in H; [|discriminate]. injection H as <-. cbn [kc_types] in KT. injection KT as <-. exact EP.
    - destruct default; try discriminate. destruct (oall _ l) as [ts|e]; cbn [MPy.obind] in H; [|discriminate]. destruct (bucketNames ts) as [nm|e]; cbn [MPy.obind] in H; [|discriminate]. destruct (possibleTypes possible _) as [pt|e] eqn:EP; cbn [MPy.obind] in H; [|discriminate]. injection H as <-. discriminate. }
  destruct (possible_read _ _ _ HD PT) as (WP & KE & IN). constructor.
  - exact WP.
  - intros t. rewrite PR. unfold usable. apply KE.
  - unfold backendElements. rewrite KT. reflexivity.
  - rewrite zlen_map. apply HT.
  - intros e He. apply in_map_iff in He. destruct He as (t & <- & Ht). split; [discriminate|]. intros t' [<-|[]]. apply KE. right. apply IN. exact Ht.
  - unfold oneEachSite. clear. induction s as [|t s IH]; constructor; [|exact IH]. intros t'. rewrite countOf_one. unfold SBucket.howMany. cbn [filter]. rewrite String.eqb_sym. destruct (String.eqb t t'); reflexivity.
  - intros i t Hi. unfold oneEachSite in Hi. rewrite zget_map in Hi. rewrite zget_map. destruct (zget s i); [|discriminate]. cbn [option_map] in *. congruence.
Qed.
Lemma spread_known ls t : In t (spread ls) -> In t (map snd ls).
Proof. unfold spread. rewrite in_flat_map. intros ([k x] & H & I). cbn [fst snd] in I. apply repeat_spec in I. subst t. change x with (snd (k, x)). apply in_map. exact H. Qed.
Lemma normalised S l ns ts : Forall2 (fun v n => entryOf v = Some n) l ns -> oall (normaliseEntry S) l = Ok ts -> Forall2 (fun t n => omap itemT t = Some (totals n)) ts ns.
Proof.
  intros F H. apply oall_Forall2 in H. revert ns F. induction H as [|v t l ts Hv H IH]; intros ns F; inversion F as [|? n ? ns' Hn F']; subst; constructor; [|apply IH; exact F'].
  destruct (C40_normalises S v n Hn) as (r & R1 & R2 & _). rewrite Hv in R1. injection R1 as <-. cbn [entryOf] in R2. rewrite omap_itemOf in R2. exact R2.
Qed.
Lemma names_read ts ns names : Forall2 (fun t n => omap itemT t = Some (totals n)) ts ns -> bucketNames ts = Ok names -> forall t, In t names <-> In t (present ns).
Proof.
  intros F H. unfold bucketNames in H.
  assert (G : forall l ls, omap itemT l = Some ls -> oall (fun t => try n <- snd_ t ;; match n with VStr s => Ok s | _ => Raise TypeError end) l = Ok (map snd ls)).
  { induction l as [|x l IH]; intros ls E; cbn [omap] in E; [injection E as <-; reflexivity|]. ob E as y Ey. ob E as ls' El. injection E as <-. destruct y as [k s]. apply itemT_inv in Ey. destruct Ey as (n & -> & _). cbn [oall]. cbn. rewrite (IH _ El). reflexivity. }
  revert names H. induction F as [|t n ts ns Ht F IH]; intros names H s; cbn [concat] in H; [injection H as <-; reflexivity|].
  assert (A : forall (f : list pyval -> outcome string) a b r, oall f (a ++ b) = Ok r -> exists r1 r2, oall f a = Ok r1 /\ oall f b = Ok r2 /\ r = r1 ++ r2).
  { intros f a. induction a as [|x a IHa]; intros b r E; [exists [], r; auto|]. cbn [app oall] in *. destruct (f x) as [y|]; cbn [MPy.obind] in *; [|discriminate]. destruct (oall f (a ++ b)) as [r'|] eqn:E'; cbn [MPy.obind] in E; [|discriminate]. injection E as <-. destruct (IHa b r' E') as (r1 & r2 & -> & -> & ->). cbn [MPy.obind]. exists (y :: r1), r2. auto. }
  destruct (A _ _ _ _ H) as (r1 & r2 & E1 & E2 & ->). rewrite (G _ _ Ht) in E1. injection E1 as <-. rewrite in_app_iff, (IH _ E2 s). unfold present. cbn [map concat]. rewrite in_app_iff, totals_names, firsts_In. reflexivity.
Qed.
Lemma detect_buckets l ns : Forall2 (fun v n => entryOf v = Some n) l ns -> (exists v, In v l /\ forall t, v <> VStr t) -> detectTypesFormat l = Ok Buckets.
Proof.
  intros FE (v & Hv & NV).
  unfold detectTypesFormat. destruct (forallb instStr l) eqn:E1; [exfalso; rewrite forallb_forall in E1; specialize (E1 v Hv); destruct v; try discriminate; eapply NV; reflexivity|].
    destruct (forallb instTuple l) eqn:E2; [|reflexivity]. destruct l as [|w l]; [destruct Hv|]. inversion FE as [|? n ? ns' Hw FE']; subst. destruct w as [| | | | | |u|]; try reflexivity. cbn [entryOf] in Hw. destruct (itemOf (VTuple u)) as [[k s]|] eqn:EI; [|discriminate].
    change (itemT u = Some (k, s)) in EI. apply itemT_inv in EI. destruct EI as (m & -> & _). unfold longShape. cbn [zlen]. change (combine (zrange 0 4) [m; VStr s]) with [(0, m); (1, VStr s)]. cbn. destruct (instInt m); reflexivity.
Qed.
Lemma buckets_read S L types default possible kc ns : KMCConfiguration S L types default possible = Ok kc -> (forall given, possible = VList (map VStr given) -> NoDup given) ->
  readsBuckets L types default ns -> (exists ts, kc_types kc = KBuckets ts) /\ exists els, configRead L possible ns kc els.
Proof.
  intros H HD (l & -> & -> & LL & FE & NV & POS). cbn [KMCConfiguration] in H.
  pose proof (detect_buckets l ns FE NV) as D.
  rewrite D in H. cbn [MPy.obind] in H. destruct (oall (normaliseEntry S) l) as [ts|e] eqn:E1; cbn [MPy.obind] in H; [|discriminate]. destruct (bucketNames ts) as [nm|e] eqn:E2; cbn [MPy.obind] in H; [|discriminate]. destruct (possibleTypes possible _) as [pt|e] eqn:EP; cbn [MPy.obind] in H; [|discriminate]. injection H as <-.
  split; [eexists; reflexivity|]. cbn [kc_types kc_possible] in *. pose proof (normalised S l ns ts FE E1) as FN. pose proof (names_read ts ns nm FN E2) as HN. destruct (possible_read _ _ _ HD EP) as (WP & KE & IN).
  assert (KU : forall t, (exists k, tfind pt t = Some k) <-> usable possible (present ns) t) by (intros t; rewrite KE; unfold usable; rewrite (possibleNames_same possible nm (present ns) HN t); reflexivity).
  assert (BE : exists els, oall (fun b => try r <- oall repeatName b ;; Ok (concat r)) ts = Ok els /\ Forall2 (fun e n => e = spread (totals n)) els ns).
  { clear - FN. induction FN as [|t n ts ns Ht F (els & E & FF)]; [exists []; split; [reflexivity|constructor]|]. destruct (repeatName_ok t _ Ht) as (rr & R1 & R2). exists (spread (totals n) :: els). cbn [oall]. rewrite R1. cbn [MPy.obind]. rewrite E. cbn [MPy.obind]. rewrite R2. split; [reflexivity|]. constructor; [reflexivity|exact FF]. }
  destruct BE as (els & BE & FB). exists els.
  assert (GE : forall e n, e = spread (totals n) -> forall t, SBucket.howMany t e = Z.max 0 (STypes.countOf t n)). { intros e n -> t. rewrite howMany_spread, countOf_totals; [reflexivity|]. rewrite totals_names. apply firsts_NoDup. }
  constructor; cbn [kc_types kc_possible].
  - exact WP.
  - exact KU.
  - unfold backendElements. exact BE.
  - rewrite (Forall2_zlen _ _ _ FB), <- (Forall2_zlen _ _ _ FE). exact LL.
  - intros e He. apply In_zget in He. destruct He as [i Hi]. destruct (Forall2_to _ _ _ FB i e Hi) as (n & Hn & ->). destruct (POS n (zget_In _ _ _ Hn)) as (t & Ht). split.
    + intros X. pose proof (GE _ n eq_refl t) as Y. rewrite X in Y. cbn in Y. lia.
    + intros t' Ht'. apply spread_known in Ht'. rewrite totals_names, firsts_In in Ht'. apply KE. right. apply IN. apply HN. unfold present. apply in_concat. exists (map snd n). split; [apply in_map; eapply zget_In; exact Hn|exact Ht'].
  - clear - FB GE. induction FB as [|e n els ns He F IH]; constructor; [apply GE; exact He|exact IH].
  - intros i t Hi. pose proof (zget_range _ _ _ Hi) as Hr. rewrite <- (Forall2_zlen _ _ _ FB) in Hr. destruct (zget_lt els i Hr) as [e He]. destruct (Forall2_to _ _ _ FB i e He) as (n & Hn & ->). rewrite Hi in Hn. injection Hn as <-. rewrite He. unfold totals. cbn [map snd firsts filter]. rewrite countOf_one, String.eqb_refl. reflexivity.
Qed.

(** ** The processes and the whole input *)
Lemma built_places S pt sp p : wfPT pt -> builtFrom S pt sp p ->
  (forall e, In e (pr_ml p) -> In (pe_c e) (positions sp)) /\ (forall a, In a (pr_aff p) -> a = 0) /\ ((exists rows, sp = Bucket rows) -> pr_bucket p = true).
Proof.
  intros WP B. destruct sp as [rows|rows]; cbn [builtFrom positions] in *.
  - destruct B as [_ [bs B]]. destruct (builtPlain_spec _ _ _ _ _ WP B) as [es PO]. split; [|split; [apply PO|intros [r X]; discriminate]]. intros e He. apply In_zget in He. destruct He as [j Ej]. destruct (ml_row _ _ _ _ _ _ PO j e Ej) as (k & r & Er & _ & EF). rewrite (en_c _ _ _ EF). apply in_map. eapply zget_In; exact Er.
  - destruct B as [WB [bs B]]. destruct (builtBucket_spec _ _ _ _ _ WP WB B) as [es PO]. split; [|split; [apply PO|intros _; apply PO]]. intros e He. destruct (bml_row _ _ _ _ _ _ PO e He) as (r & Hr & EF). rewrite (eb_c _ _ _ EF). apply in_map. exact Hr.
Qed.
Lemma sqrt_reach S c R : 0 < S -> 0 <= R -> c < ((R + 1) * S) * ((R + 1) * S) -> Z.sqrt c / S <= R.
Proof.
  intros HS HR H. assert (Z.sqrt c < (R + 1) * S). { destruct (Z_lt_dec c 0); [rewrite Z.sqrt_neg by lia; nia|]. apply Z.sqrt_lt_square; [lia|nia|exact H]. }
  assert (Z.sqrt c / S < R + 1) by (apply Z.div_lt_upper_bound; lia). lia.
Qed.
Lemma sqrt_reached S c R : 0 < S -> 0 <= R -> (R * S) * (R * S) <= c -> R <= Z.sqrt c / S.
Proof. intros HS HR H. apply Z.div_le_lower_bound; [lia|]. rewrite Z.mul_comm. apply Z.sqrt_le_square; [nia|nia|exact H]. Qed.
Lemma numbers_read names els ns : Forall2 (fun e n => forall t, SBucket.howMany t e = Z.max 0 (STypes.countOf t n)) els ns -> map (fun els => map (fun t => SBucket.howMany t els) names) els = particleNumbers names ns.
Proof. intros F. unfold particleNumbers. induction F as [|e n els ns H F IH]; [reflexivity|]. cbn [map]. rewrite IH. f_equal. apply map_ext. exact H. Qed.

Lemma simulation_input2 ranks S hash a kl kc ki L basis names ns kprs R : 1 <= ranks -> mixedScript S a = Ok (kl, kc, ki) -> mixedPosed S hash a L basis names ns kprs R ->
  exists cf it prs', kl_lat kl = L /\ wf_lattice L /\ modelInput S kl kc ki = Ok (Some (cf, it)) /\ simulated ranks hash L basis names cf it prs' /\ likeChain2 L basis (map snd kprs) prs' /\
    numbersIn names cf = particleNumbers names ns /\
    ((exists ts, kc_types kc = KBuckets ts) \/ (exists s, kc_types kc = KPlain s /\ ns = oneEachSite s /\ cf_elements cf = map (fun t => [t]) s /\ forall pr, In pr prs' -> isPlain pr)).
Proof.
  intros HR H W. unfold mixedScript in H.
  destruct (KMCUnitCell S (ma_cell a) (ma_points a)) as [u|] eqn:EU; cbn [MPy.obind] in H; [|discriminate].
  destruct (KMCLattice S (Some u) (ma_repetitions a) (ma_periodic a)) as [kl'|] eqn:EL; cbn [MPy.obind] in H; [|discriminate].
  destruct (KMCConfiguration S (kl_lat kl') _ _ _) as [kc'|] eqn:EC; cbn [MPy.obind] in H; [|discriminate].
  destruct (oall _ (ma_processes a)) as [ps|] eqn:EP; cbn [MPy.obind] in H; [|discriminate].
  destruct (KMCInteractions _ _ _) as [ki'|] eqn:EI; cbn [MPy.obind] in H; [|discriminate]. injection H as -> -> ->.
  pose proof (mp_unit _ _ _ _ _ _ _ _ _ W) as HS.
  (* the lattice *)
  destruct (C67_sites S _ _ _ _ u kl ltac:(lia) EU EL) as (ra & rb & rc & pa & pb & pc & ps0 & R1 & R2 & R3 & E1 & WF & LS & _ & HB). cbv zeta in *.
  assert (ps0 = basis) by (eapply readsCoords_fun; [exact R3|apply W]). subst ps0.
  assert (KL : kl_lat kl = L).
  { destruct (mp_lattice _ _ _ _ _ _ _ _ _ W) as (ra' & rb' & rc' & pa' & pb' & pc' & Q1 & Q2 & ->). apply repetitions_ok in R1, Q1. apply periodic_ok in R2, Q2. rewrite R1 in Q1. rewrite R2 in Q2. injection Q1 as -> -> ->. injection Q2 as -> -> ->. exact E1. }
  destruct (HB (mp_distinct _ _ _ _ _ _ _ _ _ W)) as (WB & _). clear HB.
  assert (SI : kl_sites kl = generateLatticeSites L basis).
  { apply C67_lattice in EL. destruct EL as (ra' & rb' & rc' & pa' & pb' & pc' & _ & _ & X). cbv zeta in X. rewrite X in KL |- *. cbn [kl_lat kl_sites] in *. rewrite KL. f_equal.
    apply C67_unit_cell in EU. destruct EU as (v1 & v2 & v3 & bs & -> & _ & _ & RB & _). cbn [uc_basis]. eapply readsCoords_fun; [exact RB|apply W]. }
  rewrite KL in *. assert (LU : lt_unit L = S) by (rewrite E1; reflexivity). assert (LN : lt_nb L = zlen basis) by (rewrite E1; reflexivity).
  (* the configuration *)
  assert (CD : exists els, configRead L (ma_possible a) ns kc els /\
    ((exists ts, kc_types kc = KBuckets ts) \/ (exists s, kc_types kc = KPlain s /\ ns = oneEachSite s /\ els = map (fun t => [t]) s /\ forall k pr, In (k, pr) kprs -> isPlain pr))).
  { destruct (mp_types _ _ _ _ _ _ _ _ _ W) as [(s & RT & -> & HP)|RT].
    - destruct (plain_read _ _ _ _ _ _ _ WF EC (mp_possible _ _ _ _ _ _ _ _ _ W) RT) as [KT CD]. eexists. split; [exact CD|]. right. exists s. auto.
    - destruct (buckets_read _ _ _ _ _ _ _ EC (mp_possible _ _ _ _ _ _ _ _ _ W) RT) as [KT [els CD]]. exists els. split; [exact CD|left; exact KT]. }
  destruct CD as (els & CD & SHAPE). pose proof (cd_pt _ _ _ _ _ CD) as WPT. destruct (mp_names _ _ _ _ _ _ _ _ _ W) as [NDN HNM].
  assert (KEY : forall t, In t names <-> exists k, tfind (kc_possible kc) t = Some k) by (intros t; rewrite HNM, (cd_keys _ _ _ _ _ CD); reflexivity).
  pose proof (cd_len _ _ _ _ _ CD) as HLS.
  destruct (mkConfiguration_total (kc_possible kc) (generateLatticeSites L basis) els WPT) as [cf ECF].
  { rewrite (lattice_sites_len L WF) by apply WB. congruence. }
  { exact (cd_known _ _ _ _ _ CD). }
  pose proof (mkConfiguration_info _ _ _ _ ECF) as CI.
  (* the processes *)
  apply oall_Forall2 in EP. set (g := ma_calculator a) in *.
  pose proof (mp_proper _ _ _ _ _ _ _ _ _ W) as PROP. fold g in PROP.
  assert (IDX : forall k pr, In (k, pr) kprs -> cp_basis pr < zlen basis).
  { intros k pr Hpr. destruct (PROP k pr Hpr) as [PL _]. destruct (pl_leads _ _ _ _ _ PL czero) as (b' & be & be' & i & j & k' & Eb & _); [eapply zget_In; apply PL|]. apply zget_range in Eb. lia. }
  destruct (procs_backend2 S (kc_possible kc) (zlen basis) g names HS WPT (fun t => proj1 (KEY t)) (ma_processes a) ps kprs 0 EP (mp_processes _ _ _ _ _ _ _ _ _ W)) as (sps & procs & EPR & LP & LPS & LSP & BK).
  { intros k pr Hpr. split; [eapply IDX; exact Hpr|]. apply (PROP k pr Hpr). }
  set (prs' := map (fun x => mkCP (cp_rate (snd (fst x))) (cp_basis (snd (fst x))) (snd x)) (combine kprs sps)).
  assert (G' : forall i, zget prs' i = match zget kprs i, zget sps i with Some kpr, Some sp => Some (mkCP (cp_rate (snd kpr)) (cp_basis (snd kpr)) sp) | _, _ => None end).
  { intros i. unfold prs'. rewrite zget_map, zget_combine. destruct (zget kprs i), (zget sps i); reflexivity. }
  assert (LP' : zlen prs' = zlen kprs) by (unfold prs'; rewrite zlen_map, zlen_combine; lia).
  assert (BK' : forall i proc, zget procs i = Some proc -> exists k pr p sp, zget kprs i = Some (k, pr) /\ zget ps i = Some p /\ zget sps i = Some sp /\ zget prs' i = Some (mkCP (cp_rate pr) (cp_basis pr) sp) /\ backed2 S (kc_possible kc) g i k pr p sp proc).
  { intros i proc Hi. pose proof (zget_range _ _ _ Hi). destruct (zget_lt kprs i) as [[k pr] Hpr]; [lia|]. destruct (zget_lt ps i) as [p Hp]; [lia|]. destruct (zget_lt sps i) as [sp Hsp]; [lia|]. exists k, pr, p, sp. split; [exact Hpr|]. split; [exact Hp|]. split; [exact Hsp|]. split; [rewrite G', Hpr, Hsp; reflexivity|]. exact (BK i k pr p sp proc Hpr Hp Hsp Hi). }
  assert (BKP : forall i pr', zget prs' i = Some pr' -> exists k pr p sp proc, zget kprs i = Some (k, pr) /\ zget procs i = Some proc /\ pr' = mkCP (cp_rate pr) (cp_basis pr) sp /\ backed2 S (kc_possible kc) g i k pr p sp proc).
  { intros i pr' Hi. pose proof (zget_range _ _ _ Hi). destruct (zget_lt procs i) as [proc Hp]; [lia|]. destruct (BK' i proc Hp) as (k & pr & p & sp & Q1 & Q2 & Q3 & Q4 & B). exists k, pr, p, sp, proc. rewrite Q4 in Hi. injection Hi as <-. auto. }
  assert (LK : likeChain2 L basis (map snd kprs) prs').
  { split.
    - apply Forall2_from; [rewrite zlen_map; lia|]. intros i pr pr' Hpr Hi'. rewrite zget_map in Hpr. destruct (BKP i pr' Hi') as (k & pr0 & p & sp & proc & Q1 & Q2 & -> & B). rewrite Q1 in Hpr. injection Hpr as <-. split; [reflexivity|]. split; [reflexivity|]. apply B.
    - intros pr Hpr. apply in_map_iff in Hpr. destruct Hpr as ([k pr0] & <- & Hpr). destruct (PROP k pr0 Hpr) as [PL _]. exact (placed_apartC L WF basis _ _ _ PL). }
  (* the interactions *)
  assert (NE : zlen ps <> 0 /\ ki = mkKI ps true g).
  { unfold KMCInteractions in EI. rewrite zlen_map in EI. destruct (Z.eqb_spec (zlen ps) 0); [discriminate|]. split; [assumption|].
    rewrite oall_given in EI. cbn [MPy.obind] in EI. destruct (mp_wild _ _ _ _ _ _ _ _ _ W) as [-> | ->] in EI; injection EI as <-; reflexivity. }
  destruct NE as [NE ->].
  set (it := match g with None => mkInteractions procs true false noCalculator | Some g => mkInteractions procs true true (pg_rates g) end).
  assert (IP : in_procs it = procs) by (unfold it; destruct g; reflexivity). assert (IW : in_wild it = true) by (unfold it; destruct g; reflexivity). assert (IC : in_custom it = isGiven g) by (unfold it; destruct g; reflexivity).
  assert (KN : forallb (fun p => forallb (known (kc_possible kc)) (presentTypes p)) ps = true).
  { apply forallb_forall. intros p Hp. apply In_zget in Hp. destruct Hp as [i Hi]. pose proof (zget_range _ _ _ Hi). destruct (zget_lt procs i) as [proc Hproc]; [lia|]. destruct (BK' i proc Hproc) as (k & pr & p' & sp & Q1 & Q2 & Q3 & Q4 & B). rewrite Hi in Q2. injection Q2 as <-. apply B. }
  assert (MI : modelInput S kl kc (mkKI ps true g) = Ok (Some (cf, it))).
  { unfold modelInput, backendConfiguration. rewrite (cd_els _ _ _ _ _ CD). cbn [MPy.obind]. rewrite SI, ECF. unfold backendInteractions, backendProcesses. cbn [ki_processes ki_wild ki_plugin]. rewrite KN. rewrite KL, LN.
    replace (combine (zrange 0 (zlen ps - 1)) ps) with (combine (zseq 0 (length ps)) ps).
    - change (fun ip : Z * kprocess => backendProcess S (kc_possible kc) (zlen basis) (customOf S (mkKI ps true g) (fst ip)) (fst ip) (snd ip)) with (fun ip : Z * kprocess => backendProcess S (kc_possible kc) (zlen basis) (customOf S (mkKI [] true g) (fst ip)) (fst ip) (snd ip)).
      rewrite EPR. cbn [MPy.obind]. rewrite omap_Some. unfold it. destruct g; reflexivity.
    - unfold zrange, zlen. do 2 f_equal. unfold MConfig.length. lia. }
  assert (NUM : numbersIn names cf = particleNumbers names ns) by (unfold numbersIn; rewrite (ci_elements _ _ _ _ CI); apply numbers_read; apply CD).
  exists cf, it, prs'. split; [reflexivity|]. split; [exact WF|]. split; [exact MI|].
  cut (simulated ranks hash L basis names cf it prs').
  { intros SM. split; [exact SM|]. split; [exact LK|]. split; [exact NUM|]. destruct SHAPE as [SHAPE|(s & SH1 & SH2 & SH4 & SH3)]; [left; exact SHAPE|right]. exists s. split; [exact SH1|]. split; [exact SH2|]. split; [rewrite (ci_elements _ _ _ _ CI); exact SH4|]. intros pr' Hpr'. apply In_zget in Hpr'. destruct Hpr' as [i Hi]. destruct (BKP i pr' Hi) as (k & pr & p & sp & proc & Q1 & Q2 & -> & B).
    destruct (SH3 k pr (zget_In _ _ _ Q1)) as [rows ER]. pose proof (b2_like _ _ _ _ _ _ _ _ _ B) as K. rewrite ER in K. destruct sp as [rows'|]; [exists rows'; reflexivity|contradiction]. }
  (* reach *)
  pose proof (mp_rates _ _ _ _ _ _ _ _ _ W) as RF. fold g in RF.
  assert (MR : 1 <= R /\ maxRange it <= R /\ (g <> None -> maxRange it = R)).
  { inversion RF as [CO EG|g' rateS rateB R1' AN EG].
    - destruct (co_reach _ _ _ CO) as [R1' RB]. split; [exact R1'|]. split; [|congruence]. apply maxRange_le; [exact R1'|]. rewrite IP. intros proc Hp. apply In_zget in Hp. destruct Hp as [i Hi]. destruct (BK' i proc Hi) as (k & pr & p & sp & Q1 & Q2 & Q3 & Q4 & B).
      pose proof (b2_range _ _ _ _ _ _ _ _ _ B) as BR. rewrite <- EG in BR. rewrite BR. apply rangeOf_le; [exact R1'|]. intros e He. pose proof (proj1 (built_places _ _ _ _ WPT (b2_built _ _ _ _ _ _ _ _ _ B)) e He) as HI. apply (Permutation_in _ (Permutation_sym (like_positions _ _ (b2_like _ _ _ _ _ _ _ _ _ B)))) in HI.
      destruct (RB k pr _ (zget_In _ _ _ Q1) HI) as (B1 & B2 & B3). split; [|split]; apply cmpRange_le; assumption.
    - destruct (an_reach _ _ _ _ _ _ _ _ _ _ _ AN) as [A1 A2]. split; [exact R1'|].
      assert (LE : maxRange it <= R).
      { apply maxRange_le; [exact R1'|]. rewrite IP. intros proc Hp. apply In_zget in Hp. destruct Hp as [i Hi]. destruct (BK' i proc Hi) as (k & pr & p & sp & Q1 & Q2 & Q3 & Q4 & B). pose proof (b2_range _ _ _ _ _ _ _ _ _ B) as BR. rewrite <- EG in BR. destruct BR as (BR1 & _ & ->). rewrite BR1. apply sqrt_reach; [lia|lia|]. apply (A1 k pr). eapply zget_In; exact Q1. }
      split; [exact LE|]. intros _. destruct A2 as [->|(k & pr & Hpr & GE)]; [pose proof (maxRange_pos it); lia|]. apply In_zget in Hpr. destruct Hpr as [i Hi]. pose proof (zget_range _ _ _ Hi). destruct (zget_lt procs i) as [proc Hp]; [lia|]. destruct (BK' i proc Hp) as (k' & pr' & p & sp & Q1 & Q2 & Q3 & Q4 & B). rewrite Hi in Q1. injection Q1 as <- <-.
      pose proof (b2_range _ _ _ _ _ _ _ _ _ B) as BR. rewrite <- EG in BR. destruct BR as (BR1 & _ & BR2). assert (pr_range proc <= maxRange it) by (apply maxRange_ge; rewrite IP; eapply zget_In; exact Hp). pose proof (sqrt_reached S (sight S g' pr) R ltac:(lia) ltac:(lia) GE). rewrite BR2, BR1 in *. lia. }
  destruct MR as (R1' & MR & MRE).
  assert (UN : uniform L (maxRange it)) by (eapply uniform_le; [exact MR|apply W]).
  assert (PI : processesInput ranks L basis names cf it prs').
  { constructor.
    - constructor.
      * constructor; try (exact WF); try (exact HR).
        -- rewrite (ci_coords _ _ _ _ CI). apply (lattice_sites_len L WF). apply WB.
        -- rewrite (omap_zlen _ _ _ (ci_types _ _ _ _ CI)). exact HLS.
        -- rewrite (ci_elements _ _ _ _ CI). exact HLS.
        -- intros i proc. rewrite IP, IC. intros Hi. destruct (BK' i proc Hi) as (k & pr & p & sp & _ & _ & _ & _ & B). apply B.
        -- intros i proc x. rewrite IP. intros Hi. destruct (BK' i proc Hi) as (k & pr & p & sp & _ & _ & _ & _ & B). apply (built_places _ _ _ _ WPT (b2_built _ _ _ _ _ _ _ _ _ B)).
      * rewrite (ci_ptypes _ _ _ _ CI). exact WPT.
      * rewrite (ci_ptypes _ _ _ _ CI). eauto.
      * destruct UN as (A1 & A2 & A3). unfold uniformAxis in *. split; [|split]; intros X; [destruct A1 as [[_ Y]|[Y _]]|destruct A2 as [[_ Y]|[Y _]]|destruct A3 as [[_ Y]|[Y _]]]; congruence || exact Y.
      * lia.
      * intros i proc. rewrite IP. intros Hi. destruct (BK' i proc Hi) as (k & pr & p & sp & _ & _ & _ & Q4 & B). rewrite (ci_ptypes _ _ _ _ CI), LU. unfold specOfProc. rewrite Q4. apply B.
    - constructor; [exact WB|apply CI|exact UN|lia| | |].
      * intros b Hb. rewrite LU. eapply clean_le; [exact MR|]. apply (mp_clean _ _ _ _ _ _ _ _ _ W). lia.
      * intros t Ht. destruct (omap_In _ _ _ _ (ci_types _ _ _ _ CI) Ht) as (e & He & Eb). rewrite (ci_ptypes _ _ _ _ CI). destruct (names_wf _ _ WPT (ci_names _ _ _ _ CI)) as [N1 _]. rewrite (bucketOf_len _ _ _ _ Eb), N1. pose proof (zlen_nonneg (kc_possible kc)). lia.
      * rewrite (ci_ptypes _ _ _ _ CI). destruct (maxType_wf _ WPT). lia.
    - exact IW.
    - rewrite (ci_ptypes _ _ _ _ CI). split; [exact NDN|exact KEY].
    - intros X. rewrite X in LP'. cbn in LP'. lia.
    - rewrite IP. lia.
    - intros i pr' proc Hi' Hi. rewrite IP in Hi. destruct (BK' i proc Hi) as (k & pr & p & sp & Q1 & Q2 & Q3 & Q4 & B). rewrite Q4 in Hi'. injection Hi' as <-. cbn [cp_basis cp_spec]. destruct (PROP k pr (zget_In _ _ _ Q1)) as (PL & TW & LV). pose proof (b2_like _ _ _ _ _ _ _ _ _ B) as K.
      split; [apply B|]. split; [apply B|]. split; [rewrite (b2_custom _ _ _ _ _ _ _ _ _ B); eapply placed_like; [exact K|apply B|exact PL]|]. split; [eapply takes_like; eauto|]. rewrite (ci_ptypes _ _ _ _ CI). eapply empties_like; [|exact K|exact LV]. intros t Ht. apply KEY. exact Ht. }
  split; [exact PI|].
  inversion RF as [CO EG|g' rateS rateB R1'' AN EG].
  - apply givenConstant. constructor; [rewrite IC, <- EG; reflexivity|]. intros i pr' proc Hi' Hi. rewrite IP in Hi. destruct (BK' i proc Hi) as (k & pr & p & sp & Q1 & Q2 & Q3 & Q4 & B). rewrite Q4 in Hi'. injection Hi' as <-. cbn [cp_rate]. rewrite (b2_rate _ _ _ _ _ _ _ _ _ B). split; [apply B|]. intros x s. apply (co_rates _ _ _ CO). eapply zget_In; exact Q1.
  - assert (MRR : maxRange it = R) by (apply MRE; congruence).
    assert (BR : forall i proc, zget procs i = Some proc -> exists k pr p sp, zget kprs i = Some (k, pr) /\ zget prs' i = Some (mkCP (cp_rate pr) (cp_basis pr) sp) /\ backed2 S (kc_possible kc) g i k pr p sp proc /\ pr_cut2 proc = sight S g' pr /\ (pr_cache proc = true <-> caches g' i)).
    { intros i proc Hi. destruct (BK' i proc Hi) as (k & pr & p & sp & Q1 & Q2 & Q3 & Q4 & B). pose proof (b2_range _ _ _ _ _ _ _ _ _ B) as X. rewrite <- EG in X. exists k, pr, p, sp. destruct X as (X1 & X2 & _). auto. }
    apply (givenCalculator _ _ _ _ _ _ _ rateS rateB). constructor.
    + rewrite IC, <- EG. reflexivity.
    + unfold it. rewrite <- EG. apply AN.
    + destruct (an_cache _ _ _ _ _ _ _ _ _ _ _ AN) as [NC|(DK & OC & FI)].
      * left. intros proc Hp. rewrite IP in Hp. apply In_zget in Hp. destruct Hp as [i Hi]. destruct (BR i proc Hi) as (k & pr & p & sp & Q1 & _ & _ & _ & Q5). destruct (pr_cache proc); [|reflexivity]. exfalso. apply (NC i _ Q1). apply Q5. reflexivity.
      * right. constructor; [| | |].
        -- assert (PM : Permutation names (cf_names cf)).
           { destruct (names_wf _ _ WPT (ci_names _ _ _ _ CI)) as [N1 N2]. assert (KN' : forall k s, zget (cf_names cf) k = Some s -> tfind (kc_possible kc) s = Some k).
             { intros k s Hk. destruct (kind_name _ WPT k) as [s' Es]; [pose proof (zget_range _ _ _ Hk); lia|]. pose proof (N2 _ _ Es). congruence. }
             apply NoDup_Permutation; [exact NDN|apply PEnv.zget_NoDup; intros j k s Hj Hk; apply KN' in Hj, Hk; congruence|]. intros t. rewrite KEY. split; [intros [k Hk]; eapply zget_In; apply N2; exact Hk|]. intros Ht. apply In_zget in Ht. destruct Ht as [k Hk]. eauto. }
           assert (CU : forall d, comeUp L basis names (cf_names cf) prs' (numbersIn names cf) (map pr_cut2 (in_procs it)) d -> comeUp L basis names (cf_names cf) (map snd kprs) (particleNumbers names ns) (map (fun kpr => sight S g' (snd kpr)) kprs) d).
           { intros d [s i pr' c x ys ds HC Hi' Hc Hx Hb SU]. rewrite NUM in HC. pose proof (comesTo_like _ _ _ _ _ _ _ LK HC) as HC'. rewrite zget_map, IP in Hc. destruct (zget procs i) as [proc|] eqn:Hi; [|discriminate]. injection Hc as <-.
             destruct (BR i proc Hi) as (k & pr & p & sp & Q1 & Q4 & B & Q5 & _). rewrite Q4 in Hi'. injection Hi' as <-. rewrite Q5 in SU. eapply (comesUpAt _ _ _ _ _ _ _ s i pr (sight S g' pr) x ys ds); auto; [rewrite zget_map, Q1; reflexivity|rewrite zget_map, Q1; reflexivity]. }
           intros d1 d2 Hd1 Hd2. apply (DK (cf_names cf) PM); apply CU; assumption.
        -- intros i proc. rewrite IP. intros Hi. destruct (BR i proc Hi) as (k & pr & p & sp & _ & _ & B & _). apply B.
        -- intros proc Hp Hc. rewrite IP in Hp. apply In_zget in Hp. destruct Hp as [i Hi]. destruct (BR i proc Hi) as (k & pr & p & sp & Q1 & _ & B & _ & Q5). destruct (OC i k pr Q1 (proj1 Q5 Hc)) as [O1 O2]. replace (in_rc it) with (pyCalculator rateS rateB) by (unfold it; rewrite <- EG; symmetry; apply AN).
           unfold occupationOnly. rewrite (b2_rate _ _ _ _ _ _ _ _ _ B), (b2_number _ _ _ _ _ _ _ _ _ B). cbn [pyCalculator rc_plain rc_bucket]. split; [intros; apply O1|]. intros. destruct (callbackBuckets _ _ _) as [[b0 a0]|]; [apply O2|reflexivity].
        -- destruct FI as [FI|FI].
           ++ left. intros e He. rewrite (ci_elements _ _ _ _ CI) in He. apply In_zget in He. destruct He as [i Hi]. pose proof (zget_range _ _ _ Hi). rewrite (Forall2_zlen _ _ _ (cd_numbers _ _ _ _ _ CD)) in *. destruct (zget_lt ns i) as [n Hn]; [lia|]. destruct (FI n (zget_In _ _ _ Hn)) as [t ->]. exists t. pose proof (cd_one _ _ _ _ _ CD i t Hn). congruence.
           ++ right. intros proc Hp Hc. rewrite IP in Hp. apply In_zget in Hp. destruct Hp as [i Hi]. destruct (BR i proc Hi) as (k & pr & p & sp & Q1 & _ & B & _ & Q5). destruct (FI i k pr Q1 (proj1 Q5 Hc)) as [rows ER]. apply (built_places _ _ _ _ WPT (b2_built _ _ _ _ _ _ _ _ _ B)). pose proof (b2_like _ _ _ _ _ _ _ _ _ B) as K. rewrite ER in K. destruct sp as [|rows']; [contradiction|eauto].
    + apply (C70_room ranks L basis names cf it prs' PI). intros i pr' proc Hi' Hi. rewrite IP in Hi. destruct (BR i proc Hi) as (k & pr & p & sp & Q1 & Q4 & B & Q5 & _). rewrite Q4 in Hi'. injection Hi' as <-. cbn [cp_basis]. rewrite MRR, Q5. apply (an_beyond _ _ _ _ _ _ _ _ _ _ _ AN k pr). eapply zget_In; exact Q1.
    + intros proc Hp. rewrite IP in Hp. apply In_zget in Hp. destruct Hp as [i Hi]. destruct (BR i proc Hi) as (k & pr & p & sp & Q1 & Q4 & B & Q5 & _). rewrite MRR, Q5. apply (an_covers _ _ _ _ _ _ _ _ _ _ _ AN k pr). eapply zget_In; exact Q1.
    + intros s i pr' proc x y HC Hi' Hi Hy HH. rewrite IP in Hi. destruct (BR i proc Hi) as (k & pr & p & sp & Q1 & Q4 & B & Q5 & _). rewrite Q4 in Hi'. injection Hi' as <-. cbn [cp_rate cp_spec].
      rewrite NUM in HC. pose proof (comesTo_like _ _ _ _ _ _ _ LK HC) as HC'. assert (KC : likeC pr (mkCP (cp_rate pr) (cp_basis pr) sp)) by (split; [reflexivity|]; split; [reflexivity|apply B]). rewrite <- (can_like L basis names pr _ x s KC) in HH.
      destruct (an_rates _ _ _ _ _ _ _ _ _ _ _ AN s i k pr x y HC' Q1 Hy HH) as [AN1 AN2]. split; [exact AN1|]. rewrite Q5, (b2_rate _ _ _ _ _ _ _ _ _ B). intros ys ds SU. specialize (AN2 ys ds SU). pose proof (b2_like _ _ _ _ _ _ _ _ _ B) as K.
      destruct (cp_spec pr) as [rows|rows], sp as [rows'|rows']; cbn [likeSpec] in K; try contradiction; intros bf af D; apply AN2; [eapply describesTypes_like|eapply describesNumbers_like]; eauto.
Qed.
