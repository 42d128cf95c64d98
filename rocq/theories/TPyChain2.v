(** C73: from the arguments of the Python constructors to the Markov chain of SChain.v, for plain and bucket processes, with rate constants or a rate calculator. *)
From Coq Require Import Reals.
From Verif Require Import PBase SModel SEvent SGeo SBuild SPlain SStep SBucket SPossible SNoUB PLattice PBuild PTypes TTypes TStep PStep PPlain PChain PChain2 PPyProcess TPyProcess TPyBucket TPyLattice TPyInter PIdeal MTimer TTimer TIdeal TChain PGeo PPyChain2 PPyChain5 TPyChain TPossible TRates TCache XRows XSystems XCheck.
From Verif Require Export SPyChain2.
From Coq Require Import ZifyBool.
Open Scope string_scope.
Open Scope list_scope.
Open Scope Z_scope.

(** the script has made the model md, which took its steps with the deviates us; kc is the configuration the user holds *)
Definition mixedRun (S ranks : Z) (hash : list Z -> Z) (a : mixedArgs) (kc : kconf) (md : model) : Prop :=
  exists kl ki md0 us, mixedScript S a = Ok (kl, kc, ki) /\ KMCLatticeModel S ranks hash kl kc ki = Ok (Some md0) /\ runSteps md0 us = Some md.
(** configuration.types() shows a name, or a list of names, at each site; s counts them *)
Definition namesAt (v : pyval) : list string := match v with VStr t => [t] | VList l => flat_map (fun w => match w with VStr t => [t] | _ => [] end) l | _ => [] end.
Definition numbersOf (names : list string) (vs : list pyval) : pstate := map (fun v => map (fun t => SBucket.howMany t (namesAt v)) names) vs.
Definition reportsNumbers (names : list string) (kc : kconf) (md : model) (s : pstate) : Prop := exists vs, typesQuery kc (md_cf md) = Ok vs /\ s = numbersOf names vs.
Definition reportsb (names : list string) (kc : kconf) (s : pstate) (md : model) : bool := match typesQuery kc (md_cf md) with Ok vs => sameNumbers (numbersOf names vs) s | Raise _ => false end.
Lemma reportsb_spec names kc md s : reportsb names kc s md = true <-> reportsNumbers names kc md s.
Proof.
  unfold reportsb, reportsNumbers. destruct (typesQuery kc (md_cf md)) as [vs|e]; [|split; [discriminate|intros (vs & X & _); discriminate]]. unfold sameNumbers. destruct (list_eq_dec _ _ _) as [E|N].
  - split; [|reflexivity]. intros _. exists vs. split; [reflexivity|]. symmetry. exact E.
  - split; [discriminate|]. intros (vs' & X & ->). injection X as <-. contradiction.
Qed.

Lemma query_buckets c cf names ts : kc_types c = KBuckets ts -> exists vs, typesQuery c cf = Ok vs /\ numbersOf names vs = numbersIn names cf.
Proof.
  intros HT. unfold typesQuery. rewrite HT. eexists. split; [reflexivity|]. unfold numbersOf. rewrite map_map. apply map_ext. intros e. cbn [namesAt]. rewrite flat_strs. reflexivity.
Qed.
Lemma query_plain c cf names ts : kc_types c = KPlain ts -> (forall e, In e (cf_elements cf) -> exists t, e = [t]) -> exists vs, typesQuery c cf = Ok vs /\ numbersOf names vs = numbersIn names cf.
Proof.
  intros HT HE. unfold typesQuery, numbersIn. rewrite HT. induction (cf_elements cf) as [|e l IH]; [exists []; split; reflexivity|]. destruct IH as (vs & E & Q); [intros e' He'; apply HE; right; exact He'|]. destruct (HE e (or_introl eq_refl)) as [t ->].
  exists (VStr t :: vs). cbn [oall MPy.obind]. rewrite E. cbn [MPy.obind]. split; [reflexivity|]. unfold numbersOf in *. cbn [map namesAt]. rewrite Q. reflexivity.
Qed.
Lemma singles_kept ranks hash L basis names cf it prs md s : processesInput ranks L basis names cf it prs -> cf_elements cf = map (fun t => [t]) s -> (forall pr, In pr prs -> isPlain pr) -> reachable ranks hash L cf it md ->
  forall e, In e (cf_elements (md_cf md)) -> exists t, e = [t].
Proof.
  intros PI HE HP HR e He. set (rowsOf := fun i => match specOfProc prs i with Plain rows => rows | Bucket _ => [] end).
  assert (PU : plainUser ranks L cf it rowsOf).
  { constructor.
    - destruct (pc_user _ _ _ _ _ _ _ PI) as [U1 U2 U3 U4 U5 U6]. constructor; try assumption. intros i p Ep. specialize (U6 i p Ep). unfold rowsOf. pose proof (zget_range _ _ _ Ep) as Hr. rewrite <- (pc_len _ _ _ _ _ _ _ PI) in Hr. destruct (zget_lt prs i Hr) as [pr Hpr]. destruct (HP pr (zget_In _ _ _ Hpr)) as [rows ER]. unfold specOfProc in *. rewrite Hpr in *. rewrite ER in *. exact U6.
    - destruct (ui_cf _ _ _ _ _ (pc_user _ _ _ _ _ _ _ PI)) as (coords & els & E). pose proof (ci_elements _ _ _ _ (mkConfiguration_info _ _ _ _ E)) as X. exists coords, s. rewrite <- HE, X. exact E. }
  apply In_zget in He. destruct He as [y Hy]. assert (LY : zlen (cf_elements (md_cf md)) = nsites L) by (rewrite <- (now_len _ _ _ _ _ _ _ _ PI md HR); unfold numbersIn; rewrite zlen_map; reflexivity). pose proof (zget_range _ _ _ Hy) as Hr. destruct (C20_single_occupancy _ _ _ _ _ _ _ PU HR y ltac:(lia)) as [t (T1 & T2)]. exists t. congruence.
Qed.
Lemma timed_reach ranks hash L cf it us : forall md t vs md' t' rest, reachable ranks hash L cf it md -> timedRun md t us vs = Some (md', t', rest) -> reachable ranks hash L cf it md'.
Proof.
  induction us as [|u us IH]; intros md t vs md' t' rest HR H; cbn [timedRun] in H; [injection H as <- _ _; exact HR|]. ob H as rate Er. ob H as r Ep. ob H as md1 E1. eapply IH; [eapply reach_step; eauto|exact H].
Qed.
Lemma bucketNames_ok ts ns : Forall2 (fun t n => omap itemT t = Some (totals n)) ts ns -> exists nm, bucketNames ts = Ok nm.
Proof.
  intros F. unfold bucketNames. assert (G : forall m ls, omap itemT m = Some ls -> forall rest r, oall (fun t => try n <- snd_ t ;; match n with VStr s => Ok s | _ => Raise TypeError end) rest = Ok r ->
    exists r', oall (fun t => try n <- snd_ t ;; match n with VStr s => Ok s | _ => Raise TypeError end) (m ++ rest) = Ok r').
  { induction m as [|t m IH]; intros ls E rest r Er; [exists r; exact Er|]. cbn [omap] in E. ob E as y Ey. ob E as ls' El. destruct y as [q s]. apply itemT_inv in Ey. destruct Ey as (n & -> & _). cbn [app oall]. destruct (IH _ El rest r Er) as [r' E']. rewrite E'. cbn. eauto. }
  induction F as [|m n ms needs Hm F [l IH]]; [exists []; reflexivity|]. cbn [concat]. eapply G; eauto.
Qed.
Lemma run_input2 S ranks hash a kc md L basis names ns kprs R : 1 <= ranks -> mixedPosed S hash a L basis names ns kprs R -> mixedRun S ranks hash a kc md ->
  exists cf it prs', simulated ranks hash L basis names cf it prs' /\ likeChain2 L basis (map snd kprs) prs' /\ reachable ranks hash L cf it md /\
    forall md', reachable ranks hash L cf it md' -> forall s, reportsNumbers names kc md' s <-> s = shown names md'.
Proof.
  intros HR W (kl & ki & md0 & us & E1 & E2 & E3). destruct (simulation_input2 ranks S hash a kl kc ki L basis names ns kprs R HR E1 W) as (cf & it & prs' & KL & WF & MI & SM & LK & NU & SH).
  unfold KMCLatticeModel in E2. rewrite MI in E2. cbn [MPy.obind obind fst snd] in E2. rewrite KL in E2. injection E2 as E2. exists cf, it, prs'. split; [exact SM|]. split; [exact LK|].
  split; [exists md0, us; split; [exact E2|exact E3]|]. intros md' RC s.
  assert (Q : exists vs, typesQuery kc (md_cf md') = Ok vs /\ numbersOf names vs = shown names md').
  { destruct SH as [[ts KT]|(s0 & KT & EN & EE & HP)]; [eapply query_buckets; eauto|]. eapply query_plain; [exact KT|]. eapply singles_kept; [apply SM|exact EE|exact HP|exact RC]. }
  destruct Q as (vs & Q1 & Q2). split; [intros (vs' & Q3 & ->); rewrite Q1 in Q3; injection Q3 as <-; exact Q2|]. intros ->. exists vs. split; [exact Q1|]. symmetry. exact Q2.
Qed.

(** ** The script is accepted *)
Lemma bucket_accepted S names a k pr : describesBucket names a k pr -> positions (cp_spec pr) <> [] -> exists b, KMCBucketProcess S (ba_coordinates a) (ba_minimum a) (ba_update a) (ba_basis a) (ba_rate a) = Ok b.
Proof.
  intros (cs & entries & needs & changes & rows & Rc & ES & F2 & RU & LN & LC & LR & SAY & HNeed & HCh & Er & Rbas & Rrate) NP.
  assert (NE : cs <> []) by (intros ->; apply NP; rewrite Er; cbn [positions]; change (zlen (@nil coord)) with 0 in LR; apply zlen_0 in LR; rewrite LR; reflexivity).
  unfold KMCBucketProcess. rewrite (proj1 (readsCoords_ok _ _ NE) Rc). cbn [MPy.obind]. apply readsBasis_ok in Rbas. apply readsRate_ok in Rrate. rewrite Rbas, Rrate. cbn [MPy.obind]. rewrite ES.
  assert (X : exists ms, oall (normaliseEntry S) entries = Ok ms /\ Forall2 (fun m n => omap itemT m = Some (totals n)) ms needs).
  { clear - F2. induction F2 as [|v n entries needs Hv F (ms & E & FM)]; [exists []; split; [reflexivity|constructor]|]. destruct (C40_normalises S v n Hv) as (m & R1 & R2 & _). cbn [entryOf] in R2. rewrite omap_itemOf in R2. exists (m :: ms). cbn [oall]. rewrite R1. cbn [MPy.obind]. rewrite E. cbn [MPy.obind]. split; [reflexivity|]. constructor; assumption. }
  destruct X as (ms & E & FM). rewrite E. cbn [MPy.obind]. rewrite centred_zlen. rewrite (Forall2_zlen _ _ _ FM), LN, Z.eqb_refl. cbn [negb].
  assert (Y : exists l, oall (fun t => snd_ t) (concat ms) = Ok l).
  { clear - FM. assert (G : forall m ls, omap itemT m = Some ls -> forall rest r, oall (fun t => snd_ t) rest = Ok r -> exists r', oall (fun t => snd_ t) (m ++ rest) = Ok r').
    { induction m as [|t m IH]; intros ls E rest r Er; [exists r; exact Er|]. cbn [omap] in E. ob E as y Ey. ob E as ls' El. destruct y as [q s]. apply itemT_inv in Ey. destruct Ey as (n & -> & _). cbn [app oall]. destruct (IH _ El rest r Er) as [r' E']. cbn. rewrite E'. cbn. eauto. }
    induction FM as [|m n ms needs Hm F [l IH]]; [exists []; reflexivity|]. cbn [concat]. eapply G; eauto. }
  destruct Y as [l ->]. cbn [MPy.obind].
  assert (E5 : oall (fun m => normaliseEntry S (VList (map VTuple m))) ms = Ok ms).
  { apply oall_Forall2. apply oall_Forall2 in E. clear - E F2. revert needs F2. induction E as [|v m entries ms Hv E IH]; intros needs F2; inversion F2; subst; constructor; [|eapply IH; eauto]. match goal with H : entryOf v = Some ?y |- _ => exact (C40_idempotent S v y m H Hv) end. }
  rewrite E5. cbn [MPy.obind]. eauto.
Qed.
Lemma fits_same possible a b : (forall t, In t a <-> In t b) -> possibleFits possible a -> possibleFits possible b.
Proof. intros H [[-> N]|(names & -> & N & I)]; [left|right; exists names]. - split; [reflexivity|]. rewrite <- H. exact N. - split; [reflexivity|]. split; [exact N|]. intros t Ht. apply I. apply H. exact Ht. Qed.
(** Arguments that describe a chain, with a right-handed cell of some volume, basis points in [0,1), proper plain processes and fitting possible types, are accepted by all constructors. *)
Theorem C73_accepted S hash a L basis names ns kprs R va vb vc : mixedPosed S hash a L basis names ns kprs R ->
  readsCoords (ma_cell a) [va; vb; vc] -> S * S * S <= 100000 * volume va vb vc -> basis <> [] -> (forall p, In p basis -> fractionalPoint S p) ->
  possibleFits (ma_possible a) (present ns) -> ma_processes a <> [] -> (forall p, In (PlainArgs p) (ma_processes a) -> properProcess p) -> exists k, mixedScript S a = Ok k.
Proof.
  intros W RV HV NB HF HP NP HPP. unfold mixedScript. pose proof (mp_unit _ _ _ _ _ _ _ _ _ W) as HS.
  assert (EU : KMCUnitCell S (ma_cell a) (ma_points a) = Ok (mkUC (va, vb, vc) basis)) by (apply C67_unit_cell; exists va, vb, vc, basis; repeat (split; [assumption || reflexivity || apply (mp_points _ _ _ _ _ _ _ _ _ W)|]); assumption).
  rewrite EU. cbn [MPy.obind]. destruct (mp_lattice _ _ _ _ _ _ _ _ _ W) as (ra & rb & rc & pa & pb & pc & Q1 & Q2 & EL).
  assert (EK : KMCLattice S (Some (mkUC (va, vb, vc) basis)) (ma_repetitions a) (ma_periodic a) = Ok (mkKL (mkUC (va, vb, vc) basis) L (generateLatticeSites L basis))).
  { apply C67_lattice. exists ra, rb, rc, pa, pb, pc. split; [exact Q1|]. split; [exact Q2|]. cbn [uc_basis]. rewrite <- EL. reflexivity. }
  rewrite EK. cbn [MPy.obind kl_lat].
  assert (WF : wf_lattice L). { destruct (C67_sites S _ _ _ _ _ _ ltac:(lia) EU EK) as (? & ? & ? & ? & ? & ? & ? & _ & _ & _ & X). cbv zeta in X. apply X. }
  assert (EC : exists kc, KMCConfiguration S L (ma_types a) (ma_default a) (ma_possible a) = Ok kc).
  { destruct (mp_types _ _ _ _ _ _ _ _ _ W) as [(s & (Hl & HT) & EN & _)|RB].
    - assert (PR : present ns = s). { rewrite EN. unfold present, oneEachSite. rewrite map_map. cbn [map snd]. clear. induction s as [|t s IH]; [reflexivity|]. cbn [map concat app]. rewrite IH. reflexivity. }
      rewrite PR in HP. destruct HT as [[-> ->]|(l & es & d & -> & NE & -> & HE & HI & HG)].
      + cbn [KMCConfiguration]. unfold detectTypesFormat. rewrite strs_all. cbn [MPy.obind]. rewrite <- Hl, checkTypes_ok. cbn [MPy.obind]. apply possibleTypes_ok in HP. rewrite HP. cbn [MPy.obind]. eauto.
      + destruct (C41_long S L l d (ma_possible a) es WF NE HE HI) as (ts & T1 & T2 & T3 & _).
        assert (ts = s). { apply PBase.zget_ext. intros x. destruct (Z_lt_dec x 0) as [|]; [rewrite !(proj2 (zget_None _ _)) by lia; reflexivity|]. destruct (Z_lt_dec x (nsites L)) as [|]; [|rewrite !(proj2 (zget_None _ _)) by lia; reflexivity].
          destruct (site_of_index L WF x ltac:(lia)) as (i & j & k & m & Hs & ->). rewrite (T2 _ _ _ _ Hs), (HG _ _ _ _ Hs). reflexivity. }
        subst ts. destruct (T3 HP) as (c & E & _). eauto.
    - destruct RB as (l & -> & -> & LL & FE & NV & POS). cbn [KMCConfiguration]. rewrite (detect_buckets l ns FE NV). cbn [MPy.obind].
      assert (X : exists ts, oall (normaliseEntry S) l = Ok ts). { clear - FE. induction FE as [|v n l ns Hv F [ts E]]; [exists []; reflexivity|]. destruct (C40_normalises S v n Hv) as (m & R1 & _). cbn [oall]. rewrite R1. cbn [MPy.obind]. rewrite E. cbn [MPy.obind]. eauto. }
      destruct X as [ts ET]. rewrite ET. cbn [MPy.obind]. pose proof (normalised S l ns ts FE ET) as FN. destruct (bucketNames_ok ts ns FN) as [nm EN]. rewrite EN. cbn [MPy.obind]. pose proof (names_read ts ns nm FN EN) as HN.
      assert (HP' : possibleFits (ma_possible a) nm) by (eapply fits_same; [|exact HP]; intros t; symmetry; apply HN). apply possibleTypes_ok in HP'. rewrite HP'. cbn [MPy.obind]. eauto. }
  destruct EC as [kc EC]. rewrite EC. cbn [MPy.obind].
  assert (EP : exists ps, oall (makeProcess S) (ma_processes a) = Ok ps).
  { pose proof (mp_processes _ _ _ _ _ _ _ _ _ W) as DP. pose proof (mp_proper _ _ _ _ _ _ _ _ _ W) as PP. clear - HPP HS DP PP. revert PP. induction DP as [|p [k pr] l kprs Hp DP IH]; intros PP; [exists []; reflexivity|]. cbn [oall].
    assert (X : exists q, makeProcess S p = Ok q).
    { destruct p as [p|p]; cbn [makeProcess describesAny fst snd] in *.
      - destruct (proper_accepted S p ltac:(lia) (HPP p (or_introl eq_refl))) as [q ->]. cbn [MPy.obind]. eauto.
      - destruct (bucket_accepted S names p k pr Hp) as [q ->]; [|cbn [MPy.obind]; eauto]. destruct (PP k pr (or_introl eq_refl)) as (PL & _). intros E. pose proof (pl_first _ _ _ _ _ PL) as F0. rewrite E in F0. discriminate. }
    destruct X as [q ->]. cbn [MPy.obind]. destruct IH as [ps ->]; [intros p' Hp'; apply HPP; right; exact Hp'|intros k' pr' Hpr'; apply PP with k'; right; exact Hpr'|]. cbn [MPy.obind]. eauto. }
  destruct EP as [ps EP]. rewrite EP. cbn [MPy.obind].
  assert (LP : zlen ps <> 0). { apply oall_Forall2 in EP. destruct EP as [|x y l m _ F]; [congruence|]. rewrite zlen_cons. pose proof (zlen_nonneg m). lia. }
  unfold KMCInteractions. rewrite zlen_map. destruct (Z.eqb_spec (zlen ps) 0); [contradiction|]. rewrite oall_given. cbn [MPy.obind].
  destruct (mp_wild _ _ _ _ _ _ _ _ _ W) as [-> | ->]; cbn [MPy.obind]; eauto.
Qed.

(** The model can be made, and types() shows the particles the script began with. *)
Theorem C73_start S ranks hash a kl kc ki L basis names ns kprs R : 1 <= ranks -> mixedScript S a = Ok (kl, kc, ki) -> mixedPosed S hash a L basis names ns kprs R ->
  exists md, KMCLatticeModel S ranks hash kl kc ki = Ok (Some md) /\ reportsNumbers names kc md (particleNumbers names ns).
Proof.
  intros HR E W. destruct (simulation_input2 ranks S hash a kl kc ki L basis names ns kprs R HR E W) as (cf & it & prs' & KL & WF & MI & SM & LK & NU & SH).
  destruct (C70_start ranks hash L basis names cf it prs' SM) as (md & E1 & E2). exists md. assert (EM : KMCLatticeModel S ranks hash kl kc ki = Ok (Some md)) by (unfold KMCLatticeModel; rewrite MI; cbn [MPy.obind obind fst snd]; rewrite KL, E1; reflexivity).
  split; [exact EM|]. assert (RN : mixedRun S ranks hash a kc md) by (exists kl, ki, md, []; auto). destruct (run_input2 _ _ _ _ _ _ _ _ _ _ _ _ HR W RN) as (cf' & it' & prs2 & _ & _ & RC & RP). apply (RP md RC). congruence.
Qed.

Section Run.
Context (S ranks : Z) (hash : list Z -> Z) (a : mixedArgs) (kc : kconf) (md : model) (L : lattice) (basis : list coord) (names : list string) (ns : particles) (kprs : list (Z * cproc)) (R : Z).
Context (HR : 1 <= ranks) (W : mixedPosed S hash a L basis names ns kprs R) (RN : mixedRun S ranks hash a kc md).
Let prs := map snd kprs.
(** The simulation's total rate is that of the chain in the state types() shows. *)
Theorem C73_total : exists s, reportsNumbers names kc md s /\ totalRate (md_in md) = Some (allRates L basis names prs s) /\ 0 <= allRates L basis names prs s.
Proof using HR W RN.
  destruct (run_input2 _ _ _ _ _ _ _ _ _ _ _ _ HR W RN) as (cf & it & prs' & SM & LK & RC & RP). exists (shown names md). split; [apply (RP md RC); reflexivity|]. rewrite (allRates_like L basis names prs prs' _ LK). exact (C70_total _ _ _ _ _ _ _ _ _ SM RC).
Qed.
(** A step is an event of the chain. *)
Theorem C73_step s u1 u2 : reportsNumbers names kc md s -> 0 < allRates L basis names prs s -> unitDeviate u1 -> unitDeviate u2 ->
  exists md' s', singleStep md u1 u2 = Some md' /\ mixedRun S ranks hash a kc md' /\ reportsNumbers names kc md' s' /\ chainStep L basis names prs s (lastEvent md') s'.
Proof using HR W RN.
  intros HS HT U1 U2. destruct (run_input2 _ _ _ _ _ _ _ _ _ _ _ _ HR W RN) as (cf & it & prs' & SM & LK & RC & RP). apply (RP md RC) in HS. subst s. rewrite (allRates_like L basis names prs prs' _ LK) in HT.
  destruct (C70_step _ _ _ _ _ _ _ _ _ _ _ SM RC HT U1 U2) as (md' & E & HI). exists md', (shown names md'). split; [exact E|]. split; [|split; [apply (RP md' (reach_step _ _ _ _ _ _ _ _ _ RC E)); reflexivity|apply (chainStep_like L basis names prs prs' _ _ _ LK); exact HI]].
  destruct RN as (kl & ki & md0 & us & E1 & E2 & E3). exists kl, ki, md0, (us ++ [(u1, u2)]). split; [exact E1|]. split; [exact E2|]. apply (runSteps_snoc md0 us md u1 u2 md' E3 E).
Qed.
(** of the pairs of deviates k1 / M, k2 / N a fraction of (rate of the event) / (total rate) leads to the event *)
Theorem C73_probability s i pr x m N : reportsNumbers names kc md s -> 0 < allRates L basis names prs s -> 0 < m -> 0 < N -> multipleOfRates L basis names prs s N -> zget prs i = Some pr -> In x (sites L) ->
  let M := m * allRates L basis names prs s in
  zlen (filter (stepLeadsTo md M N (fun md' => (fst (lastEvent md') =? i) && (snd (lastEvent md') =? x))) (pairs M N)) * allRates L basis names prs s =
  eventRate L basis names pr x s * zlen (pairs M N).
Proof using HR W RN.
  intros HS HT Hm HN HM Ei Hx. destruct (run_input2 _ _ _ _ _ _ _ _ _ _ _ _ HR W RN) as (cf & it & prs' & SM & LK & RC & RP). apply (RP md RC) in HS. subst s. destruct (Forall2_to _ _ _ (proj1 LK) i pr Ei) as (pr' & Ei' & K).
  pose proof (multipleOfRates_like L basis names prs prs' _ N LK HM) as HM'. rewrite (allRates_like L basis names prs prs' _ LK) in *. rewrite (event_like L basis names pr pr' x _ K). exact (C70_probability _ _ _ _ _ _ _ _ _ _ _ _ _ _ SM RC HT Hm HN HM' Ei' Hx).
Qed.
(** ... and a fraction of (rate from s to s') / (total rate) to the state s' *)
Theorem C73_next_state s s' m N : reportsNumbers names kc md s -> 0 < allRates L basis names prs s -> 0 < m -> 0 < N -> multipleOfRates L basis names prs s N ->
  let M := m * allRates L basis names prs s in
  zlen (filter (stepLeadsTo md M N (reportsb names kc s')) (pairs M N)) * allRates L basis names prs s =
  rateBetween L basis names prs s s' * zlen (pairs M N).
Proof using HR W RN.
  intros HS HT Hm HN HM. destruct (run_input2 _ _ _ _ _ _ _ _ _ _ _ _ HR W RN) as (cf & it & prs' & SM & LK & RC & RP). apply (RP md RC) in HS. subst s.
  pose proof (multipleOfRates_like L basis names prs prs' _ N LK HM) as HM'. rewrite (allRates_like L basis names prs prs' _ LK) in *. rewrite (rateBetween_like L basis names prs prs' _ s' LK). pose proof (C70_next_state _ _ _ _ _ _ _ _ _ s' _ _ SM RC HT Hm HN HM') as X. cbv zeta in X. cbv zeta. rewrite <- X. do 2 f_equal.
  apply filter_ext. intros k. unfold stepLeadsTo. destruct (singleStep md _ _) as [md'|] eqn:E; [|reflexivity]. pose proof (RP md' (reach_step _ _ _ _ _ _ _ _ _ RC E) s') as Y. rewrite <- reportsb_spec in Y. apply eq_true_iff_eq. rewrite Y. unfold sameNumbers. destruct (list_eq_dec _ _ _) as [E'|NE]; [split; [reflexivity|intros _; symmetry; exact E']|split; [intros ->; exfalso; apply NE; reflexivity|discriminate]].
Qed.
(** A run with the clock is a history of the chain ... *)
Theorem C73_history s t us vs md' t' rest : reportsNumbers names kc md s -> Forall (fun u => unitDeviate (fst u) /\ unitDeviate (snd u)) us -> (forall v, In v vs -> 0 <= v < 1)%R ->
  timedRun md (DFin t) us vs = Some (md', t', rest) ->
  exists es s' T, chainHistory L basis names prs s t es s' T /\ reportsNumbers names kc md' s' /\ t' = DFin T /\ eventsOf md us es /\
    exists used, vs = used ++ rest /\ filter (fun v => if Req_EM_T v 0 then false else true) used = map snd es.
Proof using HR W RN.
  intros HS HU HV H. destruct (run_input2 _ _ _ _ _ _ _ _ _ _ _ _ HR W RN) as (cf & it & prs' & SM & LK & RC & RP). apply (RP md RC) in HS. subst s.
  destruct (C70_history _ _ _ _ _ _ _ _ _ SM HU _ _ _ _ _ _ RC HV H) as (es & T & HI & X). exists es, (shown names md'), T. split; [apply (chainHistory_like L basis names prs prs' es LK); exact HI|]. split; [|exact X].
  apply (RP md' (timed_reach _ _ _ _ _ _ _ _ _ _ _ _ RC H)). reflexivity.
Qed.
(** ... and every history of the chain is a run. *)
Theorem C73_every_history es s t s' T : reportsNumbers names kc md s -> chainHistory L basis names prs s t es s' T ->
  exists us md', Forall (fun u => unitDeviate (fst u) /\ unitDeviate (snd u)) us /\ timedRun md (DFin t) us (map snd es) = Some (md', DFin T, []) /\ reportsNumbers names kc md' s' /\ eventsOf md us es.
Proof using HR W RN.
  intros HS H. destruct (run_input2 _ _ _ _ _ _ _ _ _ _ _ _ HR W RN) as (cf & it & prs' & SM & LK & RC & RP). apply (RP md RC) in HS. subst s. apply (chainHistory_like L basis names prs prs' es LK) in H.
  destruct (C70_every_history _ _ _ _ _ _ _ _ _ SM _ _ _ _ RC H) as (us & md' & A & B & C & D). exists us, md'. split; [exact A|]. split; [exact B|]. split; [|exact D]. apply (RP md' (timed_reach _ _ _ _ _ _ _ _ _ _ _ _ RC B)). congruence.
Qed.
End Run.

(** ** Examples *)
Definition pyPairs (l : list (Z * string)) : pyval := VList (map (fun p => VTuple [VInt (fst p); VStr (snd p)]) l).
Definition pyBucket (cs : list coord) (needs changes : list (list (Z * string))) (b k : Z) : bucketArgs := mkBA (pyCoords cs) (VList (map pyPairs needs)) (VList (map pyPairs changes)) (pyBasis [b]) (VFloat (FNum k)).
Definition bucketRow (c0 : coord) (x : coord * list (Z * string) * list (Z * string)) : brow := mkBRow (csub (fst (fst x)) c0) (spread (totals (snd (fst x)))) (mapOf (snd x)).
Lemma bucketRow_says c0 c n ch : saysRow c0 c n ch (bucketRow c0 (c, n, ch)).
Proof.
  destruct (mapOf_spec ch) as (M1 & M2 & M3). constructor; cbn [bucketRow br_c br_before br_upd fst snd].
  - reflexivity.
  - intros s. rewrite howMany_spread, countOf_totals; [reflexivity|]. rewrite totals_names. apply firsts_NoDup.
  - exact M3.
  - exact M1.
  - intros s. apply M2.
Qed.
Lemma pyPairs_entry n : entryOf (pyPairs n) = Some n.
Proof. unfold pyPairs. cbn [entryOf]. induction n as [|[k s] n IH]; [reflexivity|]. cbn [map omap itemOf fst snd asInt option_map obind]. rewrite IH. reflexivity. Qed.
Lemma pyPairs_changes n : readsChanges (pyPairs n) n.
Proof. eexists. split; [reflexivity|]. induction n as [|[k s] n IH]; constructor; [do 2 eexists; split; reflexivity|exact IH]. Qed.
Definition bucketRows (cs : list coord) (needs changes : list (list (Z * string))) : list brow := map (bucketRow (hd czero cs)) (combine (combine cs needs) changes).
Lemma pyBucket_describes names cs needs changes b k rate : zlen needs = zlen cs -> zlen changes = zlen cs -> 0 <= b -> 0 <= k ->
  forallb (fun n => existsb (fun s => 0 <? STypes.countOf s n) names && forallb (fun ks => existsb (String.eqb (snd ks)) names) n) needs = true ->
  forallb (forallb (fun ks => existsb (String.eqb (snd ks)) names && negb (String.eqb (snd ks) "*"))) changes = true ->
  describesBucket names (pyBucket cs needs changes b k) k (mkCP rate b (Bucket (bucketRows cs needs changes))).
Proof.
  intros L1 L2 Hb Hk HN HC. exists cs, (map pyPairs needs), needs, changes, (bucketRows cs needs changes). cbn [pyBucket ba_coordinates ba_minimum ba_update ba_basis ba_rate cp_spec cp_basis].
  split; [apply pyCoords_reads|]. split; [reflexivity|]. split; [clear; induction needs as [|n l IH]; constructor; [apply pyPairs_entry|exact IH]|].
  split; [eexists; split; [reflexivity|]; clear; induction changes as [|n l IH]; constructor; [apply pyPairs_changes|exact IH]|]. split; [exact L1|]. split; [exact L2|].
  split; [unfold bucketRows; rewrite zlen_map, !PPyProcess.zlen_combine; rewrite ?PPyProcess.zlen_combine; congruence|].
  split. { intros i c n ch c0 r E0 E1 E2 E3 E4. unfold bucketRows in E4. rewrite zget_map, !zget_combine, E1, E2, E3 in E4. cbn [option_map] in E4. injection E4 as <-. destruct cs as [|c' cs]; [discriminate|]. cbn [hd]. assert (c' = c0) by (cbn in E0; congruence). subst c'. apply bucketRow_says. }
  split. { intros n Hn. rewrite forallb_forall in HN. specialize (HN n Hn). apply andb_true_iff in HN. destruct HN as [A B]. apply existsb_exists in A. destruct A as (s & _ & A). split; [exists s; lia|]. intros t Ht. apply in_map_iff in Ht. destruct Ht as (ks & <- & Ht). rewrite forallb_forall in B. specialize (B ks Ht). apply existsb_exists in B. destruct B as (t & I & E). apply String.eqb_eq in E. congruence. }
  split. { intros n Hn. rewrite forallb_forall in HC. specialize (HC n Hn). rewrite forallb_forall in HC. split.
    - intros t Ht. apply in_map_iff in Ht. destruct Ht as (ks & <- & Ht). specialize (HC ks Ht). apply andb_true_iff in HC. destruct HC as [B _]. apply existsb_exists in B. destruct B as (t & I & E). apply String.eqb_eq in E. congruence.
    - intros Ht. apply in_map_iff in Ht. destruct Ht as (ks & E & Ht). specialize (HC ks Ht). rewrite E in HC. rewrite andb_false_r in HC. discriminate. }
  split; [reflexivity|]. split; [|split; [reflexivity|exact Hk]]. eexists. split; [reflexivity|]. split; [discriminate|]. split; [repeat constructor|]. intros b' [<-|[]]. exact Hb.
Qed.
Definition pyPlain (cs : list coord) (before after : list string) (b k : Z) : procArgs := mkPA (pyCoords cs) (pyNames before) (pyNames after) VNone (pyBasis [b]) (VFloat (FNum k)).
Lemma pyPlain_describes names cs before after b k rate : incl before names -> incl after names -> 0 <= b -> 0 <= k -> describesPlain names (pyPlain cs before after b k) k (mkCP rate b (Plain (plainRows cs before after))).
Proof.
  intros I1 I2 Hb Hk. exists cs, before, after. cbn [pyPlain pa_coordinates pa_before pa_after pa_moves pa_basis pa_rate cp_spec cp_basis]. split; [apply pyCoords_reads|]. split; [reflexivity|]. split; [reflexivity|]. split; [exact I1|]. split; [exact I2|]. split; [reflexivity|].
  split; [|split; [split; [reflexivity|exact Hk]|left; reflexivity]]. eexists. split; [reflexivity|]. split; [discriminate|]. split; [repeat constructor|]. intros b' [<-|[]]. exact Hb.
Qed.

(** a reaction of neighbours that changes numbers, a hop given as a plain process, a decay beside anything; several particles at a site.  The calculator counts the
    particles of type A around the site for bucket processes; it returns the rate constant of the hop.  The answers are cached except those for the hop. *)
Definition x73Near : list coord := [mkC 3 4 0; mkC 13 4 0].
Definition x73Procs : list anyArgs :=
  [ BucketArgs (pyBucket x73Near [[(1, "A"); (1, "B")]; [(1, "B")]] [[(-1, "A")]; [(1, "A")]] 0 7);
    PlainArgs (pyPlain [czero; mkC 10 0 0] ["A"; "B"] ["B"; "A"] 0 3);
    BucketArgs (pyBucket [czero; mkC 0 10 0] [[(1, "A"); (1, "A")]; [(1, "*")]] [[(-1, "A")]; []] 0 5) ].
Definition x73Kprs (plainRate bucketRate : Z -> Z -> pstate -> Z) : list (Z * cproc) :=
  [ (7, mkCP (bucketRate 7) 0 (Bucket (bucketRows x73Near [[(1, "A"); (1, "B")]; [(1, "B")]] [[(-1, "A")]; [(1, "A")]])));
    (3, mkCP (plainRate 3) 0 (Plain (plainRows [czero; mkC 10 0 0] ["A"; "B"] ["B"; "A"])));
    (5, mkCP (bucketRate 5) 0 (Bucket (bucketRows [czero; mkC 0 10 0] [[(1, "A"); (1, "A")]; [(1, "*")]] [[(-1, "A")]; []]))) ].
Definition x73Types : list pyval :=
  [ VList [VStr "A"; VStr "B"]; VStr "B"; VTuple [VInt 2; VStr "A"];  VStr "B"; VStr "A"; VList [VTuple [VInt 2; VStr "B"]; VStr "A"];  VStr "B"; VList [VTuple [VInt 1; VStr "A"]; VStr "B"]; VStr "B";  VStr "A"; VStr "A"; VStr "B" ].
Definition x73Ns : particles :=
  [ [(1, "A"); (1, "B")]; [(1, "B")]; [(2, "A")];  [(1, "B")]; [(1, "A")]; [(2, "B"); (1, "A")];  [(1, "B")]; [(1, "A"); (1, "B")]; [(1, "B")];  [(1, "A")]; [(1, "A")]; [(1, "B")] ].
Definition x73Args (calc : option plugin) : mixedArgs := mkMA (pyCoords [mkC 20 0 0; mkC 0 20 0; mkC 0 0 30]) (pyCoords x1basis) (VTuple [VInt 4; VInt 3; VInt 1]) (VTuple [VBool true; VBool true; VBool false])
  (VList x73Types) VNone VNone x73Procs VNone calc.
Definition rateS73 : list coord -> list string -> list string -> Z -> Z -> coord -> Z := fun geo before after r n g => r.
Definition x73Plug : plugin := mkPlug (Some 13) true [1] (pyCalculator rateS73 rateB3).
Definition leavesb (names : list string) (sp : pspec) : bool :=
  match sp with Plain _ => true | Bucket rows =>
    forallb (fun r => forallb (fun u => snd u =? 0) (br_upd r) || (negb (existsb (String.eqb "*") (br_before r)) && existsb (fun s => 0 <? SBucket.howMany s (br_before r) + change (br_upd r) s) names)) rows end.
Lemma leavesb_sound names sp : leavesb names sp = true -> leavesSomething names sp.
Proof.
  destruct sp as [rows|rows]; [exact (fun _ => I)|]. cbn [leavesb leavesSomething]. intros H r Hr (s & Hs). rewrite forallb_forall in H. specialize (H r Hr). apply orb_true_iff in H. destruct H as [H|H].
  - exfalso. apply Hs. unfold change. destruct (tfind (br_upd r) s) as [n|] eqn:E; [|reflexivity]. rewrite forallb_forall in H. specialize (H (s, n) (tfind_In _ _ _ E)). apply Z.eqb_eq. exact H.
  - apply andb_true_iff in H. destruct H as [A B]. split.
    + intros Hw. apply negb_true_iff in A. assert (X : existsb (String.eqb "*") (br_before r) = true) by (apply existsb_exists; exists "*"; split; [exact Hw|reflexivity]). congruence.
    + apply existsb_exists in B. destruct B as (t & I & B). exists t. split; [exact I|lia].
Qed.
Lemma x73_usable t : In t abNames <-> usable VNone (present x73Ns) t.
Proof. unfold usable. cbn [possibleNames]. replace (sortedSet (present x73Ns)) with ["A"; "B"] by (vm_compute; reflexivity). unfold abNames. cbn [In]. intuition congruence. Qed.
Lemma x73_posed hash calc plainRate bucketRate : (forall cust, cust = isGiven calc -> forall k pr, In (k, pr) (x73Kprs plainRate bucketRate) -> placed x1L x1basis cust (cp_basis pr) (positions (cp_spec pr)) /\ takesWhatItAsksFor (cp_spec pr) /\ leavesSomething abNames (cp_spec pr)) ->
  ratesFrom 10 hash x1L x1basis abNames x73Ns (x73Kprs plainRate bucketRate) 1 calc -> mixedPosed 10 hash (x73Args calc) x1L x1basis abNames x73Ns (x73Kprs plainRate bucketRate) 1.
Proof.
  intros HP HR. assert (WF : wf_lattice x1L) by (apply wf_latticeb_sound; vm_compute; reflexivity). assert (WB : wf_basis x1L x1basis) by (apply wf_basisb_sound; vm_compute; reflexivity).
  constructor; cbn [x73Args ma_repetitions ma_periodic ma_points ma_types ma_default ma_possible ma_processes ma_wildcards ma_calculator].
  - lia.
  - exists 4, 3, 1, true, true, false. split; [split; [lia|]; split; [lia|]; split; [lia|]; right; do 3 eexists; repeat (split; [reflexivity|]); reflexivity|]. split; [right; reflexivity|reflexivity].
  - apply pyCoords_reads.
  - apply WB.
  - right. exists x73Types. split; [reflexivity|]. split; [reflexivity|]. split; [vm_compute; reflexivity|]. split; [repeat (constructor; [reflexivity|]); constructor|]. split; [eexists; split; [left; reflexivity|discriminate]|].
    intros n Hn. repeat (destruct Hn as [<-|Hn]; [first [exists "A"; vm_compute; reflexivity|exists "B"; vm_compute; reflexivity]|]). destruct Hn.
  - intros given H. discriminate.
  - split; [repeat (constructor; [cbn; intuition discriminate|]); constructor|exact x73_usable].
  - left. reflexivity.
  - unfold x73Procs, x73Kprs. constructor; [apply pyBucket_describes; cbn [fst]; first [lia|vm_compute; reflexivity]|]. constructor; [apply pyPlain_describes; cbn [fst]; try lia; intros t; cbn; intuition|]. constructor; [apply pyBucket_describes; cbn [fst]; first [lia|vm_compute; reflexivity]|]. constructor.
  - exact (HP _ eq_refl).
  - apply uniformb_sound. vm_compute. reflexivity.
  - intros b _. change 10 with (lt_unit x1L). apply clean_of_size; auto. vm_compute. discriminate.
  - exact HR.
Qed.
Lemma x73_proper cust plainRate bucketRate k pr : In (k, pr) (x73Kprs plainRate bucketRate) -> placed x1L x1basis cust (cp_basis pr) (positions (cp_spec pr)) /\ takesWhatItAsksFor (cp_spec pr) /\ leavesSomething abNames (cp_spec pr).
Proof.
  intros [E|[E|[E|[]]]]; injection E as <- <-; (split; [apply placedb_sound; destruct cust; vm_compute; reflexivity|]; split; [apply thriftyb_sound; vm_compute; reflexivity|apply leavesb_sound; vm_compute; reflexivity]).
Qed.
Lemma x73_constants hash : mixedPosed 10 hash (x73Args None) x1L x1basis abNames x73Ns (x73Kprs (fun k _ _ => k) (fun k _ _ => k)) 1.
Proof.
  apply x73_posed; [intros cust _ k pr; apply x73_proper|]. apply fromConstants. constructor.
  - intros k pr x s [E|[E|[E|[]]]]; injection E as <- <-; reflexivity.
  - split; [lia|]. intros k pr c Hin Hc. assert (C : forallb (fun kpr => forallb (fun c => (Z.abs (cx c) <=? 10) && (Z.abs (cy c) <=? 10) && (Z.abs (cz c) <=? 10)) (positions (cp_spec (snd kpr)))) (x73Kprs (fun k _ _ => k) (fun k _ _ => k)) = true) by (vm_compute; reflexivity).
    rewrite forallb_forall in C. specialize (C (k, pr) Hin). rewrite forallb_forall in C. specialize (C c Hc). lia.
Qed.
Lemma x73_calculator : mixedPosed 10 codeOf (x73Args (Some x73Plug)) x1L x1basis abNames x73Ns (x73Kprs (fun k _ _ => k) (around3 169)) 1.
Proof.
  assert (WF : wf_lattice x1L) by (apply wf_latticeb_sound; vm_compute; reflexivity). assert (WB : wf_basis x1L x1basis) by (apply wf_basisb_sound; vm_compute; reflexivity).
  apply x73_posed; [intros cust _ k pr; apply x73_proper|]. apply (fromCalculator _ _ _ _ _ _ _ _ x73Plug rateS73 rateB3); [lia|].
  assert (SG : forall k pr, In (k, pr) (x73Kprs (fun k _ _ => k) (around3 169)) -> sight 10 x73Plug pr = 169 /\ cp_basis pr = 0) by (intros k pr [E|[E|[E|[]]]]; injection E as <- <-; split; vm_compute; reflexivity).
  constructor.
  - reflexivity.
  - right. split; [intros ? _ ? ? _ _; apply codeOf_inj|]. split; [intros; split; intros; reflexivity|]. right. intros i k pr Ei [_ Hc]. pose proof (zget_range _ _ _ Ei) as Hr. change (zlen (x73Kprs (fun k _ _ => k) (around3 169))) with 3 in Hr.
    assert (D : i = 0 \/ i = 1 \/ i = 2) by lia. destruct D as [-> |[-> | ->]]; [|exfalso; apply Hc; left; reflexivity|]; injection Ei as <- <-; eexists; reflexivity.
  - split; [|left; reflexivity]. intros k pr Hin. destruct (SG k pr Hin) as [-> _]. lia.
  - intros k pr Hin. destruct (SG k pr Hin) as [-> _]. intros a b i [<-|[]] [<-|[]]. cbn [x1L lt_unit xS czero cx cy cz]. unfold xS. repeat split; intros; nia.
  - intros k pr Hin. destruct (SG k pr Hin) as [-> ->]. exists (mkC 10 10 0). split; [apply inReachb_sound; vm_compute; reflexivity|vm_compute; reflexivity].
  - intros s i k pr x y _ Ei Ey _. destruct (SG k pr (zget_In _ _ _ Ei)) as [-> _].
    assert (Hx : In x (sites x1L)) by (apply In_sites; apply zget_range in Ey; rewrite (lattice_sites_len x1L WF x1basis (proj1 WB)) in Ey; exact Ey).
    apply zget_In in Ei. destruct Ei as [E|[E|[E|[]]]]; injection E as <- <-; cbn [cp_rate cp_spec].
    + split; [apply around3_nonneg; lia|]. intros ys ds SU before after D. eapply around3_numbers; eauto.
    + split; [lia|]. intros ys ds SU before after D. reflexivity.
    + split; [apply around3_nonneg; lia|]. intros ys ds SU before after D. eapply around3_numbers; eauto.
Qed.
(** a later state that differs from the first, with two events of a process, at different rates if [varied] *)
Definition c73Case (hash : list Z -> Z) (a : mixedArgs) (names : list string) (ns : particles) (kprs : list (Z * cproc)) (varied : bool) : Prop :=
  mixedPosed 10 hash a x1L x1basis names ns kprs 1 /\ exists kc md s, mixedRun 10 2 hash a kc md /\ reportsNumbers names kc md s /\ s <> particleNumbers names ns /\
    exists k pr x y, In (k, pr) kprs /\ In x (sites x1L) /\ In y (sites x1L) /\ x <> y /\ 0 < eventRate x1L x1basis names pr x s < allRates x1L x1basis names (map snd kprs) s /\ 0 < eventRate x1L x1basis names pr y s /\
      (varied = true -> eventRate x1L x1basis names pr x s <> eventRate x1L x1basis names pr y s).
Definition x73us : list (deviate * deviate) := [(dev 1 10, dev 1 3)].
Definition c73b (hash : list Z -> Z) (a : mixedArgs) (names : list string) (ns : particles) (kprs : list (Z * cproc)) (varied : bool) : bool :=
  match mixedScript 10 a with
  | Ok (kl, kc, ki) =>
    match KMCLatticeModel 10 2 hash kl kc ki with
    | Ok (Some md) =>
      match runSteps md x73us with
      | Some md' => match typesQuery kc (md_cf md') with
        | Ok vs => let s := numbersOf names vs in negb (sameNumbers s (particleNumbers names ns)) &&
            existsb (fun kpr => existsb (fun x => let rx := eventRate x1L x1basis names (snd kpr) x s in (0 <? rx) && (rx <? allRates x1L x1basis names (map snd kprs) s) &&
              existsb (fun y => let ry := eventRate x1L x1basis names (snd kpr) y s in negb (x =? y) && (0 <? ry) && (negb varied || negb (rx =? ry))) (sites x1L)) (sites x1L)) kprs
        | Raise _ => false end
      | None => false end
    | _ => false end
  | _ => false end.
Lemma c73_case hash a names ns kprs varied : mixedPosed 10 hash a x1L x1basis names ns kprs 1 -> c73b hash a names ns kprs varied = true -> c73Case hash a names ns kprs varied.
Proof.
  intros W H. split; [exact W|]. unfold c73b in H. destruct (mixedScript 10 a) as [[[kl kc] ki]|] eqn:E1; [|discriminate]. destruct (KMCLatticeModel 10 2 hash kl kc ki) as [[md|]|] eqn:E2; try discriminate. destruct (runSteps md x73us) as [md'|] eqn:E3; [|discriminate].
  destruct (typesQuery kc (md_cf md')) as [vs|] eqn:E4; [|discriminate]. cbv zeta in H. apply andb_true_iff in H. destruct H as [H2 H3]. exists kc, md', (numbersOf names vs).
  split; [exists kl, ki, md, x73us; auto|]. split; [exists vs; auto|]. split.
  - intros E. apply negb_true_iff in H2. unfold sameNumbers in H2. destruct (list_eq_dec _ _ _) as [|N] in H2; [discriminate|]. apply N. exact E.
  - apply existsb_exists in H3. destruct H3 as ([k pr] & Hp & H3). apply existsb_exists in H3. destruct H3 as (x & Hx & H3). cbv zeta in H3. cbn [snd] in H3. rewrite !andb_true_iff in H3. destruct H3 as ((A & B) & C). apply existsb_exists in C. destruct C as (y & Hy & C).
    rewrite !andb_true_iff in C. destruct C as ((C & D) & E). exists k, pr, x, y. apply Z.ltb_lt in A, B, D. split; [exact Hp|]. split; [exact Hx|]. split; [exact Hy|]. split; [lia|]. split; [lia|]. split; [exact D|].
    intros ->. cbn [negb orb] in E. lia.
Qed.
(** one name at each site: hops in two directions; the calculator gives no cutoff *)
Definition x73pProcs : list anyArgs := [ PlainArgs (pyPlain [czero; mkC 10 0 0] ["A"; "B"] ["B"; "A"] 0 3); PlainArgs (pyPlain [mkC 0 10 0; mkC 0 20 0; czero] ["A"; "B"; "*"] ["B"; "A"; "*"] 0 4) ].
Definition x73pKprs : list (Z * cproc) :=
  [ (3, mkCP (fun _ _ => 3) 0 (Plain (plainRows [czero; mkC 10 0 0] ["A"; "B"] ["B"; "A"]))); (4, mkCP (fun _ _ => 4) 0 (Plain (plainRows [mkC 0 10 0; mkC 0 20 0; czero] ["A"; "B"; "*"] ["B"; "A"; "*"]))) ].
Definition x73pPlug : plugin := mkPlug None false [] (pyCalculator rateS73 rateB3).
Definition x73pArgs : mixedArgs := mkMA (pyCoords [mkC 20 0 0; mkC 0 20 0; mkC 0 0 30]) (pyCoords x1basis) (VTuple [VInt 4; VInt 3; VInt 1]) (VTuple [VBool true; VBool true; VBool false])
  (VList (map VStr xaTypes)) VNone (VList [VStr "B"; VStr "A"]) x73pProcs (VBool true) (Some x73pPlug).
Lemma x73_plain : mixedPosed 10 xhash x73pArgs x1L x1basis abNames (oneEachSite xaTypes) x73pKprs 1.
Proof.
  assert (WF : wf_lattice x1L) by (apply wf_latticeb_sound; vm_compute; reflexivity). assert (WB : wf_basis x1L x1basis) by (apply wf_basisb_sound; vm_compute; reflexivity).
  constructor; cbn [x73pArgs ma_repetitions ma_periodic ma_points ma_types ma_default ma_possible ma_processes ma_wildcards ma_calculator].
  - lia.
  - exists 4, 3, 1, true, true, false. split; [split; [lia|]; split; [lia|]; split; [lia|]; right; do 3 eexists; repeat (split; [reflexivity|]); reflexivity|]. split; [right; reflexivity|reflexivity].
  - apply pyCoords_reads.
  - apply WB.
  - left. exists xaTypes. split; [split; [vm_compute; reflexivity|left; split; reflexivity]|]. split; [reflexivity|]. intros k pr [E|[E|[]]]; injection E as <- <-; eexists; reflexivity.
  - intros given H. assert (E : given = ["B"; "A"]) by (apply strs_inj; injection H as H; symmetry; exact H). subst given. repeat (constructor; [cbn; intuition discriminate|]). constructor.
  - split; [repeat (constructor; [cbn; intuition discriminate|]); constructor|]. intros t. unfold usable. cbn. intuition congruence.
  - right. reflexivity.
  - unfold x73pProcs, x73pKprs. constructor; [apply pyPlain_describes; cbn [fst]; try lia; intros t; cbn; intuition|]. constructor; [apply pyPlain_describes; cbn [fst]; try lia; intros t; cbn; intuition|]. constructor.
  - intros k pr [E|[E|[]]]; injection E as <- <-; (split; [apply placedb_sound; vm_compute; reflexivity|]; split; [apply thriftyb_sound; vm_compute; reflexivity|apply leavesb_sound; vm_compute; reflexivity]).
  - apply uniformb_sound. vm_compute. reflexivity.
  - intros b _. change 10 with (lt_unit x1L). apply clean_of_size; auto. vm_compute. discriminate.
  - apply (fromCalculator _ _ _ _ _ _ _ _ x73pPlug rateS73 rateB3); [lia|].
    assert (SG : forall k pr, In (k, pr) x73pKprs -> sight 10 x73pPlug pr = 100 /\ cp_basis pr = 0) by (intros k pr [E|[E|[]]]; injection E as <- <-; split; vm_compute; reflexivity).
    constructor.
    + reflexivity.
    + left. intros i kpr _ [C _]. discriminate.
    + split; [|left; reflexivity]. intros k pr Hin. destruct (SG k pr Hin) as [-> _]. lia.
    + intros k pr Hin. destruct (SG k pr Hin) as [-> _]. intros a b i [<-|[]] [<-|[]]. cbn [x1L lt_unit xS czero cx cy cz]. unfold xS. repeat split; intros; nia.
    + intros k pr Hin. destruct (SG k pr Hin) as [-> ->]. exists (mkC 10 10 0). split; [apply inReachb_sound; vm_compute; reflexivity|vm_compute; reflexivity].
    + intros s i k pr x y _ Ei _ _. apply zget_In in Ei. destruct Ei as [E|[E|[]]]; injection E as <- <-; cbn [cp_rate cp_spec]; (split; [lia|]); intros ys ds SU before after D; reflexivity.
Qed.
Definition c73plain : bool := c73b xhash x73pArgs abNames (oneEachSite xaTypes) x73pKprs false.
Lemma c73plain_ok : c73plain = true. Proof. vm_compute. reflexivity. Qed.
Definition c73calculator : bool := c73b codeOf (x73Args (Some x73Plug)) abNames x73Ns (x73Kprs (fun k _ _ => k) (around3 169)) true.
Lemma c73calculator_ok : c73calculator = true. Proof. vm_compute. reflexivity. Qed.
Definition c73constants : bool := c73b xhash (x73Args None) abNames x73Ns (x73Kprs (fun k _ _ => k) (fun k _ _ => k)) false.
Lemma c73constants_ok : c73constants = true. Proof. vm_compute. reflexivity. Qed.
Strategy expand [c73calculator c73constants c73plain c73b].
Example C73_example_plain : c73Case xhash x73pArgs abNames (oneEachSite xaTypes) x73pKprs false.
Proof. apply c73_case; [exact x73_plain|]. exact c73plain_ok. Qed.
Example C73_example_calculator : c73Case codeOf (x73Args (Some x73Plug)) abNames x73Ns (x73Kprs (fun k _ _ => k) (around3 169)) true.
Proof. apply c73_case; [exact x73_calculator|]. exact c73calculator_ok. Qed.
Example C73_example_constants : c73Case xhash (x73Args None) abNames x73Ns (x73Kprs (fun k _ _ => k) (fun k _ _ => k)) false.
Proof. apply c73_case; [apply x73_constants|]. exact c73constants_ok. Qed.
Example C73_example_accepted : exists k, mixedScript 10 (x73Args (Some x73Plug)) = Ok k.
Proof.
  apply (C73_accepted 10 codeOf (x73Args (Some x73Plug)) x1L x1basis abNames x73Ns _ 1 (mkC 20 0 0) (mkC 0 20 0) (mkC 0 0 30) x73_calculator); [apply pyCoords_reads|vm_compute; discriminate|discriminate| | |discriminate|].
  - intros p [<-|[]]; repeat split; vm_compute; congruence.
  - left. split; [reflexivity|]. vm_compute. intuition discriminate.
  - intros p [E|[E|[E|[]]]]; try discriminate. injection E as <-. exists [czero; mkC 10 0 0], ["A"; "B"], ["B"; "A"], [0], 3. cbn [pyPlain pa_coordinates pa_before pa_after pa_moves pa_basis pa_rate]. split; [apply pyCoords_reads|]. split; [eapply nodupb_sound; [apply ceqb_refl|vm_compute; reflexivity]|].
    split; [discriminate|]. repeat (split; [reflexivity || discriminate|]). split; [eexists; split; [reflexivity|]; split; [discriminate|]; split; [repeat constructor|]; intros b' [<-|[]]; lia|]. split; [split; [reflexivity|lia]|left; reflexivity].
Qed.

Print Assumptions C73_accepted.
Print Assumptions C73_start.
Print Assumptions C73_total.
Print Assumptions C73_step.
Print Assumptions C73_probability.
Print Assumptions C73_next_state.
Print Assumptions C73_history.
Print Assumptions C73_every_history.
Print Assumptions C73_example_plain.
Print Assumptions C73_example_calculator.
Print Assumptions C73_example_constants.
Print Assumptions C73_example_accepted.
