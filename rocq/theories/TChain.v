(** C70: every simulation, with plain and bucket processes, rate constants or a rate calculator, cached or not, is the Markov chain described in SChain.v. *)
From Coq Require Import Lra.
From Verif Require Import PBase SModel SGeo SEvent SBuild SPlain SStep SBucket SPossible SNoUB PLattice PProcess PMatcher PPerform PStep PRun PEffect PRematch PEvent PStepInv PPlain PIdeal PIdeal2 PSelect PBuild SRates SCache MTimer TTimer TStep TSelect TPossible TRates TCache TNoUB TIdeal PPick PChain PChain2 PNear PRegular PRoom XRows XSystems XCheck.
From Verif Require Export SChain.
From Coq Require Import ZifyBool.
Open Scope string_scope.
Open Scope list_scope.
Open Scope Z_scope.

(** the simulations of this file: the input, and where the rates come from *)
Definition simulated (ranks : Z) (hash : list Z -> Z) (L : lattice) (basis : list coord) (names : list string) (cf : config) (it : interactions) (prs : list cproc) : Prop :=
  processesInput ranks L basis names cf it prs /\ ratesGiven hash L basis names cf it prs.
(** the state of the chain that a state of the simulation shows *)
Definition shown (names : list string) (md : model) : pstate := numbersIn names (md_cf md).

(** The simulation can be started, and shows the particles given. *)
Theorem C70_start ranks hash L basis names cf it prs : simulated ranks hash L basis names cf it prs ->
  exists md, mkLatticeModel ranks hash L cf it = Some md /\ shown names md = numbersIn names cf.
Proof.
  intros [CH RG]. pose proof (given_follow _ _ _ _ _ _ _ _ CH RG) as RF. destruct (chain_start ranks hash L basis names cf it prs CH RF) as [md0 E]. exists md0. split; [exact E|].
  destruct (mkLatticeModel_inv _ _ _ _ _ _ (pc_wi _ _ _ _ _ _ _ CH) E) as (_ & _ & cf1 & it2 & it' & mt' & mls & E1 & _ & _ & _ & _ & E6 & _).
  destruct (initMatchLists_fields _ _ _ _ E1) as (ml0 & n & _ & _ & Ecf1). unfold shown, numbersIn. rewrite E6, Ecf1. reflexivity.
Qed.

(** In every state of every run the total rate the clock uses is the total rate of the chain, which is not negative. *)
Theorem C70_total ranks hash L basis names cf it prs md : simulated ranks hash L basis names cf it prs -> reachable ranks hash L cf it md ->
  totalRate (md_in md) = Some (allRates L basis names prs (shown names md)) /\ 0 <= allRates L basis names prs (shown names md).
Proof.
  intros [CH RG] HR. pose proof (given_follow _ _ _ _ _ _ _ _ CH RG) as RF. split; [exact (chain_total _ _ _ _ _ _ _ _ CH RF md HR)|exact (chain_total_nonneg _ _ _ _ _ _ _ _ CH RF md HR)].
Qed.

(** A step is an event of the chain: whatever the deviates are, as long as something can happen. *)
Theorem C70_step ranks hash L basis names cf it prs md u1 u2 : simulated ranks hash L basis names cf it prs -> reachable ranks hash L cf it md ->
  0 < allRates L basis names prs (shown names md) -> unitDeviate u1 -> unitDeviate u2 ->
  exists md', singleStep md u1 u2 = Some md' /\ chainStep L basis names prs (shown names md) (lastEvent md') (shown names md').
Proof.
  intros [CH RG] HR HT U1 U2. pose proof (given_follow _ _ _ _ _ _ _ _ CH RG) as RF. destruct (chain_step_exists _ _ _ _ _ _ _ _ CH RF md u1 u2 HR HT U1 U2) as [md' E]. exists md'. split; [exact E|].
  exact (chain_step _ _ _ _ _ _ _ _ CH RF md u1 u2 md' HR HT U1 U2 E).
Qed.

(** Deviates k1 / (m R), k1 = 1 .. m R, and k2 / N, k2 = 1 .. N, with R the total rate and N a multiple of the total rate of every process
    that can happen: of these pairs a fraction of (rate of the event) / R leads to the event. *)
Definition multipleOfRates L basis names (prs : list cproc) (s : pstate) (N : Z) : Prop :=
  forall pr, In pr prs -> 0 < ratesOf L basis names pr s -> (ratesOf L basis names pr s | N).
Lemma chain_step_count ranks hash L basis names cf it prs md m N (good : model -> bool) (P : Z -> Z -> bool) : processesInput ranks L basis names cf it prs -> ratesFollow ranks hash L basis names cf it prs ->
  reachable ranks hash L cf it md ->
  0 < allRates L basis names prs (shown names md) -> 0 < m -> 0 < N -> multipleOfRates L basis names prs (shown names md) N ->
  (forall u1 u2 md', singleStep md u1 u2 = Some md' -> good md' = P (cf_lastproc (md_cf md')) (cf_lastsite (md_cf md'))) ->
  zlen (filter (stepLeadsTo md (m * allRates L basis names prs (shown names md)) N good) (pairs (m * allRates L basis names prs (shown names md)) N)) =
  m * N * zsum (map (fun i => match zget prs i with Some pr => zsum (map (fun x => if P i x then eventRate L basis names pr x (shown names md) else 0) (sites L)) | None => 0 end) (zrange 0 (zlen prs - 1))).
Proof.
  intros CH RF HR HT Hm HN HD HG. unfold shown in *. rewrite <- (chain_count _ _ _ _ _ _ _ _ CH RF md m N P HR HT Hm HN HD). fold (pairs (m * allRates L basis names prs (numbersIn names (md_cf md))) N). f_equal. apply filter_ext_in. intros [k1 k2] Hk.
  unfold pairs in Hk. apply in_prod_iff in Hk. rewrite !In_zrange in Hk. unfold stepLeadsTo. cbn [fst snd].
  destruct (chain_step_exists _ _ _ _ _ _ _ _ CH RF md (mkDev k1 (m * allRates L basis names prs (numbersIn names (md_cf md)))) (mkDev k2 N) HR HT) as [md' E]; [unfold unitDeviate; cbn [dv_num dv_den]; lia|unfold unitDeviate; cbn [dv_num dv_den]; lia|].
  rewrite E, (pick_step _ _ _ _ _ (pc_wi _ _ _ _ _ _ _ CH) md HR _ _ md' (numbers_ok _ _ _ _ _ _ _ CH) E). cbn [fst snd]. eapply HG; eauto.
Qed.
Theorem C70_probability ranks hash L basis names cf it prs md i pr x m N : simulated ranks hash L basis names cf it prs -> reachable ranks hash L cf it md ->
  0 < allRates L basis names prs (shown names md) -> 0 < m -> 0 < N -> multipleOfRates L basis names prs (shown names md) N -> zget prs i = Some pr -> In x (sites L) ->
  let R := allRates L basis names prs (shown names md) in
  zlen (filter (stepLeadsTo md (m * R) N (fun md' => (fst (lastEvent md') =? i) && (snd (lastEvent md') =? x))) (pairs (m * R) N)) * R =
  eventRate L basis names pr x (shown names md) * zlen (pairs (m * R) N).
Proof.
  intros [CH RG] HR HT Hm HN HD Ei Hx R. pose proof (given_follow _ _ _ _ _ _ _ _ CH RG) as RF. unfold R. rewrite (chain_step_count _ _ _ _ _ _ _ _ md m N _ (fun j y => (j =? i) && (y =? x)) CH RF HR HT Hm HN HD) by (intros; reflexivity).
  rewrite zlen_pairs by nia. set (s := shown names md) in *.
  assert (E : zsum (map (fun j => match zget prs j with Some pr => zsum (map (fun y => if (j =? i) && (y =? x) then eventRate L basis names pr y s else 0) (sites L)) | None => 0 end) (zrange 0 (zlen prs - 1))) = eventRate L basis names pr x s).
  { assert (E1 : map (fun j => match zget prs j with Some pr => zsum (map (fun y => if (j =? i) && (y =? x) then eventRate L basis names pr y s else 0) (sites L)) | None => 0 end) (zrange 0 (zlen prs - 1)) =
       map (fun j => if i =? j then eventRate L basis names pr x s else 0) (zrange 0 (zlen prs - 1))).
    { apply map_ext. intros j. rewrite (Z.eqb_sym i j). destruct (Z.eqb_spec j i) as [->|Hne].
      - rewrite Ei. assert (E2 : map (fun y => if true && (y =? x) then eventRate L basis names pr y s else 0) (sites L) = map (fun y => if x =? y then eventRate L basis names pr y s else 0) (sites L)) by (apply map_ext; intros y; cbn [andb]; rewrite (Z.eqb_sym x y); reflexivity).
        rewrite E2, pick_one by apply NoDup_zrange. destruct (in_dec Z.eq_dec x (sites L)); [reflexivity|contradiction].
      - destruct (zget prs j); [|reflexivity]. apply zsum_zero. }
    rewrite E1, (pick_one _ (fun _ => eventRate L basis names pr x s)) by apply NoDup_zrange. destruct (in_dec Z.eq_dec i (zrange 0 (zlen prs - 1))) as [|Hn]; [reflexivity|].
    exfalso. apply Hn. apply In_zrange. apply zget_range in Ei. lia. }
  rewrite E. ring.
Qed.
(** The same for states: of the pairs, a fraction of (rate from s to s') / R leads to s'. *)
Theorem C70_next_state ranks hash L basis names cf it prs md s' m N : simulated ranks hash L basis names cf it prs -> reachable ranks hash L cf it md ->
  0 < allRates L basis names prs (shown names md) -> 0 < m -> 0 < N -> multipleOfRates L basis names prs (shown names md) N ->
  let R := allRates L basis names prs (shown names md) in
  zlen (filter (stepLeadsTo md (m * R) N (fun md' => sameNumbers (shown names md') s')) (pairs (m * R) N)) * R =
  rateBetween L basis names prs (shown names md) s' * zlen (pairs (m * R) N).
Proof.
  intros [CH RG] HR HT Hm HN HD R. pose proof (given_follow _ _ _ _ _ _ _ _ CH RG) as RF. unfold R.
  rewrite (chain_step_count _ _ _ _ _ _ _ _ md m N _ (fun j y => match zget prs j with Some pr => sameNumbers (happened L basis names pr y (shown names md)) s' | None => false end) CH RF HR HT Hm HN HD).
  2:{ intros u1 u2 md' E. destruct (step_happened _ hash _ _ _ _ _ _ CH md u1 u2 md' HR E) as (i & pr & x & Ei & Hx & _ & A1 & A2 & HS'). rewrite A1, A2, Ei. unfold shown. rewrite HS'. reflexivity. }
  rewrite zlen_pairs by nia. set (s := shown names md) in *.
  assert (E : zsum (map (fun i => match zget prs i with Some pr => zsum (map (fun x => if match zget prs i with Some pr0 => sameNumbers (happened L basis names pr0 x s) s' | None => false end then eventRate L basis names pr x s else 0) (sites L)) | None => 0 end) (zrange 0 (zlen prs - 1))) = rateBetween L basis names prs s s').
  { unfold rateBetween. f_equal. apply zget_ext. intros i. rewrite !zget_map. destruct (zget prs i) as [pr|] eqn:Ei.
    - pose proof (zget_range _ _ _ Ei). rewrite zget_zrange by lia. cbn [option_map]. rewrite Z.add_0_l. rewrite Ei. reflexivity.
    - destruct (zget (zrange 0 (zlen prs - 1)) i) as [j|] eqn:Ej; [|reflexivity]. exfalso. pose proof (zget_range _ _ _ Ej) as H. rewrite zlen_zrange in H by (pose proof (zlen_nonneg prs); lia). destruct (zget_lt prs i ltac:(lia)) as [a E]. congruence. }
  rewrite E. ring.
Qed.
(** such N exist *)
Theorem C70_multiple_exists L basis names prs s : exists N, 0 < N /\ multipleOfRates L basis names prs s N.
Proof.
  induction prs as [|pr prs (N & HN & HD)]; [exists 1; split; [lia|intros pr []]|]. destruct (Z_lt_dec 0 (ratesOf L basis names pr s)) as [H|H].
  - exists (ratesOf L basis names pr s * N). split; [nia|]. intros pr' [<-|Hp] H'; [apply Z.divide_factor_l|apply Z.divide_mul_r; apply HD; assumption].
  - exists N. split; [exact HN|]. intros pr' [<-|Hp] H'; [lia|apply HD; assumption].
Qed.

(** A run with the clock is a history of the chain: the events are those of the run, the times are its times.  The numbers the clock draws are
    those of the history, apart from zeros, which are passed over. *)
Theorem C70_history ranks hash L basis names cf it prs us : simulated ranks hash L basis names cf it prs -> Forall (fun u => unitDeviate (fst u) /\ unitDeviate (snd u)) us ->
  forall md t vs md' t' rest, reachable ranks hash L cf it md -> (forall v, In v vs -> 0 <= v < 1)%R ->
  timedRun md (DFin t) us vs = Some (md', t', rest) ->
  exists es T, chainHistory L basis names prs (shown names md) t es (shown names md') T /\ t' = DFin T /\ eventsOf md us es /\
    exists used, vs = used ++ rest /\ filter (fun v => if Req_EM_T v 0 then false else true) used = map snd es.
Proof.
  intros SI. destruct SI as [CH RG]. pose proof (given_follow _ _ _ _ _ _ _ _ CH RG) as RF. induction us as [|u us IH]; intros HU md t vs md' t' rest HR HV H.
  - cbn in H. injection H as <- <- <-. exists [], t. split; [constructor|]. split; [reflexivity|]. split; [split; [reflexivity|intros k e v E; rewrite zget_nil in E; discriminate]|]. exists []. auto.
  - inversion HU as [|? ? [U1 U2] HU']; subst. cbn [timedRun] in H. rewrite (chain_total _ _ _ _ _ _ _ _ CH RF md HR) in H. cbn [obind] in H. fold (shown names md) in H.
    destruct (propagateTime (IZR (allRates L basis names prs (shown names md))) (DFin t) vs) as [[t1 vs1]|] eqn:EP; [|discriminate]. cbn [obind fst snd] in H.
    destruct (singleStep md (fst u) (snd u)) as [md1|] eqn:ES; [|discriminate]. cbn [obind] in H.
    pose proof (chain_total_nonneg _ _ _ _ _ _ _ _ CH RF md HR) as NN. fold (shown names md) in NN.
    destruct (propagateTime_inv _ _ _ _ _ (IZR_le _ _ NN) HV EP) as (HT & zeros & v & -> & HZ & Hv & ->). apply lt_IZR in HT.
    pose proof (chain_step _ _ _ _ _ _ _ _ CH RF md (fst u) (snd u) md1 HR HT U1 U2 ES) as HI. pose proof (reach_step _ _ _ _ _ _ _ _ _ HR ES) as HR1.
    assert (HV1 : forall v', In v' vs1 -> (0 <= v' < 1)%R) by (intros v' Hv'; apply HV; apply in_or_app; right; right; exact Hv').
    destruct (IH HU' md1 _ vs1 md' t' rest HR1 HV1 H) as (es & T & HH & -> & HE & used & -> & HF).
    exists ((lastEvent md1, v) :: es), T. split; [econstructor; eauto|]. split; [reflexivity|]. split; [eapply eventsOf_cons; eauto|].
    exists (zeros ++ v :: used). split; [rewrite <- app_assoc; reflexivity|]. rewrite filter_app. cbn [filter]. destruct (Req_EM_T v 0) as [->|_]; [lra|]. cbn [map snd]. rewrite HF.
    assert (FZ : filter (fun v => if Req_EM_T v 0 then false else true) zeros = []). { clear - HZ. induction zeros as [|z zeros IHz]; [reflexivity|]. cbn [filter]. rewrite (HZ z (or_introl eq_refl)). destruct (Req_EM_T 0 0) as [_|N]; [apply IHz; intros y Hy; apply HZ; right; exact Hy|exfalso; apply N; reflexivity]. }
    rewrite FZ. reflexivity.
Qed.
(** Every history of the chain is a run of the program, for suitable deviates, with the numbers of the history drawn by the clock. *)
Theorem C70_every_history ranks hash L basis names cf it prs es : simulated ranks hash L basis names cf it prs ->
  forall md t s' T, reachable ranks hash L cf it md -> chainHistory L basis names prs (shown names md) t es s' T ->
  exists us md', Forall (fun u => unitDeviate (fst u) /\ unitDeviate (snd u)) us /\ timedRun md (DFin t) us (map snd es) = Some (md', DFin T, []) /\ shown names md' = s' /\ eventsOf md us es.
Proof.
  intros [CH RG]. pose proof (given_follow _ _ _ _ _ _ _ _ CH RG) as RF. induction es as [|[e v] es IH]; intros md t s' T HR H; inversion H; subst.
  - exists [], md. split; [constructor|]. split; [reflexivity|]. split; [reflexivity|]. split; [reflexivity|intros k e v E; rewrite zget_nil in E; discriminate].
  - match goal with H : chainStep _ _ _ _ _ _ _ |- _ => rename H into HI end. match goal with H : chainHistory _ _ _ _ s1 _ _ _ _ |- _ => rename H into HH end.
    pose proof (chain_positive _ _ _ _ _ _ _ _ CH RF md _ _ HR HI) as HT.
    destruct (chain_follows _ _ _ _ _ _ _ _ CH RF md e s1 HR HI) as (u1 & u2 & md1 & U1 & U2 & ES & EE & HS1). pose proof (reach_step _ _ _ _ _ _ _ _ _ HR ES) as HR1. fold (shown names md1) in HS1. subst s1.
    destruct (IH md1 _ s' T HR1 HH) as (us & md' & HU & HRn & HS' & HE). exists ((u1, u2) :: us), md'. split; [constructor; [split; assumption|exact HU]|]. split; [|split; [exact HS'|eapply eventsOf_cons; eauto]].
    cbn [map snd timedRun fst]. rewrite (chain_total _ _ _ _ _ _ _ _ CH RF md HR). fold (shown names md) in *. cbn [obind propagateTime]. unfold dlog. destruct (Req_EM_T v 0) as [E|_]; [lra|]. destruct (Rlt_dec v 0) as [E|_]; [lra|]. cbn [dneg ddiv].
    apply IZR_lt in HT. destruct (Req_EM_T (IZR (allRates L basis names prs (shown names md))) 0) as [E|_]; [lra|]. cbn [isinf obind fst snd dplus]. rewrite ES. cbn [obind]. exact HRn.
Qed.

(** ** Reading the accounts *)
(** When do the surroundings reach far enough?  It suffices that for every process some lattice displacement within its reach is longer than its cutoff ... *)
Theorem C70_room ranks L basis names cf it prs : processesInput ranks L basis names cf it prs ->
  (forall i pr p, zget prs i = Some pr -> zget (in_procs it) i = Some p -> exists v, inReach L basis (maxRange it) (cp_basis pr) v /\ pr_cut2 p < cnorm2 v) -> roomyStart L cf it.
Proof.
  intros CH FAR. assert (GP : forall i p, zget (in_procs it) i = Some p -> exists pr, zget prs i = Some pr).
  { intros i p Ep. apply zget_range in Ep. rewrite <- (pc_len _ _ _ _ _ _ _ CH) in Ep. destruct (zget prs i) as [pr|] eqn:E; [eauto|]. apply zget_None in E. lia. }
  apply (room ranks L basis cf it (specOfProc prs)); try apply CH.
  - intros i p Ep. destruct (GP i p Ep) as [pr Ei]. apply (pc_proc _ _ _ _ _ _ _ CH i pr p Ei Ep).
  - intros i p Ep. destruct (GP i p Ep) as [pr Ei]. destruct (pc_proc _ _ _ _ _ _ _ CH i pr p Ei Ep) as (B & _ & PL & _). exists (cp_basis pr). split; [exact B|]. unfold specOfProc. rewrite Ei. exact PL.
  - intros i p b Ep Eb. destruct (GP i p Ep) as [pr Ei]. destruct (pc_proc _ _ _ _ _ _ _ CH i pr p Ei Ep) as (B & _). assert (b = cp_basis pr) by congruence. subst b. eapply FAR; eauto.
Qed.
(** ... for instance the cell as many cells away along every periodic axis as the processes reach. *)
Definition periodicAxes (L : lattice) : Z := (if lt_pa L then 1 else 0) + (if lt_pb L then 1 else 0) + (if lt_pc L then 1 else 0).
Theorem C70_room_corner ranks L basis names cf it prs : processesInput ranks L basis names cf it prs ->
  (forall p, In p (in_procs it) -> pr_cut2 p < periodicAxes L * ((maxRange it * lt_unit L) * (maxRange it * lt_unit L))) -> roomyStart L cf it.
Proof.
  intros CH HC. apply (C70_room ranks L basis names cf it prs CH). intros i pr p Ei Ep. specialize (HC p (zget_In _ _ _ Ep)).
  set (R := maxRange it) in *. assert (RP : 1 <= R) by apply maxRange_pos. pose proof (pc_wf _ _ _ _ _ _ _ CH) as WF. pose proof (wfl_unit _ WF) as HS.
  destruct (pc_proc _ _ _ _ _ _ _ CH i pr p Ei Ep) as (B & _ & PL & _).
  pose proof (user_regular ranks L basis _ cf it (specOfProc prs) (pc_user _ _ _ _ _ _ _ CH) (pc_geo _ _ _ _ _ _ _ CH) i p (cp_basis pr) Ep B ltac:(unfold specOfProc; rewrite Ei; exact PL)) as RG.
  destruct (rg_basis _ _ _ _ _ RG) as (b & Eb & Hb & _). assert (b = cp_basis pr) by congruence. subst b.
  pose proof (gi_basis _ _ _ _ _ (pc_geo _ _ _ _ _ _ _ CH)) as (HB & _).
  destruct (zget basis (cp_basis pr)) as [beta|] eqn:EB; [|apply zget_None in EB; lia].
  pose proof (gi_uniform _ _ _ _ _ (pc_geo _ _ _ _ _ _ _ CH)) as (U1 & U2 & U3). fold R in U1, U2, U3.
  set (n := fun q : bool => if q then R else 0).
  assert (A : forall q rep, uniformAxis q rep R -> reach1 q rep R (n q) /\ forall u, window1 q (rep * lt_unit L) (u - u + n q * lt_unit L)).
  { intros q rep [[-> H]|[-> H]]; unfold window1; cbn [n reach1]; (split; [|intros u Hq]); try discriminate Hq; try reflexivity; [exists 0; lia|nia]. }
  exists (mkC (n (lt_pa L) * lt_unit L) (n (lt_pb L) * lt_unit L) (n (lt_pc L) * lt_unit L)). split.
  - exists (cp_basis pr), beta, beta, (n (lt_pa L)), (n (lt_pb L)), (n (lt_pc L)). split; [exact EB|]. split; [exact EB|]. split; [apply (A _ _ U1)|]. split; [apply (A _ _ U2)|]. split; [apply (A _ _ U3)|].
    split; [f_equal; lia|]. cbn [cx cy cz]. split; [|split].
    + pose proof (proj2 (A _ _ U1) 0) as X. rewrite Z.sub_diag, Z.add_0_l in X. exact X.
    + pose proof (proj2 (A _ _ U2) 0) as X. rewrite Z.sub_diag, Z.add_0_l in X. exact X.
    + pose proof (proj2 (A _ _ U3) 0) as X. rewrite Z.sub_diag, Z.add_0_l in X. exact X.
  - eapply Z.lt_le_trans; [exact HC|]. apply Z.eq_le_incl. unfold cnorm2, periodicAxes, n. cbn [cx cy cz]. destruct (lt_pa L), (lt_pb L), (lt_pc L); lia.
Qed.
(** the sites of which a calculator is told are those not further than the cutoff, with the shortest ways to them *)
Theorem C70_surroundings L basis cut2 x ys ds : wf_lattice L -> wf_basis L basis -> In x (sites L) -> surroundings L (generateLatticeSites L basis) cut2 x ys ds ->
  Permutation ys (nearSites L basis cut2 x) /\ ds = map (way L basis x) ys.
Proof. intros WF WB Hx. apply In_sites in Hx. apply surroundings_near; assumption. Qed.
(** plain processes keep one particle at every site *)
Theorem C70_one_each ranks L basis names cf it prs s : processesInput ranks L basis names cf it prs -> (forall pr, In pr prs -> exists rows, cp_spec pr = Plain rows) ->
  oneEach names (numbersIn names cf) -> comesTo L basis names prs (numbersIn names cf) s -> oneEach names s.
Proof. intros CH HP H0 HC. exact (one_comes _ _ _ _ _ _ _ CH s HP H0 HC). Qed.
(** the states of a run are states that events lead to *)
Theorem C70_comes ranks hash L basis names cf it prs md : processesInput ranks L basis names cf it prs -> reachable ranks hash L cf it md ->
  comesTo L basis names prs (numbersIn names cf) (shown names md).
Proof. intros CH HR. exact (comes_reach _ hash _ _ _ _ _ _ CH md HR). Qed.

(** ** Examples *)
Definition thriftyb (sp : pspec) : bool :=
  match sp with Plain _ => true | Bucket rows =>
    forallb (fun r => forallb (fun u => 0 <=? howMany (fst u) (br_before r) + change (br_upd r) (fst u)) (br_upd r) && (negb (existsb (String.eqb "*") (br_before r)) || forallb (fun u => snd u =? 0) (br_upd r))) rows end.
Lemma thriftyb_sound sp : thriftyb sp = true -> takesWhatItAsksFor sp.
Proof.
  destruct sp as [rows|rows]; [exact (fun _ => I)|]. cbn [thriftyb takesWhatItAsksFor]. intros H r Hr. rewrite forallb_forall in H. specialize (H r Hr). apply andb_true_iff in H. destruct H as [H1 H2]. split.
  - intros s. unfold change. destruct (tfind (br_upd r) s) as [n|] eqn:E; [|pose proof (howMany_nonneg s (br_before r)); lia]. rewrite forallb_forall in H1. specialize (H1 (s, n) (tfind_In _ _ _ E)). cbn [fst] in H1. unfold change in H1. rewrite E in H1. apply Z.leb_le. exact H1.
  - intros Hw s. apply orb_true_iff in H2. destruct H2 as [H2|H2].
    + exfalso. apply negb_true_iff in H2. assert (X : existsb (String.eqb "*") (br_before r) = true) by (apply existsb_exists; exists "*"; split; [exact Hw|reflexivity]). congruence.
    + unfold change. destruct (tfind (br_upd r) s) as [n|] eqn:E; [|reflexivity]. rewrite forallb_forall in H2. specialize (H2 (s, n) (tfind_In _ _ _ E)). apply Z.eqb_eq. exact H2.
Qed.
Definition processesInputb (L : lattice) (basis : list coord) (names : list string) (cf : config) (it : interactions) (prs : list cproc) : bool :=
  geoInputb L basis (maxRange it) (zlen (cf_ptypes cf)) cf && in_wild it && nodupS names && (if list_eq_dec string_dec names (map fst (cf_ptypes cf)) then true else false) &&
  match prs with [] => false | _ => true end && (zlen prs =? zlen (in_procs it)) &&
  forallb (fun i => match zget prs i, zget (in_procs it) i with
    | Some pr, Some p => match pr_basis p with [b] => b =? cp_basis pr | _ => false end && (pr_number p =? i) && placedb L basis (pr_custom p) (cp_basis pr) (positions (cp_spec pr)) &&
        thriftyb (cp_spec pr) && neverEmptiesb (cf_ptypes cf) (cp_spec pr)
    | _, _ => false end) (zrange 0 (zlen prs - 1)).
Lemma user_ext ranks L cf it f g : (forall i, f i = g i) -> userInput ranks L cf it f -> userInput ranks L cf it g.
Proof. intros E UI. constructor; try apply UI. intros i p Ep. rewrite <- E. apply (ui_procs _ _ _ _ _ UI i p Ep). Qed.
Lemma processesInputb_sound ranks L basis names cf it prs : userInput ranks L cf it (specOfProc prs) -> processesInputb L basis names cf it prs = true -> processesInput ranks L basis names cf it prs.
Proof.
  intros UI H. unfold processesInputb in H. rewrite !andb_true_iff in H. destruct H as ((((((H1 & H2) & H3) & H4) & H5) & H6) & H7). destruct (list_eq_dec string_dec names (map fst (cf_ptypes cf))) as [EN|]; [|discriminate]. constructor.
  - exact UI.
  - apply geoInputb_sound; exact H1.
  - exact H2.
  - split; [apply nodupS_sound; exact H3|]. intros t. pose proof (ui_pt _ _ _ _ _ UI) as (ND & _). rewrite EN. split.
    + intros Ht. apply in_map_iff in Ht. destruct Ht as ([s k] & E & Ht). cbn in E. subst s. exists k. apply In_tfind; assumption.
    + intros [k Hk]. apply tfind_In in Hk. apply in_map_iff. exists (t, k). auto.
  - destruct prs; [discriminate|congruence].
  - apply Z.eqb_eq; exact H6.
  - intros i pr p Ei Ep. rewrite forallb_forall in H7. specialize (H7 i). rewrite Ei, Ep in H7. assert (Hi : In i (zrange 0 (zlen prs - 1))) by (apply In_zrange; apply zget_range in Ei; lia). specialize (H7 Hi).
    rewrite !andb_true_iff in H7. destruct H7 as ((((B & C) & D) & E) & F). apply Z.eqb_eq in C. destruct (pr_basis p) as [|b [|]]; try discriminate. apply Z.eqb_eq in B. subst b.
    split; [reflexivity|]. split; [exact C|]. split; [apply placedb_sound; exact D|]. split; [apply thriftyb_sound; exact E|apply neverEmptiesb_sound; exact F].
Qed.
(** processes with given rate functions for the rows of a list of specifications *)
Definition cprocsOf (xs : list xspec) (rate : xspec -> Z -> pstate -> Z) : list cproc := map (fun x => mkCP (rate x) (hd 0 (xs_basis x)) (xs_spec x)) xs.
Lemma cprocs_spec xs rate i : specOf xs i = specOfProc (cprocsOf xs rate) i.
Proof. unfold specOf, specOfProc, cprocsOf. rewrite zget_map. destruct (zget xs i); reflexivity. Qed.
(** the case: hypotheses, a later state that differs, a total rate that is shared by several events, a rate that is not the same for all events of a process if [varied] *)
Definition c70Case (hash : list Z -> Z) (prs : list cproc) (varied : bool) : Prop :=
  exists cf it md, simulated 2 hash x1L x1basis ["*"; "A"; "B"] cf it prs /\ reachable 2 hash x1L cf it md /\ shown ["*"; "A"; "B"] md <> numbersIn ["*"; "A"; "B"] cf /\
    exists i pr x y, let s := shown ["*"; "A"; "B"] md in zget prs i = Some pr /\ In x (sites x1L) /\ In y (sites x1L) /\ x <> y /\
      0 < eventRate x1L x1basis ["*"; "A"; "B"] pr x s < allRates x1L x1basis ["*"; "A"; "B"] prs s /\ 0 < eventRate x1L x1basis ["*"; "A"; "B"] pr y s /\
      (varied = true -> eventRate x1L x1basis ["*"; "A"; "B"] pr x s <> eventRate x1L x1basis ["*"; "A"; "B"] pr y s).
Definition abNames : list string := ["*"; "A"; "B"].
Definition c70b (prs : list cproc) (varied : bool) (cf : config) (it : interactions) (md : model) : bool :=
  processesInputb x1L x1basis abNames cf it prs && negb (sameNumbers (shown abNames md) (numbersIn abNames cf)) &&
  existsb (fun pr => existsb (fun x => let rx := eventRate x1L x1basis abNames pr x (shown abNames md) in (0 <? rx) && (rx <? allRates x1L x1basis abNames prs (shown abNames md)) &&
    existsb (fun y => let ry := eventRate x1L x1basis abNames pr y (shown abNames md) in negb (x =? y) && (0 <? ry) && (negb varied || negb (rx =? ry))) (sites x1L)) (sites x1L)) prs.
Lemma c70_case hash els xs rate custom rc us u1 u2 varied Q cf it md md' : userSystem 2 hash x1L x1sites els x1pt xs true custom rc us u1 u2 cf it md md' ->
  c70b (cprocsOf xs rate) varied cf it md && Q = true -> ratesGiven hash x1L x1basis abNames cf it (cprocsOf xs rate) -> c70Case hash (cprocsOf xs rate) varied.
Proof.
  intros US H RG. apply andb_true_iff in H. destruct H as [H _]. unfold c70b in H. rewrite !andb_true_iff in H. destruct H as ((H1 & H2) & H3).
  exists cf, it, md. split; [split; [|exact RG]; apply processesInputb_sound; [eapply user_ext; [apply cprocs_spec|inputOf US]|exact H1]|]. split; [reached US|]. split.
  - intros E. apply negb_true_iff in H2. unfold sameNumbers in H2. destruct (list_eq_dec _ _ _) as [|N] in H2; [discriminate|]. apply N. exact E.
  - apply existsb_exists in H3. destruct H3 as (pr & Hp & H3). apply existsb_exists in H3. destruct H3 as (x & Hx & H3). cbv zeta in H3. rewrite !andb_true_iff in H3. destruct H3 as ((A & B) & C). apply existsb_exists in C. destruct C as (y & Hy & C).
    rewrite !andb_true_iff in C. destruct C as ((C & D) & E). apply In_zget in Hp. destruct Hp as [i Ei]. exists i, pr, x, y. cbv zeta. fold abNames. apply Z.ltb_lt in A, B, D. split; [exact Ei|]. split; [exact Hx|]. split; [exact Hy|]. split; [lia|]. split; [lia|]. split; [exact D|].
    intros ->. cbn [negb orb] in E. lia.
Qed.

(** rate constants: hops of plain particles beside reactions that change numbers, several particles at a site *)
Definition x70Specs : list xspec := [ plain hopRows 3; bucket1 [mkBRow czero ["A"; "B"] [("A", -1)]; mkBRow (xcell 0 1 0) ["B"] [("A", 2); ("B", -1)]] 0 4; bucket1 [mkBRow czero ["A"; "A"] [("A", -1)]; mkBRow (xcell 1 0 0) ["*"] []] 0 5 ].
Definition x70Procs : list cproc := cprocsOf x70Specs (fun x _ _ => xs_rate x).
Definition x70Check (xs : list xspec) (rate : xspec -> Z -> pstate -> Z) els (hash : list Z -> Z) custom rc varied (Q : config -> interactions -> bool) : bool :=
  userCheck 2 hash x1L x1sites els x1pt xs true custom rc x30us (dev 1 100) (dev 1 2) (fun cf it md _ => c70b (cprocsOf xs rate) varied cf it md && Q cf it).
Definition c70constant : bool := x70Check x70Specs (fun x _ _ => xs_rate x) xfEls xhash false norc false (fun _ it =>
  forallb (fun i => match zget x70Specs i, zget (in_procs it) i with Some x, Some p => (pr_rate p =? xs_rate x) && (0 <=? pr_rate p) | _, _ => false end) [0; 1; 2]).
Lemma c70constant_ok : c70constant = true. Proof. vm_compute. reflexivity. Qed.
Strategy expand [c70constant x70Check c70b].
Example C70_example_constant : c70Case xhash x70Procs false.
Proof.
  pose proof c70constant_ok as H. unfold c70constant, x70Check in H. apply userCheck_sound in H. destruct H as (cf & it & md & md' & US & H). eapply c70_case; [exact US|exact H|]. apply andb_true_iff in H. destruct H as [_ H].
  apply givenConstant. destruct (us_it _ _ _ _ _ _ _ _ _ _ _ _ _ _ _ _ _ US) as (ps & _ & Eit). constructor; [rewrite Eit; reflexivity|].
  intros i pr p Ei Ep. unfold x70Procs, cprocsOf in Ei. rewrite zget_map in Ei. destruct (zget x70Specs i) as [x|] eqn:Ex; [|discriminate]. injection Ei as <-. cbn [cp_rate].
  rewrite forallb_forall in H. specialize (H i). rewrite Ex, Ep in H. assert (Hi : In i [0; 1; 2]) by (apply zget_range in Ex; change (zlen x70Specs) with 3 in Ex; cbn [In]; lia). specialize (H Hi). apply andb_true_iff in H. destruct H as [A B]. apply Z.eqb_eq in A. apply Z.leb_le in B. split; [exact B|]. intros _ _. symmetry. exact A.
Qed.

(** a rate calculator that counts the particles of type A around the site, for bucket processes, with caching *)
Lemma zsum_same {A B} (f : A -> Z) (g : B -> Z) (l : list A) (m : list B) : zlen l = zlen m -> (forall j a b, zget l j = Some a -> zget m j = Some b -> f a = g b) -> zsum (map f l) = zsum (map g m).
Proof.
  revert m. induction l as [|a l IH]; intros [|b m] Hl H; [reflexivity|rewrite zlen_cons in Hl; pose proof (zlen_nonneg m); change (zlen (@nil A)) with 0 in Hl; lia|rewrite zlen_cons in Hl; pose proof (zlen_nonneg l); change (zlen (@nil B)) with 0 in Hl; lia|].
  rewrite !zlen_cons in Hl. cbn [map]. rewrite !PBase.zsum_cons. f_equal; [apply (H 0); reflexivity|]. apply IH; [lia|]. intros j x y E1 E2. pose proof (zget_range _ _ _ E1). apply (H (j + 1)); rewrite zget_cons; destruct (Z.eqb_spec (j + 1) 0); try lia; replace (j + 1 - 1) with j by lia; assumption.
Qed.
Definition manyOf (t : string) (l : list (Z * string)) : Z := zsum (map (fun p => if String.eqb (snd p) t then fst p else 0) l).
Lemma counts_manyOf names number l t : counts names number l -> t <> "*" -> In t names -> manyOf t l = Z.max 0 (number t).
Proof.
  intros [ND H] Ht Hn. assert (G : forall l, NoDup (map snd l) -> (forall n, In (n, t) l -> manyOf t l = n) /\ ((forall n, ~ In (n, t) l) -> manyOf t l = 0)).
  { clear. induction l as [|[n s] l IH]; intros ND; [split; [intros n []|reflexivity]|]. inversion ND as [|? ? Hni ND']; subst. destruct (IH ND') as [I1 I2]. unfold manyOf in *. cbn [map fst snd]. rewrite PBase.zsum_cons. split.
    - intros m [E|Hin]; [injection E as -> ->; rewrite String.eqb_refl, I2; [lia|]; intros k Hk; apply Hni; apply in_map_iff; exists (k, t); auto|]. destruct (String.eqb_spec s t) as [->|]; [exfalso; apply Hni; apply in_map_iff; exists (m, t); auto|]. rewrite (I1 m Hin). reflexivity.
    - intros HN. destruct (String.eqb_spec s t) as [->|]; [exfalso; apply (HN n); left; reflexivity|]. rewrite I2; [reflexivity|]. intros k Hk. apply (HN k). right. exact Hk. }
  destruct (G l ND) as [G1 G2]. destruct (Z_lt_le_dec 0 (number t)) as [Hp|Hp].
  - rewrite (G1 (number t)); [lia|]. apply H. auto.
  - rewrite G2; [lia|]. intros n Hin. apply H in Hin. lia.
Qed.
Definition rateS3 : list coord -> list string -> list string -> Z -> Z -> coord -> Z := fun geo before after r n g => r + 3 * countA before.
Definition rateB3 : list coord -> list (list (Z * string)) -> list (list (Z * string)) -> Z -> Z -> coord -> Z := fun geo before after r n g => r + 3 * zsum (map (manyOf "A") before).
Definition around3 (cut2 r x : Z) (s : pstate) : Z := r + 3 * zsum (map (fun y => Z.max 0 (numberAt abNames s y "A")) (nearSites x1L x1basis cut2 x)).
Lemma around3_nonneg cut2 r x s : 0 <= r -> 0 <= around3 cut2 r x s.
Proof.
  intros Hr. unfold around3. assert (0 <= zsum (map (fun y => Z.max 0 (numberAt abNames s y "A")) (nearSites x1L x1basis cut2 x))); [|lia]. apply zsum_nonneg. intros a Ha. apply in_map_iff in Ha. destruct Ha as (y & <- & _). lia.
Qed.
Lemma around3_numbers cut2 r i g x s rows ys ds before after : In x (sites x1L) -> wf_lattice x1L -> wf_basis x1L x1basis -> surroundings x1L (generateLatticeSites x1L x1basis) cut2 x ys ds ->
  describesNumbers abNames s rows ys ds before after -> rateB3 ds before after r i g = around3 cut2 r x s.
Proof.
  intros Hx WF WB SU D. destruct (C70_surroundings _ _ _ _ _ _ WF WB Hx SU) as [HP _]. unfold rateB3, around3. do 2 f_equal. rewrite <- (zsum_perm _ _ (Permutation_map _ HP)).
  apply zsum_same; [apply D|]. intros j l y El Ey. apply (counts_manyOf abNames _ l "A" (dn_before _ _ _ _ _ _ _ D j y l Ey El)); [discriminate|right; left; reflexivity].
Qed.
Lemma around3_types cut2 r i g x s rows ys ds before after : In x (sites x1L) -> wf_lattice x1L -> wf_basis x1L x1basis -> surroundings x1L (generateLatticeSites x1L x1basis) cut2 x ys ds -> zlen s = nsites x1L -> oneEach abNames s ->
  describesTypes abNames s rows ys ds before after -> rateS3 ds before after r i g = around3 cut2 r x s.
Proof.
  intros Hx WF WB SU SL O D. destruct (C70_surroundings _ _ _ _ _ _ WF WB Hx SU) as [HP _]. unfold rateS3, around3. do 2 f_equal.
  assert (HY : forall y, In y ys -> exists ns, zget s y = Some ns).
  { intros y Hy. apply zget_lt. rewrite SL. apply (Permutation_in _ HP) in Hy. unfold nearSites in Hy. apply filter_In in Hy. apply In_sites. apply Hy. }
  rewrite <- (zsum_perm _ _ (Permutation_map _ HP)).
  assert (EC : countA before = zsum (map (fun t => if String.eqb "A" t then 1 else 0) before)).
  { unfold countA. clear. induction before as [|t l IH]; [reflexivity|]. cbn [map filter]. rewrite PBase.zsum_cons. destruct (String.eqb "A" t); [rewrite zlen_cons; lia|lia]. }
  rewrite EC. apply zsum_same; [apply D|]. intros j t y Et Ey. destruct (dt_before _ _ _ _ _ _ _ D j y t Ey Et) as [Hn Hp]. destruct (HY y (zget_In _ _ _ Ey)) as [ns Ens]. destruct (O y ns Ens) as (t0 & _ & N1 & N0).
  assert (t = t0) by (destruct (string_dec t t0) as [|Hne]; [assumption|]; rewrite (N0 t Hn Hne) in Hp; lia). subst t0. destruct (String.eqb_spec "A" t) as [<-|Hne]; [rewrite N1; reflexivity|]. rewrite N0; [reflexivity|right; left; reflexivity|congruence].
Qed.
(** the cutoff, the rate constant and the range as the model has them *)
Definition cut70b (xs : list xspec) (cut2 : Z) (it : interactions) : bool :=
  forallb (fun i => match zget xs i, zget (in_procs it) i with Some x, Some p => (pr_rate p =? xs_rate x) && (0 <=? pr_rate p) && (pr_cut2 p =? cut2) && pr_custom p | _, _ => false end) (zrange 0 (zlen (in_procs it) - 1)).
Lemma calculator70 hash els xs cut2 us u1 u2 cf it md md' : userSystem 2 hash x1L x1sites els x1pt xs true true (pyCalculator rateS3 rateB3) us u1 u2 cf it md md' ->
  processesInput 2 x1L x1basis abNames cf it (cprocsOf xs (fun x => around3 cut2 (xs_rate x))) -> cut70b xs cut2 it = true -> roomyStartb x1L cf it = true ->
  (forall p, In p (in_procs it) -> pr_cache p = false) \/
    cacheInput (comeUp x1L x1basis abNames (cf_names cf) (cprocsOf xs (fun x => around3 cut2 (xs_rate x))) (numbersIn abNames cf) (map pr_cut2 (in_procs it))) hash cf it ->
  (forall x rows, In x xs -> xs_spec x = Plain rows -> forall s, comesTo x1L x1basis abNames (cprocsOf xs (fun x => around3 cut2 (xs_rate x))) (numbersIn abNames cf) s -> oneEach abNames s) ->
  ratesGiven hash x1L x1basis abNames cf it (cprocsOf xs (fun x => around3 cut2 (xs_rate x))).
Proof.
  intros US CH HC HR HK HO. destruct (us_it _ _ _ _ _ _ _ _ _ _ _ _ _ _ _ _ _ US) as (ps & _ & Eit). assert (UI : userInput 2 x1L cf it (specOf xs)) by inputOf US.
  assert (HCut : forall i p, zget (in_procs it) i = Some p -> exists x, zget xs i = Some x /\ pr_rate p = xs_rate x /\ 0 <= pr_rate p /\ pr_cut2 p = cut2 /\ pr_custom p = true).
  { intros i p Ep. unfold cut70b in HC. rewrite forallb_forall in HC. specialize (HC i ltac:(apply In_zrange; apply zget_range in Ep; lia)). rewrite Ep in HC. destruct (zget xs i) as [x|]; [|discriminate]. exists x. rewrite !andb_true_iff in HC. destruct HC as (((A & B) & C) & D). split; [reflexivity|]. split; [lia|]. split; [lia|]. split; [lia|exact D]. }
  apply (givenCalculator _ _ _ _ _ _ _ rateS3 rateB3). constructor.
  - rewrite Eit. reflexivity.
  - rewrite Eit. reflexivity.
  - exact HK.
  - apply roomyStartb_sound. exact HR.
  - intros p Hp. apply In_zget in Hp. destruct Hp as [i Ep]. destruct (HCut i p Ep) as (x & _ & _ & _ & _ & A). eapply C59_covered_one_point; eauto. reflexivity.
  - intros s i pr p x g HCm Ei Ep Eg _. destruct (HCut i p Ep) as (xs0 & Ex & ER & Rn & EC & _). unfold cprocsOf in Ei. rewrite zget_map, Ex in Ei. injection Ei as <-. cbn [cp_rate cp_spec]. rewrite ER in *. rewrite EC.
    assert (Hx : In x (sites x1L)) by (apply In_sites; apply zget_range in Eg; rewrite (lattice_sites_len x1L (pc_wf _ _ _ _ _ _ _ CH) x1basis (proj1 (pc_wb _ _ _ _ _ _ _ CH))) in Eg; exact Eg).
    pose proof (pc_wf _ _ _ _ _ _ _ CH) as WF. pose proof (pc_wb _ _ _ _ _ _ _ CH) as WB.
    split; [apply around3_nonneg; exact Rn|]. intros ys ds SU. destruct (xs_spec xs0) as [rows|rows] eqn:Sp; intros before after D.
    + eapply around3_types; eauto; [apply (shaped_comes _ _ _ _ _ _ _ CH s HCm)|]. eapply (HO xs0 rows); eauto. eapply zget_In; eauto.
    + eapply around3_numbers; eauto.
Qed.
Definition c70cached : bool := x70Check xhSpecs (fun x => around3 169 (xs_rate x)) xfEls codeOf true (pyCalculator rateS3 rateB3) true (fun cf it => cut70b xhSpecs 169 it && roomyStartb x1L cf it && numberedb it && bucketsb it && negb (forallb (fun p => negb (pr_cache p)) (in_procs it))).
Lemma c70cached_ok : c70cached = true. Proof. vm_compute. reflexivity. Qed.
Strategy expand [c70cached].
Example C70_example_cached : c70Case codeOf (cprocsOf xhSpecs (fun x => around3 169 (xs_rate x))) true.
Proof.
  pose proof c70cached_ok as H. unfold c70cached, x70Check in H. apply userCheck_sound in H. destruct H as (cf & it & md & md' & US & H). eapply c70_case; [exact US|exact H|]. apply andb_true_iff in H. destruct H as [H0 H].
  rewrite !andb_true_iff in H. destruct H as ((((H1 & H2) & H3) & H4) & _). unfold c70b in H0. rewrite !andb_true_iff in H0. destruct H0 as ((H0 & _) & _).
  eapply calculator70; [exact US|apply processesInputb_sound; [eapply user_ext; [apply cprocs_spec|inputOf US]|exact H0]|exact H1|exact H2| |].
  - right. destruct (us_it _ _ _ _ _ _ _ _ _ _ _ _ _ _ _ _ _ US) as (ps & _ & Eit). constructor; [intros ? ? _ _; apply codeOf_inj|apply numberedb_sound; exact H3| |].
    + intros q _ _. rewrite Eit. split; intros; reflexivity.
    + right. apply bucketsb_sound. exact H4.
  - intros x rows [<-|[]] E. discriminate.
Qed.
(** the same calculator for plain processes, each site with one particle *)
Definition oneEachb (s : pstate) : bool := forallb (fun y => existsb (fun t => (numberAt abNames s y t =? 1) && forallb (fun t' => String.eqb t' t || (numberAt abNames s y t' =? 0)) abNames) abNames) (zrange 0 (zlen s - 1)).
Lemma oneEachb_sound s : oneEachb s = true -> oneEach abNames s.
Proof.
  intros H y ns Ey. unfold oneEachb in H. rewrite forallb_forall in H. specialize (H y ltac:(apply In_zrange; apply zget_range in Ey; lia)). apply existsb_exists in H. destruct H as (t & Ht & H). apply andb_true_iff in H. destruct H as [H1 H2].
  exists t. split; [exact Ht|]. split; [lia|]. intros t' Ht' Hne. rewrite forallb_forall in H2. specialize (H2 t' Ht'). apply orb_true_iff in H2. destruct H2 as [H2|H2]; [apply String.eqb_eq in H2; congruence|lia].
Qed.
Definition c70plain : bool := x70Check xdSpecs (fun x => around3 144 (xs_rate x)) (one xaTypes) xhash true (pyCalculator rateS3 rateB3) true (fun cf it => cut70b xdSpecs 144 it && roomyStartb x1L cf it && noneCachedb it && oneEachb (numbersIn abNames cf)).
Lemma c70plain_ok : c70plain = true. Proof. vm_compute. reflexivity. Qed.
Strategy expand [c70plain].
Example C70_example_calculator : c70Case xhash (cprocsOf xdSpecs (fun x => around3 144 (xs_rate x))) true.
Proof.
  pose proof c70plain_ok as H. unfold c70plain, x70Check in H. apply userCheck_sound in H. destruct H as (cf & it & md & md' & US & H). eapply c70_case; [exact US|exact H|]. apply andb_true_iff in H. destruct H as [H0 H].
  rewrite !andb_true_iff in H. destruct H as (((H1 & H2) & H3) & H4). unfold c70b in H0. rewrite !andb_true_iff in H0. destruct H0 as ((H0 & _) & _).
  assert (CH : processesInput 2 x1L x1basis abNames cf it (cprocsOf xdSpecs (fun x => around3 144 (xs_rate x)))) by (apply processesInputb_sound; [eapply user_ext; [apply cprocs_spec|inputOf US]|exact H0]).
  eapply calculator70; [exact US|exact CH|exact H1|exact H2| |].
  - left. intros p Hp. unfold noneCachedb in H3. rewrite forallb_forall in H3. apply negb_true_iff. apply H3. exact Hp.
  - intros x rows _ _ s Hs. apply (C70_one_each _ _ _ _ _ _ _ s CH); [|apply oneEachb_sound; exact H4|exact Hs].
    intros pr Hp. unfold cprocsOf in Hp. apply in_map_iff in Hp. destruct Hp as (z & <- & Hz). destruct Hz as [<-|[<-|[]]]; eexists; reflexivity.
Qed.

(** its cutoffs meet the hypothesis of [C70_room_corner] *)
Definition c70room : bool := x70Check xdSpecs (fun x => around3 144 (xs_rate x)) (one xaTypes) xhash true (pyCalculator rateS3 rateB3) true (fun _ it =>
  forallb (fun p => pr_cut2 p <? periodicAxes x1L * ((maxRange it * lt_unit x1L) * (maxRange it * lt_unit x1L))) (in_procs it)).
Lemma c70room_ok : c70room = true. Proof. vm_compute. reflexivity. Qed.
Strategy expand [c70room].
Example C70_example_room : exists cf it, in_custom it = true /\ processesInput 2 x1L x1basis abNames cf it (cprocsOf xdSpecs (fun x => around3 144 (xs_rate x))) /\
  (forall p, In p (in_procs it) -> pr_cut2 p < periodicAxes x1L * ((maxRange it * lt_unit x1L) * (maxRange it * lt_unit x1L))) /\ roomyStart x1L cf it.
Proof.
  pose proof c70room_ok as H. unfold c70room, x70Check in H. apply userCheck_sound in H. destruct H as (cf & it & md & md' & US & H). apply andb_true_iff in H. destruct H as [H0 H].
  unfold c70b in H0. rewrite !andb_true_iff in H0. destruct H0 as ((H0 & _) & _). exists cf, it.
  assert (CH : processesInput 2 x1L x1basis abNames cf it (cprocsOf xdSpecs (fun x => around3 144 (xs_rate x)))) by (apply processesInputb_sound; [eapply user_ext; [apply cprocs_spec|inputOf US]|exact H0]).
  assert (HC : forall p, In p (in_procs it) -> pr_cut2 p < periodicAxes x1L * ((maxRange it * lt_unit x1L) * (maxRange it * lt_unit x1L))) by (intros p Hp; rewrite forallb_forall in H; apply Z.ltb_lt; apply H; exact Hp).
  split; [destruct (us_it _ _ _ _ _ _ _ _ _ _ _ _ _ _ _ _ _ US) as (ps & _ & ->); reflexivity|]. split; [exact CH|]. split; [exact HC|]. eapply C70_room_corner; eauto.
Qed.

Print Assumptions C70_start.
Print Assumptions C70_total.
Print Assumptions C70_step.
Print Assumptions C70_probability.
Print Assumptions C70_next_state.
Print Assumptions C70_multiple_exists.
Print Assumptions C70_history.
Print Assumptions C70_every_history.
Print Assumptions C70_room.
Print Assumptions C70_room_corner.
Print Assumptions C70_surroundings.
Print Assumptions C70_one_each.
Print Assumptions C70_comes.
Print Assumptions C70_example_constant.
Print Assumptions C70_example_cached.
Print Assumptions C70_example_calculator.
Print Assumptions C70_example_room.
