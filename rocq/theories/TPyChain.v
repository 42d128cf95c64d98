(** C68: from the arguments of the Python constructors to the Markov chain of SIdeal.v. *)
From Coq Require Import Reals.
From Verif Require Import PBase SModel SEvent SGeo SBuild SPlain SStep SBucket SPossible SNoUB PLattice PBuild PTypes TTypes PPyProcess TPyProcess TPyBucket TPyLattice PIdeal MTimer TTimer TIdeal PGeo PPyChain2 TPossible XRows XSystems XCheck.
From Verif Require Export SPyChain.
From Coq Require Import ZifyBool.
Open Scope string_scope.
Open Scope list_scope.
Open Scope Z_scope.

(** the script has made the model md, which took its steps with the deviates us; kc is the configuration the user holds *)
Definition scriptRun (S ranks : Z) (hash : list Z -> Z) (a : simArgs) (kc : kconf) (md : model) : Prop :=
  exists kl ki md0 us, script S a = Ok (kl, kc, ki) /\ KMCLatticeModel S ranks hash kl kc ki = Ok (Some md0) /\ runSteps md0 us = Some md.
(** configuration.types() *)
Definition reports (kc : kconf) (md : model) (s : state) : Prop := typesQuery kc (md_cf md) = Ok (map VStr s).

Lemma query_singles c cf s ts : kc_types c = KPlain ts -> shows cf s -> typesQuery c cf = Ok (map VStr s).
Proof.
  intros HT HS. unfold typesQuery. rewrite HT. unfold shows in HS. rewrite HS. clear. induction s as [|t s IH]; [reflexivity|]. cbn [map oall MPy.obind]. rewrite IH. reflexivity.
Qed.
Lemma strs_inj s s' : map VStr s = map VStr s' -> s = s'.
Proof. intros E. pose proof (f_equal (flat_map (fun v => match v with VStr s => [s] | _ => [] end)) E) as Y. rewrite !flat_strs in Y. exact Y. Qed.
Lemma run_input S ranks hash a kc md L basis s0 prs R : 1 <= ranks -> wellPosed S a L basis s0 prs R -> scriptRun S ranks hash a kc md ->
  exists cf it prs', chainInput ranks L basis cf it prs' /\ likeChain L basis prs prs' /\ reachable ranks hash L cf it md /\ kc_types kc = KPlain s0 /\ forall s, reports kc md s <-> shows (md_cf md) s.
Proof.
  intros HR W (kl & ki & md0 & us & E1 & E2 & E3). destruct (simulation_input ranks S a kl kc ki L basis s0 prs R HR E1 W) as (cf & it & prs' & KL & WF & KT & MI & SH & CH & LK).
  unfold KMCLatticeModel in E2. rewrite MI in E2. cbn [MPy.obind obind fst snd] in E2. rewrite KL in E2. injection E2 as E2. exists cf, it, prs'. split; [exact CH|]. split; [exact LK|].
  assert (RC : reachable ranks hash L cf it md) by (exists md0, us; split; [exact E2|exact E3]). split; [exact RC|]. split; [exact KT|].
  intros s. split; [|apply (query_singles _ _ _ _ KT)]. intros Q. destruct (C66_total _ _ _ _ _ _ _ _ CH RC) as (s1 & S1 & _). pose proof (query_singles _ _ _ _ KT S1) as Q1. unfold reports in Q. rewrite Q in Q1. injection Q1 as Q1. apply strs_inj in Q1. subst s1. exact S1.
Qed.

Lemma runSteps_snoc md0 us md u1 u2 md' : runSteps md0 us = Some md -> singleStep md u1 u2 = Some md' -> runSteps md0 (us ++ [(u1, u2)]) = Some md'.
Proof.
  intros H E. revert md0 H. induction us as [|u us IH]; intros md0 H; [cbn in H; injection H as ->; cbn [app]; rewrite runSteps_next; cbn [fst snd]; rewrite E; reflexivity|].
  cbn [app]. rewrite runSteps_next in *. destruct (singleStep md0 (fst u) (snd u)) as [md1|]; cbn [obind] in *; [|discriminate]. exact (IH _ H).
Qed.
(** ** The script is accepted *)
(** what a process has to be for its constructor: the lists fit together, something changes, wildcards stay; move vectors, if given, explain the change *)
Definition properProcess (p : procArgs) : Prop :=
  exists cs b a bs r, readsCoords (pa_coordinates p) cs /\ NoDup cs /\ cs <> [] /\ readsNames (pa_before p) b /\ readsNames (pa_after p) a /\ zlen b = zlen cs /\ zlen a = zlen cs /\
    map (String.eqb "*") b = map (String.eqb "*") a /\ b <> a /\ readsBasis (pa_basis p) bs /\ readsRate (pa_rate p) r /\
    (pa_moves p = VNone \/ exists mvs, readsMoves (pa_moves p) mvs /\ explain cs b a mvs).
Lemma proper_accepted S p : 0 < S <= 100000000 -> properProcess p -> exists q, KMCProcess S (pa_coordinates p) (pa_before p) (pa_after p) (pa_moves p) (pa_basis p) (pa_rate p) = Ok q.
Proof.
  intros HS (cs & b & a & bs & r & Rc & ND & NE & Rb & Ra & Lb & La & WI & NB & RB & RR & [EM|(mvs & RM & EX)]); apply readsBasis_ok in RB; apply readsRate_ok in RR.
  - rewrite EM. destruct (reconstruct_cases (centred cs) b a) as [(i & j & ci & cj & SW & Ei & Ej & _)|[NS E]]; rewrite ?centred_zlen; auto.
    + assert (X : exists c d, zget cs i = Some c /\ zget cs j = Some d). { destruct SW as (A & _ & _ & _ & B & C & _). destruct (zget_lt cs i) as [c ?]; [lia|]. destruct (zget_lt cs j) as [d ?]; [lia|]. eauto. }
      destruct X as (c & d & Ec & Ed). destruct (C45_swap S (pa_coordinates p) (pa_before p) (pa_after p) (pa_basis p) (pa_rate p) cs b a bs r i j c d HS Rc ND Rb Ra Lb La WI RB RR SW Ec Ed) as (q & H & _). eauto.
    + apply (KMCProcess_ok S _ _ _ VNone _ _ cs b a [] bs r NE Rc Rb Ra Lb La WI NB RB RR); [|intros iv []]. unfold checkMoveVectors. rewrite E. reflexivity.
  - eapply C44_accepts; eauto.
Qed.
(** Arguments that describe a chain, with a right-handed cell of some volume, basis points in [0,1), proper processes and fitting possible types, are accepted by all constructors. *)
Theorem C68_accepted S a L basis s prs R va vb vc : wellPosed S a L basis s prs R ->
  readsCoords (sa_cell a) [va; vb; vc] -> S * S * S <= 100000 * volume va vb vc -> basis <> [] -> (forall p, In p basis -> fractionalPoint S p) ->
  possibleFits (sa_possible a) s -> sa_processes a <> [] -> (forall p, In p (sa_processes a) -> properProcess p) -> exists k, script S a = Ok k.
Proof.
  intros W RV HV NB HF HP NP HPP. unfold script. pose proof (wp_unit _ _ _ _ _ _ _ W) as HS.
  assert (EU : KMCUnitCell S (sa_cell a) (sa_points a) = Ok (mkUC (va, vb, vc) basis)) by (apply C67_unit_cell; exists va, vb, vc, basis; repeat (split; [assumption || reflexivity || apply (wp_points _ _ _ _ _ _ _ W)|]); assumption).
  rewrite EU. cbn [MPy.obind]. destruct (wp_lattice _ _ _ _ _ _ _ W) as (ra & rb & rc & pa & pb & pc & Q1 & Q2 & EL).
  assert (EK : KMCLattice S (Some (mkUC (va, vb, vc) basis)) (sa_repetitions a) (sa_periodic a) = Ok (mkKL (mkUC (va, vb, vc) basis) L (generateLatticeSites L basis))).
  { apply C67_lattice. exists ra, rb, rc, pa, pb, pc. split; [exact Q1|]. split; [exact Q2|]. cbn [uc_basis]. rewrite <- EL. reflexivity. }
  rewrite EK. cbn [MPy.obind kl_lat].
  assert (WF : wf_lattice L). { destruct (C67_sites S _ _ _ _ _ _ ltac:(lia) EU EK) as (? & ? & ? & ? & ? & ? & ? & _ & _ & _ & X). cbv zeta in X. apply X. }
  assert (EC : exists kc, KMCConfiguration S L (sa_types a) (sa_default a) (sa_possible a) = Ok kc).
  { destruct (wp_types _ _ _ _ _ _ _ W) as (Hl & [[-> ->]|(l & es & d & -> & NE & -> & HE & HI & HG)]).
    - cbn [KMCConfiguration]. unfold detectTypesFormat. rewrite strs_all. cbn [MPy.obind]. rewrite <- Hl, checkTypes_ok. cbn [MPy.obind]. apply possibleTypes_ok in HP. rewrite HP. cbn [MPy.obind]. eauto.
    - destruct (C41_long S L l d (sa_possible a) es WF NE HE HI) as (ts & T1 & T2 & T3 & _).
      assert (ts = s). { apply PBase.zget_ext. intros x. destruct (Z_lt_dec x 0) as [|]; [rewrite !(proj2 (zget_None _ _)) by lia; reflexivity|]. destruct (Z_lt_dec x (nsites L)) as [|]; [|rewrite !(proj2 (zget_None _ _)) by lia; reflexivity].
        destruct (site_of_index L WF x ltac:(lia)) as (i & j & k & m & Hs & ->). rewrite (T2 _ _ _ _ Hs), (HG _ _ _ _ Hs). reflexivity. }
      subst ts. destruct (T3 HP) as (c & E & _). eauto. }
  destruct EC as [kc EC]. rewrite EC. cbn [MPy.obind].
  assert (EP : exists ps, oall (fun p => KMCProcess S (pa_coordinates p) (pa_before p) (pa_after p) (pa_moves p) (pa_basis p) (pa_rate p)) (sa_processes a) = Ok ps).
  { clear - HPP HS. induction (sa_processes a) as [|p l IH]; [exists []; reflexivity|]. cbn [oall]. destruct (proper_accepted S p ltac:(lia) (HPP p (or_introl eq_refl))) as [q Eq]. rewrite Eq. cbn [MPy.obind]. destruct IH as [ps Ep]; [intros p' Hp'; apply HPP; right; exact Hp'|]. rewrite Ep. cbn [MPy.obind]. eauto. }
  destruct EP as [ps EP]. rewrite EP. cbn [MPy.obind].
  assert (LP : zlen ps <> 0). { apply oall_processes in EP. destruct EP as [|x y l m _ F]; [congruence|]. rewrite zlen_cons. pose proof (zlen_nonneg m). lia. }
  unfold KMCInteractions. rewrite zlen_map. destruct (Z.eqb_spec (zlen ps) 0); [contradiction|].
  replace (map (fun p => Some (KPlainP p)) ps) with (map Some (map KPlainP ps)) by (rewrite map_map; reflexivity). rewrite oall_given. cbn [MPy.obind].
  destruct (wp_wild _ _ _ _ _ _ _ W) as [-> | ->]; cbn [MPy.obind]; eauto.
Qed.

(** The model can be made, and types() gives the types the script began with. *)
Theorem C68_start S ranks hash a kl kc ki L basis s prs R : 1 <= ranks -> script S a = Ok (kl, kc, ki) -> wellPosed S a L basis s prs R ->
  exists md, KMCLatticeModel S ranks hash kl kc ki = Ok (Some md) /\ reports kc md s.
Proof.
  intros HR E W. destruct (simulation_input ranks S a kl kc ki L basis s prs R HR E W) as (cf & it & prs' & KL & WF & KT & MI & SH & CH & LK).
  destruct (C66_start ranks hash L basis cf it prs' s CH SH) as (md & E1 & E2). exists md. split; [|eapply query_singles; eauto].
  unfold KMCLatticeModel. rewrite MI. cbn [MPy.obind obind fst snd]. rewrite KL, E1. reflexivity.
Qed.

Section Run.
Context {S ranks : Z} {hash : list Z -> Z} {a : simArgs} {kc : kconf} {md : model} {L : lattice} {basis : list coord} {s0 : state} {prs : list iproc} {R : Z}.
Context (HR : 1 <= ranks) (W : wellPosed S a L basis s0 prs R) (RN : scriptRun S ranks hash a kc md).

(** types() always gives one name for each site, and the clock uses the total rate of the chain of the user's processes. *)
Theorem C68_total : exists s, reports kc md s /\ zlen s = nsites L /\ totalRate (md_in md) = Some (total L basis prs s).
Proof using HR W RN.
  destruct (run_input _ _ _ _ _ _ _ _ _ _ _ HR W RN) as (cf & it & prs' & CH & LK & RC & KT & RP). destruct (C66_total _ _ _ _ _ _ _ _ CH RC) as (s & S1 & S2 & S3). exists s. split; [apply RP; exact S1|]. split; [exact S2|]. rewrite (total_like L basis prs prs' s LK). exact S3.
Qed.
(** A step is an event of the chain. *)
Theorem C68_step s u1 u2 : reports kc md s -> 0 < total L basis prs s -> unitDeviate u1 -> unitDeviate u2 ->
  exists md' s', singleStep md u1 u2 = Some md' /\ scriptRun S ranks hash a kc md' /\ reports kc md' s' /\ idealStep L basis prs s (lastEvent md') s'.
Proof using HR W RN.
  intros HS HT U1 U2. destruct (run_input _ _ _ _ _ _ _ _ _ _ _ HR W RN) as (cf & it & prs' & CH & LK & RC & KT & RP). apply RP in HS. rewrite (total_like L basis prs prs' s LK) in HT.
  destruct (C66_step _ _ _ _ _ _ _ _ _ _ _ CH RC HS HT U1 U2) as (md' & s' & E & HS' & HI). exists md', s'. split; [exact E|]. split; [|split; [eapply query_singles; eauto|apply (step_like L basis prs prs' _ _ _ LK); exact HI]].
  destruct RN as (kl & ki & md0 & us & E1 & E2 & E3). exists kl, ki, md0, (us ++ [(u1, u2)]). split; [exact E1|]. split; [exact E2|]. apply (runSteps_snoc md0 us md u1 u2 md' E3 E).
Qed.
Lemma multiple_like prs' s N : likeChain L basis prs prs' -> multipleOfAll L basis prs s N -> multipleOfAll L basis prs' s N.
Proof using.
  intros [F _] H pr' Hp' HT. apply In_zget in Hp'. destruct Hp' as [i Ei]. destruct (like_back prs prs' i pr' F Ei) as (pr & Ep & K). rewrite <- (processTotal_like L basis pr pr' s K) in HT |- *. apply H; [eapply zget_In; exact Ep|exact HT].
Qed.
(** of the pairs of deviates k1 / M, k2 / N a fraction of (rate of the event) / (total rate) leads to the event *)
Theorem C68_probability s i pr x m N : reports kc md s -> 0 < total L basis prs s -> 0 < m -> 0 < N -> multipleOfAll L basis prs s N -> zget prs i = Some pr -> In x (sites L) ->
  let M := m * total L basis prs s in
  zlen (filter (stepLeadsTo md M N (fun md' => (fst (lastEvent md') =? i) && (snd (lastEvent md') =? x))) (pairs M N)) * total L basis prs s =
  propensity L basis pr x s * zlen (pairs M N).
Proof using HR W RN.
  intros HS HT Hm HN HM Ei Hx. destruct (run_input _ _ _ _ _ _ _ _ _ _ _ HR W RN) as (cf & it & prs' & CH & LK & RC & KT & RP). apply RP in HS. destruct (like_get prs prs' i pr (proj1 LK) Ei) as (pr' & Ei' & K).
  pose proof (multiple_like prs' s N LK HM) as HM'. rewrite (total_like L basis prs prs' s LK) in *. rewrite (propensity_like L basis pr pr' x s K). exact (C66_probability _ _ _ _ _ _ _ _ _ _ _ _ _ _ CH RC HS HT Hm HN HM' Ei' Hx).
Qed.
(** of these pairs a fraction of (rate from s to s') / (total rate) leads to s' *)
Theorem C68_next_state s s' m N : reports kc md s -> 0 < total L basis prs s -> 0 < m -> 0 < N -> multipleOfAll L basis prs s N ->
  let M := m * total L basis prs s in
  zlen (filter (stepLeadsTo md M N (fun md' => if list_eq_dec (list_eq_dec string_dec) (cf_elements (md_cf md')) (map (fun t => [t]) s') then true else false)) (pairs M N)) * total L basis prs s =
  flow L basis prs s s' * zlen (pairs M N).
Proof using HR W RN.
  intros HS HT Hm HN HM. destruct (run_input _ _ _ _ _ _ _ _ _ _ _ HR W RN) as (cf & it & prs' & CH & LK & RC & KT & RP). apply RP in HS.
  pose proof (multiple_like prs' s N LK HM) as HM'. rewrite (total_like L basis prs prs' s LK) in *. rewrite (flow_like L basis prs prs' s s' LK). exact (C66_next_state _ _ _ _ _ _ _ _ _ _ _ _ CH RC HS HT Hm HN HM').
Qed.
(** A run with the clock is a history of the chain of the user's processes. *)
Theorem C68_history s t us vs md' t' rest : reports kc md s -> Forall (fun u => unitDeviate (fst u) /\ unitDeviate (snd u)) us -> (forall v, In v vs -> 0 <= v < 1)%R ->
  timedRun md (DFin t) us vs = Some (md', t', rest) ->
  exists es s' T, idealHistory L basis prs s t es s' T /\ reports kc md' s' /\ t' = DFin T /\ eventsOf md us es /\
    exists used, vs = used ++ rest /\ filter (fun v => if Req_EM_T v 0 then false else true) used = map snd es.
Proof using HR W RN.
  intros HS HU HV H. destruct (run_input _ _ _ _ _ _ _ _ _ _ _ HR W RN) as (cf & it & prs' & CH & LK & RC & KT & RP). apply RP in HS.
  destruct (C66_history _ _ _ _ _ _ _ _ CH HU _ _ _ _ _ _ _ RC HS HV H) as (es & s' & T & HI & HS' & X). exists es, s', T. split; [apply (history_like L basis prs prs' es LK); exact HI|]. split; [eapply query_singles; eauto|exact X].
Qed.
(** Every history of that chain is a run, for suitable deviates. *)
Theorem C68_every_history es s t s' T : reports kc md s -> idealHistory L basis prs s t es s' T ->
  exists us md', Forall (fun u => unitDeviate (fst u) /\ unitDeviate (snd u)) us /\ timedRun md (DFin t) us (map snd es) = Some (md', DFin T, []) /\ reports kc md' s' /\ eventsOf md us es.
Proof using HR W RN.
  intros HS H. destruct (run_input _ _ _ _ _ _ _ _ _ _ _ HR W RN) as (cf & it & prs' & CH & LK & RC & KT & RP). apply RP in HS. apply (history_like L basis prs prs' es LK) in H.
  destruct (C66_every_history _ _ _ _ _ _ _ _ CH _ _ _ _ _ RC HS H) as (us & md' & A & B & C & D). exists us, md'. split; [exact A|]. split; [exact B|]. split; [eapply query_singles; eauto|exact D].
Qed.
End Run.

(** ** Example: a centred lattice, open along c; two kinds of hops, one with and one without move vectors, adsorption and a change beside any neighbour.
    The positions of a process may be given anywhere; the types are given in the long format. *)
Lemma pyCoords_reads cs : readsCoords (pyCoords cs) cs.
Proof. eexists. split; [reflexivity|]. induction cs as [|c cs IH]; constructor; [reflexivity|exact IH]. Qed.
Lemma pyMoves_reads mvs : readsMoves (pyMoves mvs) mvs.
Proof. eexists. split; [reflexivity|]. induction mvs as [|m mvs IH]; constructor; [do 2 eexists; split; reflexivity|exact IH]. Qed.
Definition xpyBasis : list coord := [czero; mkC 5 5 0].
Definition xpyL : lattice := mkLat 2 4 3 1 true true false 10.
Definition pyLong (i j k m : Z) (t : string) : pyval := VTuple [VInt i; VInt j; VInt k; VInt m; VStr t].
Definition xpyArgs : simArgs := mkSA (pyCoords [mkC 20 0 0; mkC 0 20 0; mkC 0 0 30]) (pyCoords xpyBasis) (VTuple [VInt 4; VInt 3; VInt 1]) (VTuple [VBool true; VBool true; VBool false])
  (VList [pyLong 0 0 0 0 "A"; pyLong 2 1 0 1 "A"; pyLong 0 0 0 0 "C"; pyLong 3 2 0 0 "A"]) (VStr "V") (VList [VStr "A"; VStr "C"; VStr "V"])
  [ mkPA (pyCoords [czero; mkC 5 5 0]) (pyNames ["A"; "V"]) (pyNames ["V"; "A"]) (pyMoves [(0, mkC 5 5 0); (1, mkC (-5) (-5) 0)]) (pyBasis [0]) (VFloat (FNum 3));
    mkPA (pyCoords [mkC 5 5 0; mkC 10 0 0]) (pyNames ["A"; "V"]) (pyNames ["V"; "A"]) VNone (pyBasis [1]) (VFloat (FNum 2));
    mkPA (pyCoords [czero]) (pyNames ["V"]) (pyNames ["A"]) VNone (pyBasis [0]) (VFloat (FNum 1));
    mkPA (pyCoords [mkC 5 5 0; mkC 15 5 0; mkC 0 0 0]) (pyNames ["A"; "*"; "V"]) (pyNames ["C"; "*"; "V"]) VNone (pyBasis [1]) (VFloat (FNum 7)) ] VNone.
Definition xpyProcs : list iproc :=
  [ mkIP 3 0 (plainRows [czero; mkC 5 5 0] ["A"; "V"] ["V"; "A"]); mkIP 2 1 (plainRows [mkC 5 5 0; mkC 10 0 0] ["A"; "V"] ["V"; "A"]); mkIP 1 0 (plainRows [czero] ["V"] ["A"]);
    mkIP 7 1 (plainRows [mkC 5 5 0; mkC 15 5 0; mkC 0 0 0] ["A"; "*"; "V"] ["C"; "*"; "V"]) ].
Definition xpyEntries : list (Z * Z * Z * Z * string) := [(0, 0, 0, 0, "A"); (2, 1, 0, 1, "A"); (0, 0, 0, 0, "C"); (3, 2, 0, 0, "A")].
Definition xpyTypes : state := map (fun x => let b := x mod 2 in let c := x / 2 in lastNamed xpyEntries (c / 3) (c mod 3) 0 b "V") (zrange 0 23).
Lemma xpy_isSite i j k m : isSite xpyL i j k m -> zget xpyTypes (globalIndex xpyL i j k m) = Some (lastNamed xpyEntries i j k m "V").
Proof.
  unfold isSite. cbn [xpyL lt_ra lt_rb lt_rc lt_nb]. intros (Hi & Hj & Hk & Hm). assert (Di : i = 0 \/ i = 1 \/ i = 2 \/ i = 3) by lia. assert (Dj : j = 0 \/ j = 1 \/ j = 2) by lia. assert (k = 0) by lia. assert (Dm : m = 0 \/ m = 1) by lia. subst k.
  destruct Di as [-> |[-> |[-> | ->]]], Dj as [-> |[-> | ->]], Dm as [-> | ->]; vm_compute; reflexivity.
Qed.
Lemma xpy_wellPosed : wellPosed 10 xpyArgs xpyL xpyBasis xpyTypes xpyProcs 1.
Proof.
  assert (WF : wf_lattice xpyL) by (apply wf_latticeb_sound; vm_compute; reflexivity). assert (WB : wf_basis xpyL xpyBasis) by (apply wf_basisb_sound; vm_compute; reflexivity).
  constructor.
  - lia.
  - exists 4, 3, 1, true, true, false. split; [split; [lia|]; split; [lia|]; split; [lia|]; right; do 3 eexists; repeat (split; [reflexivity|]); reflexivity|]. split; [right; reflexivity|reflexivity].
  - apply pyCoords_reads.
  - apply WB.
  - split; [vm_compute; reflexivity|]. right. eexists _, xpyEntries, "V". split; [reflexivity|]. split; [discriminate|]. split; [reflexivity|]. split; [vm_compute; reflexivity|]. split; [|exact xpy_isSite].
    intros i j k m t H. unfold isSite. cbn [xpyL lt_ra lt_rb lt_rc lt_nb]. cbn [xpyEntries In] in H. repeat (destruct H as [H|H]; [injection H as <- <- <- <- <-; lia|]). destruct H.
  - intros names H. assert (E : names = ["A"; "C"; "V"]) by (apply strs_inj; injection H as H; symmetry; exact H). subst names. repeat (constructor; [cbn; intuition discriminate|]). constructor.
  - left. reflexivity.
  - assert (D : forall cs b a mv bp r, (mv = VNone \/ exists mvs, readsMoves mv mvs /\ NoDup (map (fun iv => startOf (zlen cs) (fst iv)) mvs)) -> 0 <= bp -> 0 <= r ->
      describes (mkPA (pyCoords cs) (pyNames b) (pyNames a) mv (pyBasis [bp]) (VFloat (FNum r))) (mkIP r bp (plainRows cs b a))).
    { intros cs b a mv bp r HM Hb Hr. exists cs, b, a. cbn [pa_coordinates pa_before pa_after pa_moves pa_basis pa_rate ip_rows ip_basis ip_rate]. split; [apply pyCoords_reads|]. split; [reflexivity|]. split; [reflexivity|]. split; [reflexivity|]. split; [|split; [split; [reflexivity|exact Hr]|exact HM]].
      eexists. split; [reflexivity|]. split; [discriminate|]. split; [repeat constructor|]. intros b' [<-|[]]. exact Hb. }
    cbn [sa_processes xpyArgs]. unfold xpyProcs. constructor; [apply D; [|lia|lia]; right; exists [(0, mkC 5 5 0); (1, mkC (-5) (-5) 0)]; split; [apply pyMoves_reads|cbn; repeat (constructor; [cbn; intuition discriminate|]); constructor]|].
    repeat (constructor; [apply D; [left; reflexivity|lia|lia]|]). constructor.
  - assert (U : forall t, In t ["*"; "A"; "C"; "V"] -> usable (sa_possible xpyArgs) xpyTypes t) by (intros t [<-|H]; [left; reflexivity|right; exact H]).
    assert (C : forallb (fun pr => forallb (fun r => existsb (String.eqb (rw_before r)) ["*"; "A"; "C"; "V"] && existsb (String.eqb (rw_after r)) ["*"; "A"; "C"; "V"]) (ip_rows pr)) xpyProcs = true) by (vm_compute; reflexivity).
    intros pr r Hp Hr. rewrite forallb_forall in C. specialize (C pr Hp). rewrite forallb_forall in C. specialize (C r Hr). apply andb_true_iff in C. destruct C as [C1 C2]. apply existsb_exists in C1, C2.
    destruct C1 as (t & I & E), C2 as (t' & I' & E'). apply String.eqb_eq in E, E'. subst t t'. split; apply U; assumption.
  - assert (C : forallb (fun pr => placedb xpyL xpyBasis false (ip_basis pr) (map rw_c (ip_rows pr))) xpyProcs = true) by (vm_compute; reflexivity). intros pr Hp. apply placedb_sound. rewrite forallb_forall in C. exact (C pr Hp).
  - split; [lia|]. assert (C : forallb (fun pr => forallb (fun r => (Z.abs (cx (rw_c r)) <=? 10) && (Z.abs (cy (rw_c r)) <=? 10) && (Z.abs (cz (rw_c r)) <=? 10)) (ip_rows pr)) xpyProcs = true) by (vm_compute; reflexivity).
    intros pr r Hp Hr. rewrite forallb_forall in C. specialize (C pr Hp). rewrite forallb_forall in C. specialize (C r Hr). lia.
  - apply uniformb_sound. vm_compute. reflexivity.
  - intros b _. change 10 with (lt_unit xpyL). apply clean_of_size; auto. vm_compute. discriminate.
Qed.
Definition c68Check : bool :=
  match script 10 xpyArgs with
  | Ok (kl, kc, ki) =>
    match KMCLatticeModel 10 2 xhash kl kc ki with
    | Ok (Some md) =>
      match runSteps md [(dev 1 100, dev 1 2); (dev 99 100, dev 1 3); (dev 50 100, dev 2 3)] with
      | Some md' => negb (sameState (namesOf (md_cf md')) xpyTypes) && (0 <? total xpyL xpyBasis xpyProcs (namesOf (md_cf md')))
      | None => false end
    | _ => false end
  | _ => false end.
Lemma c68_ok : c68Check = true. Proof. vm_compute. reflexivity. Qed.
Strategy expand [c68Check].
Example C68_example : exists kc md s, wellPosed 10 xpyArgs xpyL xpyBasis xpyTypes xpyProcs 1 /\ scriptRun 10 2 xhash xpyArgs kc md /\ reports kc md s /\ s <> xpyTypes /\ 0 < total xpyL xpyBasis xpyProcs s.
Proof.
  pose proof c68_ok as H. unfold c68Check in H. destruct (script 10 xpyArgs) as [[[kl kc] ki]|] eqn:E1; [|discriminate]. destruct (KMCLatticeModel 10 2 xhash kl kc ki) as [[md|]|] eqn:E2; try discriminate.
  destruct (runSteps md _) as [md'|] eqn:E3 in H; [|discriminate]. apply andb_true_iff in H. destruct H as [H1 H2].
  assert (RN : scriptRun 10 2 xhash xpyArgs kc md') by (exists kl, ki, md, [(dev 1 100, dev 1 2); (dev 99 100, dev 1 3); (dev 50 100, dev 2 3)]; auto).
  destruct (run_input 10 2 xhash xpyArgs kc md' _ _ _ _ _ ltac:(lia) xpy_wellPosed RN) as (cf & it & prs' & CH & _ & RC & _ & RP). destruct (C66_total _ _ _ _ _ _ _ _ CH RC) as (s & HS & _).
  assert (EN : namesOf (md_cf md') = s). { unfold namesOf. unfold shows in HS. rewrite HS, map_map. apply map_id. }
  exists kc, md', s. split; [exact xpy_wellPosed|]. split; [exact RN|]. split; [apply RP; exact HS|]. rewrite EN in H1, H2. split; [|apply Z.ltb_lt; exact H2].
  intros X. apply negb_true_iff in H1. unfold sameState in H1. destruct (list_eq_dec string_dec _ _) as [|N] in H1; [discriminate|contradiction].
Qed.
(** the arguments are accepted by the theorem, too *)
Example C68_accepted_example : exists k, script 10 xpyArgs = Ok k.
Proof.
  apply (C68_accepted 10 xpyArgs xpyL xpyBasis xpyTypes xpyProcs 1 (mkC 20 0 0) (mkC 0 20 0) (mkC 0 0 30) xpy_wellPosed); [apply pyCoords_reads|vm_compute; discriminate|discriminate| | |discriminate|].
  - intros p [<-|[<-|[]]]; repeat split; vm_compute; congruence.
  - right. exists ["A"; "C"; "V"]. split; [reflexivity|]. split; [cbn; intuition discriminate|]. intros t Ht. assert (C : forallb (fun t => existsb (String.eqb t) ["A"; "C"; "V"]) xpyTypes = true) by (vm_compute; reflexivity).
    rewrite forallb_forall in C. specialize (C t Ht). apply existsb_exists in C. destruct C as (t' & I & E). apply String.eqb_eq in E. subst t'. exact I.
  - assert (D : forall cs b a mv bp r, nodupb ceqb cs = true -> cs <> [] -> zlen b = zlen cs -> zlen a = zlen cs -> map (String.eqb "*") b = map (String.eqb "*") a -> b <> a -> 0 <= bp -> 0 <= r -> (mv = VNone \/ exists mvs, readsMoves mv mvs /\ explain cs b a mvs) ->
      properProcess (mkPA (pyCoords cs) (pyNames b) (pyNames a) mv (pyBasis [bp]) (VFloat (FNum r)))).
    { intros cs b a mv bp r H1 H2 H3 H4 H5 H6 H7 H8 H9. exists cs, b, a, [bp], r. cbn [pa_coordinates pa_before pa_after pa_moves pa_basis pa_rate]. split; [apply pyCoords_reads|]. split; [eapply nodupb_sound; [apply ceqb_refl|exact H1]|]. repeat (split; [assumption || reflexivity|]).
      split; [eexists; split; [reflexivity|]; split; [discriminate|]; split; [repeat constructor|]; intros b' [<-|[]]; exact H7|]. split; [split; [reflexivity|exact H8]|exact H9]. }
    intros p [<-|[<-|[<-|[<-|[]]]]]; apply D; try (vm_compute; (reflexivity || congruence)); try (left; reflexivity).
    right. eexists. split; [apply pyMoves_reads|]. change [(0, mkC 5 5 0); (1, mkC (-5) (-5) 0)] with [(0, csub (mkC 5 5 0) czero); (1, csub czero (mkC 5 5 0))]. apply swap_explains; try reflexivity.
    all: try (repeat (constructor; [cbn; intuition discriminate|]); constructor).
    all: repeat split; try (vm_compute; (reflexivity || congruence)).
    intros k H0 H1. destruct (Z_lt_dec k 0); [rewrite !(proj2 (zget_None _ _)) by lia; reflexivity|]. rewrite !(proj2 (zget_None _ _)) by (cbn; lia). reflexivity.
Qed.

Print Assumptions C68_accepted.
Print Assumptions C68_start.
Print Assumptions C68_total.
Print Assumptions C68_step.
Print Assumptions C68_probability.
Print Assumptions C68_next_state.
Print Assumptions C68_history.
Print Assumptions C68_every_history.
Print Assumptions C68_example.
