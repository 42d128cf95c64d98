(** C86: the books of a run: the numbers of particles change by the net numbers of the processes that have happened; what no process changes is conserved; what every process uses up limits the length of a run. *)
From Coq Require Import Reals Lra.
From Verif Require Import PBase SModel SNoUB SPyChain2 MTimer PIdeal PChain PChain2 PNear PPick PPyChain PPyChain2 PPyChain3 PPyChain5 PPyProcess TPyLattice TPyBucket TPyChain TTimer TPyChain2 TIdeal TChain PReverse PLedger TPyProcess TPossible XSystems XRows XCheck TReverse.
From Verif Require Export SReverse SLedger.
From Coq Require Import ZifyBool.
Open Scope string_scope.
Open Scope list_scope.
Open Scope Z_scope.

(** ** What a process adds: the arguments elements_before and elements_after, counted *)
Lemma numberRow_net c b a v t : b <> "*" -> (if anyRow (numberRow (mkRow c b a v)) then 0 else change (br_upd (numberRow (mkRow c b a v))) t) = howMany t [a] - howMany t [b].
Proof.
  intros N. unfold numberRow, anyRow, SBucket.howMany, change. cbn [br_before br_upd rw_before rw_after filter]. destruct (String.eqb_spec "*" b) as [E|_]; [congruence|]. change (zlen (@nil string)) with 0. cbn [Z.eqb].
  destruct (String.eqb_spec b a) as [->|D]; [cbn [tfind]; lia|]. cbn [tfind]. rewrite (String.eqb_sym b t), (String.eqb_sym a t). destruct (String.eqb_spec t b) as [->|]; [destruct (String.eqb_spec b a); [congruence|reflexivity]|]. destruct (String.eqb_spec t a); reflexivity.
Qed.
Theorem C86_net names a k pr cs before after t : describesPlain names a k pr -> readsCoords (pa_coordinates a) cs -> readsNames (pa_before a) before -> readsNames (pa_after a) after ->
  zlen before = zlen cs -> zlen after = zlen cs -> ~ In "*" before -> netOf pr t = howMany t after - howMany t before.
Proof.
  intros (cs' & b' & a' & C1 & B1 & A1 & _ & _ & S1 & _) C2 B2 A2 LB LA NW. pose proof (readsCoords_fun _ _ _ C1 C2). subst cs'.
  assert (F : forall v l m, readsNames v l -> readsNames v m -> l = m) by (unfold readsNames; intros v l m -> E; injection E as E; apply TPyChain.strs_inj; exact E). pose proof (F _ _ _ B1 B2). pose proof (F _ _ _ A1 A2). subst b' a'. clear F.
  unfold netOf, cp_rows. rewrite S1. cbn [numberRows]. unfold plainRows, rowsOf. rewrite !map_map. assert (LZ : length (zrange 0 (zlen cs - 1)) = length cs) by (pose proof (zlen_zrange 0 (zlen cs - 1)) as Z; pose proof (zlen_nonneg cs); unfold zlen in *; lia).
  assert (LB' : length before = length cs) by (unfold zlen in LB; lia). assert (LA' : length after = length cs) by (unfold zlen in LA; lia). clear LB LA S1 B1 A1 B2 A2 C1 C2.
  revert LZ. generalize (zrange 0 (zlen cs - 1)) as l. generalize (hd czero cs) (zlen cs). intros c0 n. revert before after LB' LA' NW.
  induction cs as [|c cs IH]; intros before after LB LA NW l LZ; destruct before as [|b before], after as [|a' after], l as [|z l]; try discriminate; [reflexivity|]. cbn [combine map]. rewrite PBase.zsum_cons.
  rewrite (IH before after) by (try (cbn [length] in *; lia); intros H; apply NW; right; exact H). rewrite numberRow_net by (intros E; apply NW; left; exact E).
  change (a' :: after) with ([a'] ++ after). change (b :: before) with ([b] ++ before). unfold SBucket.howMany. rewrite !filter_app, !zlen_app. lia.
Qed.

(** ** A run *)
Section Run.
Context (S ranks : Z) (hash : list Z -> Z) (a : mixedArgs) (kc : kconf) (md : model) (L : lattice) (basis : list coord) (names : list string) (ns : particles) (kprs : list (Z * cproc)) (Rg : Z).
Context (HR : 1 <= ranks) (W : mixedPosed S hash a L basis names ns kprs Rg) (RN : mixedRun S ranks hash a kc md).
Let prs := map snd kprs.
Lemma ledger_facts : wf_lattice L /\ wf_basis L basis.
Proof using HR W RN. destruct (run_input2 _ _ _ _ _ _ _ _ _ _ _ _ HR W RN) as (cf & it & prs' & SM & _). split; [eapply pc_wf|eapply pc_wb]; exact (proj1 SM). Qed.
Let ND : NoDup names := proj1 (mp_names _ _ _ _ _ _ _ _ _ W).
Lemma ledger_start : wellShaped L names (particleNumbers names ns).
Proof using HR W RN.
  assert (RN0 := RN). destruct RN0 as (kl & ki & md0 & us0 & E1 & E2 & E3). destruct (C73_start S ranks hash a kl kc ki L basis names ns kprs Rg HR E1 W) as (md0' & E2' & RP0). assert (md0' = md0) by congruence. subst md0'.
  destruct (run_facts S ranks hash a kc md L basis names ns kprs Rg HR W RN) as (s0 & FA & ES0 & AP). destruct (FA md0 ltac:(exists kl, ki, md0, []; auto) _ RP0) as [SH0 _]. exact SH0.
Qed.
(** After a run the number of particles of every type, over all sites, is the number before plus, for every process, the number of its events times what one event adds. *)
Theorem C86_ledger s t us vs md' t' rest : reportsNumbers names kc md s -> Forall (fun u => unitDeviate (fst u) /\ unitDeviate (snd u)) us -> (forall v, In v vs -> 0 <= v < 1)%R ->
  timedRun md (DFin t) us vs = Some (md', t', rest) ->
  exists es s', eventsOf md us es /\ reportsNumbers names kc md' s' /\
    forall ty, In ty names -> totalOf L names s' ty = totalOf L names s ty + zsum (map (fun ip => timesOf es (fst ip) * netOf (snd ip) ty) (numbered prs)).
Proof using HR W RN.
  intros HS HU HV H. destruct (C73_history S ranks hash a kc md L basis names ns kprs Rg HR W RN s t us vs md' t' rest HS HU HV H) as (es & s' & T & HI & RP & _ & EV & _). exists es, s'. split; [exact EV|]. split; [exact RP|]. intros ty Hty.
  destruct ledger_facts as [WF WB], (run_facts S ranks hash a kc md L basis names ns kprs Rg HR W RN) as (s0 & FA & _ & AP). destruct (FA md RN s HS) as [SH _]. rewrite (history_gain L basis names ND WF WB prs AP _ _ _ _ _ HI SH ty Hty). f_equal.
  apply gain_times. eapply history_numbers. exact HI.
Qed.
(** If the particles are weighted such that no process changes the weighted number, the run conserves it. *)
Theorem C86_conserved w s : reportsNumbers names kc md s -> (forall pr, In pr prs -> weightedNet names w pr = 0) -> weighted L names w s = weighted L names w (particleNumbers names ns).
Proof using HR W RN.
  intros HS PZ. destruct ledger_facts as [WF WB], (run_facts S ranks hash a kc md L basis names ns kprs Rg HR W RN) as (s0 & FA & ES0 & AP). destruct (FA md RN s HS) as [_ CO]. pose proof ledger_start as SH0. rewrite <- ES0 in *.
  assert (G : wellShaped L names s /\ weighted L names w s = weighted L names w s0); [|apply G]. clear HS ES0. induction CO as [|s i pr x CO [IH1 IH2] Ei Hx HC]; [auto|]. pose proof (zget_In _ _ _ Ei) as Hpr. split; [apply shaped_happened; exact IH1|].
  rewrite (step_weighted L basis names ND WF WB w pr x s IH1 (AP pr Hpr) Hx HC), (PZ pr Hpr). lia.
Qed.
(** If no process raises it, it is never above its initial value. *)
Theorem C86_bounded w s : reportsNumbers names kc md s -> (forall pr, In pr prs -> weightedNet names w pr <= 0) -> weighted L names w s <= weighted L names w (particleNumbers names ns).
Proof using HR W RN.
  intros HS PZ. destruct ledger_facts as [WF WB], (run_facts S ranks hash a kc md L basis names ns kprs Rg HR W RN) as (s0 & FA & ES0 & AP). destruct (FA md RN s HS) as [_ CO]. pose proof ledger_start as SH0. rewrite <- ES0 in *.
  assert (G : wellShaped L names s /\ weighted L names w s <= weighted L names w s0); [|apply G]. clear HS ES0. induction CO as [|s i pr x CO [IH1 IH2] Ei Hx HC]; [split; [exact SH0|lia]|]. pose proof (zget_In _ _ _ Ei) as Hpr. split; [apply shaped_happened; exact IH1|].
  rewrite (step_weighted L basis names ND WF WB w pr x s IH1 (AP pr Hpr) Hx HC). specialize (PZ pr Hpr). lia.
Qed.
(** If every process uses some of it up, there are no more steps than there is of it at the start. *)
Theorem C86_ends w s t us vs md' t' rest : reportsNumbers names kc md s -> Forall (fun u => unitDeviate (fst u) /\ unitDeviate (snd u)) us -> (forall v, In v vs -> 0 <= v < 1)%R ->
  timedRun md (DFin t) us vs = Some (md', t', rest) -> (forall ty, 0 <= w ty) -> (forall pr, In pr prs -> weightedNet names w pr < 0) -> zlen us <= weighted L names w s.
Proof using HR W RN.
  intros HS HU HV H PW PN. destruct (C73_history S ranks hash a kc md L basis names ns kprs Rg HR W RN s t us vs md' t' rest HS HU HV H) as (es & s' & T & HI & RP & _ & [EV _] & _).
  destruct ledger_facts as [WF WB], (run_facts S ranks hash a kc md L basis names ns kprs Rg HR W RN) as (s0 & FA & _ & AP). destruct (FA md RN s HS) as [SH _]. pose proof (history_weighted L basis names ND WF WB prs AP w _ _ _ _ _ HI SH) as E. rewrite <- EV.
  assert (P : 0 <= weighted L names w s').
  { apply zsum_nonneg. intros z Hz. apply in_map_iff in Hz. destruct Hz as (ty & <- & _). apply Z.mul_nonneg_nonneg; [apply PW|]. apply zsum_nonneg. intros z Hz. apply in_map_iff in Hz. destruct Hz as (y & <- & _).
    destruct RP as (q & _ & ->). unfold numberAt, numbersOf. rewrite zget_map. destruct (zget q y) as [v|]; cbn [option_map]; [|lia]. destruct (find _ _) as [[u n]|] eqn:F; [|lia]. apply find_some in F. destruct F as [F _]. apply in_combine_r in F. apply in_map_iff in F. destruct F as (u' & <- & _). apply zlen_nonneg. }
  assert (Q : zsum (map (wgain names prs w) es) <= - zlen es).
  { apply history_numbers in HI. clear - HI PN. induction HI as [|e es He F IH]; [cbn; lia|]. cbn [map]. rewrite PBase.zsum_cons, zlen_cons. unfold wgain at 1. destruct (zget_lt prs _ He) as [pr Ep]. rewrite Ep. specialize (PN pr (zget_In _ _ _ Ep)). lia. }
  lia.
Qed.
End Run.

(** ** A concrete case: in the ring of three sites of TReverse.v all sites are occupied.  Particles are desorbed (rate 5), or two neighbours react and leave (rate 2). *)
Definition x86Types : list string := ["A"; "A"; "A"].
Definition x86Procs : list anyArgs := [ PlainArgs (pyPlain [czero] ["A"] ["B"] 0 5); PlainArgs (pyPlain [czero; mkC 10 0 0] ["A"; "A"] ["B"; "B"] 0 2) ].
Definition x86Kprs : list (Z * cproc) := [ x82proc 5 [czero] ["A"] ["B"]; x82proc 2 [czero; mkC 10 0 0] ["A"; "A"] ["B"; "B"] ].
Definition x86Args : mixedArgs := mkMA (pyCoords [mkC 20 0 0; mkC 0 20 0; mkC 0 0 30]) (pyCoords [czero]) (VTuple [VInt 3; VInt 1; VInt 1]) (VTuple [VBool true; VBool false; VBool false])
  (VList (map VStr x86Types)) VNone (VList [VStr "B"; VStr "A"]) x86Procs (VBool true) None.
Definition x86try : bool := match mixedScript 10 x86Args with Ok (kl, kc, ki) => match KMCLatticeModel 10 2 xhash kl kc ki with Ok (Some _) => true | _ => false end | _ => false end.
Lemma x86try_ok : x86try = true. Proof. vm_compute. reflexivity. Qed.
Lemma x86_posed : mixedPosed 10 xhash x86Args x82L [czero] abNames (oneEachSite x86Types) x86Kprs 1.
Proof.
  assert (WF : wf_lattice x82L) by (apply wf_latticeb_sound; vm_compute; reflexivity). assert (WB : wf_basis x82L [czero]) by (apply wf_basisb_sound; vm_compute; reflexivity).
  constructor; cbn [x86Args ma_repetitions ma_periodic ma_points ma_types ma_default ma_possible ma_processes ma_wildcards ma_calculator].
  - lia.
  - exists 3, 1, 1, true, false, false. split; [split; [lia|]; split; [lia|]; split; [lia|]; right; do 3 eexists; repeat (split; [reflexivity|]); reflexivity|]. split; [right; reflexivity|reflexivity].
  - apply pyCoords_reads.
  - apply WB.
  - left. exists x86Types. split; [split; [vm_compute; reflexivity|left; split; reflexivity]|]. split; [reflexivity|]. intros k pr [E|[E|[]]]; injection E as <- <-; eexists; reflexivity.
  - intros given H. assert (E : given = ["B"; "A"]) by (apply TPyChain.strs_inj; injection H as H; symmetry; exact H). subst given. repeat (constructor; [cbn; intuition discriminate|]). constructor.
  - split; [repeat (constructor; [cbn; intuition discriminate|]); constructor|]. intros t. unfold usable. cbn. intuition congruence.
  - right. reflexivity.
  - unfold x86Procs, x86Kprs, x82proc. repeat (constructor; [apply pyPlain_describes; cbn [fst]; try lia; intros t; cbn; intuition|]). constructor.
  - intros k pr [E|[E|[]]]; injection E as <- <-; (split; [apply placedb_sound; vm_compute; reflexivity|]; split; [apply thriftyb_sound; vm_compute; reflexivity|apply leavesb_sound; vm_compute; reflexivity]).
  - apply uniformb_sound. vm_compute. reflexivity.
  - intros b _. change 10 with (lt_unit x82L). apply clean_of_size; auto. vm_compute. discriminate.
  - apply fromConstants. constructor.
    + intros k pr x s [E|[E|[]]]; injection E as <- <-; reflexivity.
    + split; [lia|]. intros k pr c Hin Hc. assert (C : forallb (fun kpr => forallb (fun c => (Z.abs (cx c) <=? 10) && (Z.abs (cy c) <=? 10) && (Z.abs (cz c) <=? 10)) (positions (cp_spec (snd kpr)))) x86Kprs = true) by (vm_compute; reflexivity).
      rewrite forallb_forall in C. specialize (C (k, pr) Hin). rewrite forallb_forall in C. specialize (C c Hc). lia.
Qed.
Strategy expand [x86try].
(** how much a particle counts: A once, B not at all; or both once *)
Definition onlyA (t : string) : Z := if String.eqb t "A" then 1 else 0.
Definition bothAB (t : string) : Z := if String.eqb t "*" then 0 else 1.
(** The script is accepted.  However long it has run there are three particles A or B in all; no run is longer than three steps; and after a run the number of A is the number before, less one for every desorption, less two for every reaction. *)
Example C86_example : exists kl kc ki md, mixedScript 10 x86Args = Ok (kl, kc, ki) /\ KMCLatticeModel 10 2 xhash kl kc ki = Ok (Some md) /\
  (forall md' s, mixedRun 10 2 xhash x86Args kc md' -> reportsNumbers abNames kc md' s -> weighted x82L abNames bothAB s = 3 /\ weighted x82L abNames onlyA s <= 3) /\
  (forall us vs md' t' rest, Forall (fun u => unitDeviate (fst u) /\ unitDeviate (snd u)) us -> (forall v, In v vs -> 0 <= v < 1)%R -> timedRun md (DFin 0) us vs = Some (md', t', rest) -> zlen us <= 3 /\
     exists es s', eventsOf md us es /\ reportsNumbers abNames kc md' s' /\ totalOf x82L abNames s' "A" = 3 - timesOf es 0 - 2 * timesOf es 1).
Proof.
  assert (M := x86try_ok). unfold x86try in M. destruct (mixedScript 10 x86Args) as [[[kl kc] ki]|] eqn:E1; [|discriminate]. destruct (KMCLatticeModel 10 2 xhash kl kc ki) as [[md|]|] eqn:E2; try discriminate. clear M.
  assert (RN : mixedRun 10 2 xhash x86Args kc md) by (exists kl, ki, md, []; auto). exists kl, kc, ki, md. split; [reflexivity|]. split; [exact E2|].
  destruct (C73_start 10 2 xhash x86Args kl kc ki x82L [czero] abNames (oneEachSite x86Types) x86Kprs 1 ltac:(lia) E1 x86_posed) as (md0 & E0 & RP). assert (md0 = md) by congruence. subst md0. split.
  - intros md' s RN' HS. split.
    + rewrite (C86_conserved 10 2 xhash x86Args kc md' x82L [czero] abNames (oneEachSite x86Types) x86Kprs 1 ltac:(lia) x86_posed RN' bothAB s HS); [vm_compute; reflexivity|]. intros pr [<-|[<-|[]]]; vm_compute; reflexivity.
    + pose proof (C86_bounded 10 2 xhash x86Args kc md' x82L [czero] abNames (oneEachSite x86Types) x86Kprs 1 ltac:(lia) x86_posed RN' onlyA s HS) as B. change (weighted x82L abNames onlyA (particleNumbers abNames (oneEachSite x86Types))) with 3 in B. apply B. intros pr [<-|[<-|[]]]; vm_compute; discriminate.
  - intros us vs md' t' rest HU HV H. split.
    + change 3 with (weighted x82L abNames onlyA (particleNumbers abNames (oneEachSite x86Types))). eapply (C86_ends 10 2 xhash x86Args kc md x82L [czero] abNames (oneEachSite x86Types) x86Kprs 1 ltac:(lia) x86_posed RN onlyA); eauto.
      * intros ty. unfold onlyA. destruct (String.eqb ty "A"); lia.
      * intros pr [<-|[<-|[]]]; vm_compute; reflexivity.
    + destruct (C86_ledger 10 2 xhash x86Args kc md x82L [czero] abNames (oneEachSite x86Types) x86Kprs 1 ltac:(lia) x86_posed RN _ 0%R us vs md' t' rest RP HU HV H) as (es & s' & EV & RP' & G). exists es, s'. split; [exact EV|]. split; [exact RP'|].
      rewrite (G "A") by (vm_compute; tauto). change (totalOf x82L abNames (particleNumbers abNames (oneEachSite x86Types)) "A") with 3. change (numbered (map snd x86Kprs)) with [(0, snd (x82proc 5 [czero] ["A"] ["B"])); (1, snd (x82proc 2 [czero; mkC 10 0 0] ["A"; "A"] ["B"; "B"]))].
      cbn [map fst snd]. rewrite !PBase.zsum_cons. change (netOf (snd (x82proc 5 [czero] ["A"] ["B"])) "A") with (-1). change (netOf (snd (x82proc 2 [czero; mkC 10 0 0] ["A"; "A"] ["B"; "B"])) "A") with (-2). change (zsum []) with 0. lia.
Qed.

Print Assumptions C86_net.
Print Assumptions C86_ledger.
Print Assumptions C86_conserved.
Print Assumptions C86_bounded.
Print Assumptions C86_ends.
Print Assumptions C86_example.
