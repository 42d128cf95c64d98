(** C82: processes that undo one another: every event can be undone, the simulation can always return, and weights in detailed balance are kept. *)
From Coq Require Import Reals Lra.
From Verif Require Import PBase SModel SNoUB SPyChain2 MTimer PIdeal PChain PChain2 PNear PPick PPyChain PPyChain2 PPyChain3 PPyChain5 PPyProcess TPyLattice TPyBucket TPyChain TTimer TPyChain2 TIdeal TChain PReverse TPyProcess TPossible XSystems XRows XCheck.
From Verif Require Export SReverse.
From Coq Require Import ZifyBool.
Open Scope string_scope.
Open Scope list_scope.
Open Scope Z_scope.

(** ** Which processes undo one another *)
Lemma numberRow_undoes names c b a v b' a' v' : b' = a -> a' = b -> (b = "*" <-> a = "*") -> undoesRow names (numberRow (mkRow c b a v)) (numberRow (mkRow c b' a' v')).
Proof.
  intros -> -> W. unfold undoesRow, numberRow, anyRow. cbn [br_c br_before br_upd rw_c rw_before rw_after]. split; [reflexivity|]. unfold SBucket.howMany. cbn [filter].
  split.
  - destruct (String.eqb_spec "*" a) as [E|E], (String.eqb_spec "*" b) as [F|F]; try reflexivity; exfalso; [apply F|apply E]; symmetry; apply W; congruence.
  - intros _ t _. destruct (String.eqb_spec b a) as [->|N]; [rewrite String.eqb_refl; unfold change; cbn; lia|]. destruct (String.eqb_spec a b) as [E|_]; [congruence|].
    unfold change. cbn [tfind]. repeat match goal with |- context [String.eqb ?x ?y] => destruct (String.eqb_spec x y); try subst; try congruence end; unfold zlen; cbn [length]; lia.
Qed.
(** Two calls of KMCProcess with the same coordinates and basis points, in which elements_before and elements_after are exchanged and the wildcards are at the same places. *)
Theorem C82_exchanged names a a' k k' pr pr' before after : describesPlain names a k pr -> describesPlain names a' k' pr' ->
  pa_coordinates a' = pa_coordinates a -> pa_basis a' = pa_basis a -> readsNames (pa_before a) before -> readsNames (pa_after a) after -> readsNames (pa_before a') after -> readsNames (pa_after a') before ->
  (forall j, zget before j = Some "*" <-> zget after j = Some "*") -> undoes names pr pr'.
Proof.
  intros (cs & b & c & C1 & B1 & A1 & _ & _ & S1 & BA1 & _) (cs' & b' & c' & C2 & B2 & A2 & _ & _ & S2 & BA2 & _) EC EB RB RA RB' RA' W. rewrite EC in C2. rewrite EB in BA2.
  pose proof (readsCoords_fun _ _ _ C1 C2). subst cs'. apply readsBasis_ok in BA1, BA2. rewrite BA1 in BA2. injection BA2 as EBA.
  assert (F : forall v l m, readsNames v l -> readsNames v m -> l = m) by (unfold readsNames; intros v l m -> E; injection E as E; apply TPyChain.strs_inj; exact E).
  pose proof (F _ _ _ RB B1); pose proof (F _ _ _ RA A1); pose proof (F _ _ _ RB' B2); pose proof (F _ _ _ RA' A2). subst b c b' c'. clear F.
  split; [congruence|]. unfold cp_rows. rewrite S1, S2. cbn [numberRows]. unfold plainRows, rowsOf. rewrite !map_map. generalize (zrange 0 (zlen cs - 1)). generalize (hd czero cs) (zlen cs). clear - W. intros c0 n.
  revert before after W. induction cs as [|c cs IH]; intros before after W l; [constructor|]. destruct before as [|b before], after as [|a after]; [cbn [combine map]; constructor|cbn [combine map]; constructor|cbn [combine map]; constructor|]. destruct l as [|k l]; [constructor|].
  cbn [combine map]. constructor; [apply numberRow_undoes; try reflexivity; specialize (W 0); cbn in W; split; intros ->; [assert (Some a = Some "*") by (apply W; reflexivity)|assert (Some b = Some "*") by (apply W; reflexivity)]; congruence|].
  apply IH. intros j. destruct (Z_lt_dec j 0) as [|]; [rewrite !(proj2 (zget_None _ _)) by lia; split; discriminate|]. specialize (W (j + 1)). rewrite !zget_cons in W. destruct (Z.eqb_spec (j + 1) 0); [lia|]. replace (j + 1 - 1) with j in W by lia. exact W.
Qed.

(** ** A simulation *)
Section Run.
Context (S ranks : Z) (hash : list Z -> Z) (a : mixedArgs) (kc : kconf) (md : model) (L : lattice) (basis : list coord) (names : list string) (ns : particles) (kprs : list (Z * cproc)) (Rg : Z).
Context (HR : 1 <= ranks) (W : mixedPosed S hash a L basis names ns kprs Rg) (RN : mixedRun S ranks hash a kc md).
Let prs := map snd kprs.
Lemma run_facts : exists s0, (forall md', mixedRun S ranks hash a kc md' -> forall s, reportsNumbers names kc md' s -> wellShaped L names s /\ comesTo L basis names prs s0 s) /\
  s0 = particleNumbers names ns /\ forall pr, In pr prs -> apartC L basis (cp_spec pr).
Proof using HR W RN.
  exists (particleNumbers names ns). split; [|split; [reflexivity|]].
  - intros md' RN' s HS. destruct RN' as (kl & ki & md0 & us & E1 & E2 & E3). destruct (simulation_input2 ranks S hash a kl kc ki L basis names ns kprs Rg HR E1 W) as (cf & it & prs' & KL & WF & MI & SM & LK & NU & SH).
    assert (RN' : mixedRun S ranks hash a kc md') by (exists kl, ki, md0, us; auto).
    assert (RC : reachable ranks hash L cf it md'). { unfold KMCLatticeModel in E2. rewrite MI in E2. cbn [MPy.obind obind fst snd] in E2. rewrite KL in E2. injection E2 as E2. exists md0, us. auto. }
    assert (ES : s = shown names md').
    { assert (Q : exists vs, typesQuery kc (md_cf md') = Ok vs /\ numbersOf names vs = shown names md').
      { destruct SH as [[ts KT]|(s0 & KT & EN & EE & HP)]; [eapply query_buckets; eauto|]. eapply query_plain; [exact KT|]. eapply singles_kept; [apply SM|exact EE|exact HP|exact RC]. }
      destruct Q as (vs & Q1 & Q2), HS as (vs' & Q3 & ->). congruence. }
    assert (CO : comesTo L basis names prs' (numbersIn names cf) s) by (rewrite ES; eapply comes_reach; [apply SM|exact RC]). split.
    + destruct (shaped_comes _ _ _ _ _ _ _ (proj1 SM) s CO) as [A B]. split; [exact A|]. intros n Hn. apply In_zget in Hn. destruct Hn as [y Hy]. eapply B; eauto.
    + rewrite NU in CO. exact (comesTo_like _ _ _ _ _ _ _ LK CO).
  - destruct (run_input2 _ _ _ _ _ _ _ _ _ _ _ _ HR W RN) as (cf & it & prs' & SM & LK & _). apply LK.
Qed.
(** After an event of process i at x, the process j that undoes process i can happen at x, and leads back to the numbers of particles before the event. *)
Theorem C82_undone s s1 i j pr pr' x : reportsNumbers names kc md s -> zget prs i = Some pr -> zget prs j = Some pr' -> undoes names pr pr' -> chainStep L basis names prs s (i, x) s1 ->
  canHappen L basis names pr' x s1 = true /\ happened L basis names pr' x s1 = s.
Proof using HR W RN.
  intros HS Ei Ej U HST. inversion HST as [i0 pr0 x0 Ei0 Hx HP E1 E2]. subst i0 x0. assert (pr0 = pr) by congruence. subst pr0. destruct run_facts as (s0 & FA & _ & AP). destruct (FA md RN s HS) as [SH _].
  assert (HC : canHappen L basis names pr x s = true) by (unfold eventRate in HP; destruct (canHappen L basis names pr x s); [reflexivity|lia]).
  apply (undone L basis names (proj1 (mp_names _ _ _ _ _ _ _ _ _ W)) pr pr' x s SH (AP pr (zget_In _ _ _ Ei)) U HC).
Qed.
(** If every process is undone by another one and what can happen has a rate, then from wherever the run has come there are random numbers that lead it back to the initial numbers of particles. *)
Theorem C82_return back s t : reportsNumbers names kc md s -> reversible names prs back -> (forall pr x s', In pr prs -> canHappen L basis names pr x s' = true -> 0 < cp_rate pr x s') ->
  exists us vs md' T, Forall (fun u => unitDeviate (fst u) /\ unitDeviate (snd u)) us /\ Forall (fun v => 0 < v < 1)%R vs /\ timedRun md (DFin t) us vs = Some (md', DFin T, []) /\ reportsNumbers names kc md' (particleNumbers names ns).
Proof using HR W RN.
  intros HS RV PO. destruct run_facts as (s0 & FA & ES0 & AP). destruct (FA md RN s HS) as [_ CO]. assert (RN0 := RN). destruct RN0 as (kl & ki & md0 & us0 & E1 & E2 & E3).
  destruct (C73_start S ranks hash a kl kc ki L basis names ns kprs Rg HR E1 W) as (md0' & E2' & RP0). assert (md0' = md0) by congruence. subst md0'.
  destruct (FA md0 ltac:(exists kl, ki, md0, []; auto) _ RP0) as [SH0 _]. rewrite <- ES0 in SH0, RP0 |- *. clear ES0.
  assert (G : forall s, comesTo L basis names prs s0 s -> wellShaped L names s /\ forall t, exists es T, chainHistory L basis names prs s t es s0 T /\ Forall (fun v => 0 < v < 1)%R (map snd es)).
  { clear s CO HS t. induction 1 as [|s i pr x CO [IH1 IH2] Ei Hx HC]; [split; [exact SH0|]; intros t; exists [], t; split; constructor|]. split; [apply shaped_happened; exact IH1|]. intros t.
    destruct (RV i pr Ei) as (_ & pr' & Ej & U). destruct (undone L basis names (proj1 (mp_names _ _ _ _ _ _ _ _ _ W)) pr pr' x s IH1 (AP pr (zget_In _ _ _ Ei)) U HC) as [U1 U2].
    destruct (IH2 (t + - ln (1 / 2) / IZR (allRates L basis names prs (happened L basis names pr x s)))%R) as (es & T & HI & HV). exists (((back i, x), (1 / 2)%R) :: es), T. split; [|constructor; [cbn [snd]; lra|exact HV]].
    econstructor; [|lra|exact HI]. rewrite <- U2 at 2. econstructor; [exact Ej|exact Hx|]. unfold eventRate. rewrite U1. apply PO; [eapply zget_In; exact Ej|exact U1]. }
  destruct (proj2 (G s CO) t) as (es & T & HI & HV). destruct (C73_every_history S ranks hash a kc md L basis names ns kprs Rg HR W RN es s t s0 T HS HI) as (us & md' & A & B & C & _). exists us, (map snd es), md', T. auto.
Qed.
(** Weights in detailed balance make a distribution that the chain of the script keeps. *)
Theorem C82_stationary back states w : reversible names prs back -> NoDup states -> (forall s, In s states -> wellShaped L names s) -> closedUnder L basis names prs states ->
  detailedBalance L basis names prs back states w -> stationary L basis names prs states w.
Proof using HR W RN.
  intros RV N SH CL DB. destruct run_facts as (s0 & _ & _ & AP). exact (balance_stationary L basis names (proj1 (mp_names _ _ _ _ _ _ _ _ _ W)) prs AP back RV states w SH DB N CL).
Qed.
End Run.

(** ** A concrete case: particles A on three sites in a ring; they are adsorbed with rate 3, desorbed with rate 5, and hop to a neighbour and back with rate 4.  B stands for an empty site. *)
Definition x82L : lattice := mkLat 1 3 1 1 true false false 10.
Definition x82Types : list string := ["A"; "B"; "B"].
Definition x82Procs : list anyArgs := [ PlainArgs (pyPlain [czero] ["B"] ["A"] 0 3); PlainArgs (pyPlain [czero] ["A"] ["B"] 0 5);
  PlainArgs (pyPlain [czero; mkC 10 0 0] ["A"; "B"] ["B"; "A"] 0 4); PlainArgs (pyPlain [czero; mkC 10 0 0] ["B"; "A"] ["A"; "B"] 0 4) ].
Definition x82proc (k : Z) (cs : list coord) (before after : list string) : Z * cproc := (k, mkCP (fun _ _ => k) 0 (Plain (plainRows cs before after))).
Definition x82Kprs : list (Z * cproc) := [ x82proc 3 [czero] ["B"] ["A"]; x82proc 5 [czero] ["A"] ["B"]; x82proc 4 [czero; mkC 10 0 0] ["A"; "B"] ["B"; "A"]; x82proc 4 [czero; mkC 10 0 0] ["B"; "A"] ["A"; "B"] ].
Definition x82Args : mixedArgs := mkMA (pyCoords [mkC 20 0 0; mkC 0 20 0; mkC 0 0 30]) (pyCoords [czero]) (VTuple [VInt 3; VInt 1; VInt 1]) (VTuple [VBool true; VBool false; VBool false])
  (VList (map VStr x82Types)) VNone (VList [VStr "B"; VStr "A"]) x82Procs (VBool true) None.
Definition x82try : bool := match mixedScript 10 x82Args with Ok (kl, kc, ki) => match KMCLatticeModel 10 2 xhash kl kc ki with Ok (Some _) => true | _ => false end | _ => false end.
Lemma x82try_ok : x82try = true. Proof. vm_compute. reflexivity. Qed.
Lemma x82_posed : mixedPosed 10 xhash x82Args x82L [czero] abNames (oneEachSite x82Types) x82Kprs 1.
Proof.
  assert (WF : wf_lattice x82L) by (apply wf_latticeb_sound; vm_compute; reflexivity). assert (WB : wf_basis x82L [czero]) by (apply wf_basisb_sound; vm_compute; reflexivity).
  constructor; cbn [x82Args ma_repetitions ma_periodic ma_points ma_types ma_default ma_possible ma_processes ma_wildcards ma_calculator].
  - lia.
  - exists 3, 1, 1, true, false, false. split; [split; [lia|]; split; [lia|]; split; [lia|]; right; do 3 eexists; repeat (split; [reflexivity|]); reflexivity|]. split; [right; reflexivity|reflexivity].
  - apply pyCoords_reads.
  - apply WB.
  - left. exists x82Types. split; [split; [vm_compute; reflexivity|left; split; reflexivity]|]. split; [reflexivity|]. intros k pr [E|[E|[E|[E|[]]]]]; injection E as <- <-; eexists; reflexivity.
  - intros given H. assert (E : given = ["B"; "A"]) by (apply TPyChain.strs_inj; injection H as H; symmetry; exact H). subst given. repeat (constructor; [cbn; intuition discriminate|]). constructor.
  - split; [repeat (constructor; [cbn; intuition discriminate|]); constructor|]. intros t. unfold usable. cbn. intuition congruence.
  - right. reflexivity.
  - unfold x82Procs, x82Kprs, x82proc. repeat (constructor; [apply pyPlain_describes; cbn [fst]; try lia; intros t; cbn; intuition|]). constructor.
  - intros k pr [E|[E|[E|[E|[]]]]]; injection E as <- <-; (split; [apply placedb_sound; vm_compute; reflexivity|]; split; [apply thriftyb_sound; vm_compute; reflexivity|apply leavesb_sound; vm_compute; reflexivity]).
  - apply uniformb_sound. vm_compute. reflexivity.
  - intros b _. change 10 with (lt_unit x82L). apply clean_of_size; auto. vm_compute. discriminate.
  - apply fromConstants. constructor.
    + intros k pr x s [E|[E|[E|[E|[]]]]]; injection E as <- <-; reflexivity.
    + split; [lia|]. intros k pr c Hin Hc. assert (C : forallb (fun kpr => forallb (fun c => (Z.abs (cx c) <=? 10) && (Z.abs (cy c) <=? 10) && (Z.abs (cz c) <=? 10)) (positions (cp_spec (snd kpr)))) x82Kprs = true) by (vm_compute; reflexivity).
      rewrite forallb_forall in C. specialize (C (k, pr) Hin). rewrite forallb_forall in C. specialize (C c Hc). lia.
Qed.
Definition x82back (i : Z) : Z := if i =? 0 then 1 else if i =? 1 then 0 else if i =? 2 then 3 else if i =? 3 then 2 else i.
Lemma x82_reversible : reversible abNames (map snd x82Kprs) x82back.
Proof.
  assert (A : forall j (l : list string), ~ In "*" l -> zget l j = Some "*" <-> False) by (intros j l N; split; [intros E; apply N; eapply zget_In; exact E|tauto]).
  assert (D : forall cs b c k k', In b [["A"]; ["B"]; ["A"; "B"]; ["B"; "A"]] -> In c [["A"]; ["B"]; ["A"; "B"]; ["B"; "A"]] -> 0 <= k -> 0 <= k' -> undoes abNames (snd (x82proc k cs b c)) (snd (x82proc k' cs c b))).
  { intros cs b c k k' Hb Hc Hk Hk'. assert (IN : forall b, In b [["A"]; ["B"]; ["A"; "B"]; ["B"; "A"]] -> incl b abNames /\ ~ In "*" b) by (intros l [<-|[<-|[<-|[<-|[]]]]]; (split; [intros t; cbn; intuition|cbn; intuition discriminate])).
    destruct (IN b Hb) as [I1 N1], (IN c Hc) as [I2 N2].
    apply (C82_exchanged abNames (pyPlain cs b c 0 k) (pyPlain cs c b 0 k') k k' _ _ b c); try reflexivity; [apply pyPlain_describes; auto; lia|apply pyPlain_describes; auto; lia|]. intros j. rewrite !A by assumption. tauto. }
  intros i pr Ei. pose proof (zget_range _ _ _ Ei) as Hr. change (zlen (map snd x82Kprs)) with 4 in Hr. assert (C : i = 0 \/ i = 1 \/ i = 2 \/ i = 3) by lia.
  destruct C as [-> |[-> |[-> | ->]]]; (split; [reflexivity|]); injection Ei as <-; eexists; (split; [reflexivity|]); apply D; try lia; cbn; tauto.
Qed.
(** all states of the ring, and their weights: a factor 3 for every A, a factor 5 for every empty site *)
Definition x82States : list pstate := map (fun l => particleNumbers abNames (oneEachSite l)) (flat_map (fun a => flat_map (fun b => map (fun c => [a; b; c]) ["A"; "B"]) ["A"; "B"]) ["A"; "B"]).
Definition x82number (t : string) (s : pstate) : Z := zsum (map (fun y => numberAt abNames s y t) (sites x82L)).
Definition x82weight (s : pstate) : Z := 3 ^ x82number "A" s * 5 ^ x82number "B" s.
Definition x82ok : bool := forallb (fun s => (zlen s =? 3) && forallb (fun n => zlen n =? 3) s && forallb (fun i => match zget (map snd x82Kprs) i, zget (map snd x82Kprs) (x82back i) with
  | Some pr, Some pr' => forallb (fun x => negb (canHappen x82L [czero] abNames pr x s) || (let s1 := happened x82L [czero] abNames pr x s in existsb (sameNumbers s1) x82States && (x82weight s * cp_rate pr x s =? x82weight s1 * cp_rate pr' x s1))) (sites x82L)
  | _, _ => false end) [0; 1; 2; 3]) x82States.
Lemma x82ok_ok : x82ok = true. Proof. vm_compute. reflexivity. Qed.
Strategy expand [x82ok x82try].
Lemma x82_fact s : In s x82States -> wellShaped x82L abNames s /\ forall i pr pr' x, zget (map snd x82Kprs) i = Some pr -> zget (map snd x82Kprs) (x82back i) = Some pr' -> In x (sites x82L) -> canHappen x82L [czero] abNames pr x s = true ->
  In (happened x82L [czero] abNames pr x s) x82States /\ x82weight s * cp_rate pr x s = x82weight (happened x82L [czero] abNames pr x s) * cp_rate pr' x (happened x82L [czero] abNames pr x s).
Proof.
  intros Hs. assert (C := x82ok_ok). unfold x82ok in C. rewrite forallb_forall in C. specialize (C s Hs). apply andb_prop in C. destruct C as [C C3]. apply andb_prop in C. destruct C as [C1 C2]. apply Z.eqb_eq in C1. rewrite forallb_forall in C2, C3. split.
  - split; [exact C1|]. intros n Hn. apply C2 in Hn. apply Z.eqb_eq in Hn. exact Hn.
  - intros i pr pr' x Ei Ej Hx HC. pose proof (zget_range _ _ _ Ei) as Hr. change (zlen (map snd x82Kprs)) with 4 in Hr. specialize (C3 i ltac:(assert (D : i = 0 \/ i = 1 \/ i = 2 \/ i = 3) by lia; cbn; intuition)). rewrite Ei, Ej in C3. rewrite forallb_forall in C3. specialize (C3 x Hx). rewrite HC in C3. cbn [negb orb] in C3. cbv zeta in C3.
    apply andb_prop in C3. destruct C3 as [C4 C5]. apply existsb_exists in C4. destruct C4 as (s' & H' & E'). apply same_spec in E'. subst s'. apply Z.eqb_eq in C5. auto.
Qed.
(** The script is accepted.  From any state its run can return.  In the long run a state with n particles has the weight 3^n 5^(3-n). *)
Example C82_example : exists kl kc ki md, mixedScript 10 x82Args = Ok (kl, kc, ki) /\ KMCLatticeModel 10 2 xhash kl kc ki = Ok (Some md) /\
  (forall md', mixedRun 10 2 xhash x82Args kc md' -> exists us vs md'' T, timedRun md' (DFin 0) us vs = Some (md'', DFin T, []) /\ reportsNumbers abNames kc md'' (particleNumbers abNames (oneEachSite x82Types))) /\
  zlen x82States = 8 /\ In (particleNumbers abNames (oneEachSite x82Types)) x82States /\ stationary x82L [czero] abNames (map snd x82Kprs) x82States (fun s => IZR (x82weight s)).
Proof.
  assert (M := x82try_ok). unfold x82try in M. destruct (mixedScript 10 x82Args) as [[[kl kc] ki]|] eqn:E1; [|discriminate]. destruct (KMCLatticeModel 10 2 xhash kl kc ki) as [[md|]|] eqn:E2; try discriminate. clear M.
  assert (RN : mixedRun 10 2 xhash x82Args kc md) by (exists kl, ki, md, []; auto). exists kl, kc, ki, md. split; [reflexivity|]. split; [exact E2|]. split; [|split; [vm_compute; reflexivity|split; [vm_compute; tauto|]]].
  - intros md' RN'. destruct (C73_total 10 2 xhash x82Args kc md' x82L [czero] abNames (oneEachSite x82Types) x82Kprs 1 ltac:(lia) x82_posed RN') as (s & HS & _).
    destruct (C82_return 10 2 xhash x82Args kc md' x82L [czero] abNames (oneEachSite x82Types) x82Kprs 1 ltac:(lia) x82_posed RN' x82back s 0%R HS x82_reversible) as (us & vs & md'' & T & _ & _ & A & B); [|exists us, vs, md'', T; auto].
    intros pr x s' [<-|[<-|[<-|[<-|[]]]]] _; reflexivity.
  - apply (C82_stationary 10 2 xhash x82Args kc md x82L [czero] abNames (oneEachSite x82Types) x82Kprs 1 ltac:(lia) x82_posed RN x82back x82States _ x82_reversible).
    + apply (nodupb_sound sameNumbers); [intros s; apply same_spec; reflexivity|vm_compute; reflexivity].
    + intros s Hs. apply (x82_fact s Hs).
    + intros s i pr x Hs Ei Hx HC. destruct (x82_reversible i pr Ei) as (_ & pr' & Ej & _). apply (proj2 (x82_fact s Hs) i pr pr' x Ei Ej Hx HC).
    + intros s i pr pr' x Hs Ei Ej Hx HC. rewrite <- !mult_IZR. f_equal. apply (proj2 (x82_fact s Hs) i pr pr' x Ei Ej Hx HC).
Qed.

Print Assumptions C82_exchanged.
Print Assumptions C82_undone.
Print Assumptions C82_return.
Print Assumptions C82_stationary.
Print Assumptions C82_example.
