(** C90: the order in which the processes are given makes no difference.  C91: the unit of time makes no difference. *)
From Coq Require Import Reals Lra.
From Verif Require Import PBase SModel SNoUB SPyChain2 MTimer PIdeal PChain PChain2 PNear PPick PPyChain PPyChain2 PPyChain3 PPyChain5 PPyProcess TPyLattice TPyBucket TPyChain TTimer TPyChain2 TIdeal TChain PReverse TPyProcess TPossible XSystems XRows XCheck TReverse TLaw PRecast.
From Verif Require Export SRecast.
From Coq Require Import ZifyBool.
Open Scope string_scope.
Open Scope list_scope.
Open Scope Z_scope.

Lemma after_reordered L basis names f kprs kprs' es : reordered f kprs kprs' -> Forall (fun e : Z * Z * R => 0 <= fst (fst e) < zlen kprs) es ->
  forall s, stateAfter L basis names kprs' s (renumbered f es) = stateAfter L basis names kprs s es.
Proof.
  intros RO. apply (reordered_map f snd) in RO. induction es as [|[[i x] w] es IH]; intros PE s; [reflexivity|]. inversion PE as [|? ? Hi PE']; subst. cbn [fst] in Hi. cbn [renumbered map fst snd stateAfter].
  destruct (zget_lt (map snd kprs) i) as [pr Ei]; [rewrite zlen_map; lia|]. rewrite Ei. destruct RO as (_ & _ & HG). rewrite (HG _ _ Ei). apply IH. exact PE'.
Qed.
Lemma after_rescaled L basis names m n kprs kprs' es : rescaled m n (map snd kprs) (map snd kprs') ->
  forall s, stateAfter L basis names kprs' s (retimed m n es) = stateAfter L basis names kprs s es.
Proof.
  intros RS. induction es as [|[[i x] w] es IH]; intros s; [reflexivity|]. cbn [retimed map fst snd stateAfter].
  destruct (zget (map snd kprs) i) as [pr|] eqn:Ei; [|rewrite (rescaled_none m n _ _ i RS Ei); reflexivity].
  destruct (rescaled_get m n _ _ i pr RS Ei) as (pr' & -> & _ & E2 & _). rewrite (happened_same L basis names pr pr' x s E2). apply IH.
Qed.

(** ** Two scripts whose lattices and types are the same *)
Section Two.
Context (S ranks ranks' : Z) (hash hash' : list Z -> Z) (a a' : mixedArgs) (kc kc' : kconf) (md md' : model) (L : lattice) (basis : list coord) (names : list string) (ns ns' : particles)
  (kprs kprs' : list (Z * cproc)) (Rg Rg' : Z).
Context (HR : 1 <= ranks) (HR' : 1 <= ranks') (W : mixedPosed S hash a L basis names ns kprs Rg) (RN : mixedRun S ranks hash a kc md).
Context (W' : mixedPosed S hash' a' L basis names ns' kprs' Rg') (RN' : mixedRun S ranks' hash' a' kc' md').
Lemma two_rates s : reportsNumbers names kc md s -> reportsNumbers names kc' md' s -> totalRate (md_in md) = Some (allRates L basis names (map snd kprs) s) /\ totalRate (md_in md') = Some (allRates L basis names (map snd kprs') s).
Proof using HR HR' W RN W' RN'.
  intros HS HS'. destruct (C73_total S ranks hash a kc md L basis names ns kprs Rg HR W RN) as (s0 & HS0 & E & _). rewrite (reports_unique _ _ _ _ _ HS0 HS) in E.
  destruct (C73_total S ranks' hash' a' kc' md' L basis names ns' kprs' Rg' HR' W' RN') as (s1 & HS1 & E' & _). rewrite (reports_unique _ _ _ _ _ HS1 HS') in E'. auto.
Qed.
Lemma two_laws s es es' : reportsNumbers names kc md s -> reportsNumbers names kc' md' s -> properEvents L es -> properEvents L es' ->
  pathLaw L basis names (map snd kprs') s es' = pathLaw L basis names (map snd kprs) s es ->
  exists bs bs', Forall properBox bs /\ Forall properBox bs' /\ zlen bs = zlen es /\ zlen bs' = zlen es' /\ boxesVolume bs' = boxesVolume bs /\
    forall t us vs, properNumbers us vs -> (makes md t us vs es <-> inBoxes bs us vs) /\ (makes md' t us vs es' <-> inBoxes bs' us vs).
Proof using HR HR' W RN W' RN'.
  intros HS HS' PE PE' EL. destruct (C81_law S ranks hash a kc md L basis names ns kprs Rg HR W RN s es HS PE) as (bs & B1 & B2 & B3 & B4).
  destruct (C81_law S ranks' hash' a' kc' md' L basis names ns' kprs' Rg' HR' W' RN' s es' HS' PE') as (bs' & B1' & B2' & B3' & B4').
  exists bs, bs'. split; [exact B1|]. split; [exact B1'|]. split; [exact B2|]. split; [exact B2'|]. split; [rewrite B3, B3'; exact EL|].
  intros t us vs PN. split; [apply B4; exact PN|apply B4'; exact PN].
Qed.
Lemma two_after s es es' t us vs us' vs' : reportsNumbers names kc md s -> reportsNumbers names kc' md' s -> stateAfter L basis names kprs' s es' = stateAfter L basis names kprs s es ->
  properNumbers us vs -> properNumbers us' vs' -> makes md t us vs es -> makes md' t us' vs' es' ->
  exists md1 T1 md1' T1' s1, timedRun md (DFin t) us vs = Some (md1, DFin T1, []) /\ timedRun md' (DFin t) us' vs' = Some (md1', DFin T1', []) /\
    reportsNumbers names kc md1 s1 /\ reportsNumbers names kc' md1' s1.
Proof using HR HR' W RN W' RN'.
  intros HS HS' EA PN PN' M M'. destruct (C81_run S ranks hash a kc md L basis names ns kprs Rg HR W RN s es t us vs HS PN M) as (md1 & T1 & A1 & _ & _ & _ & A2).
  destruct (C81_run S ranks' hash' a' kc' md' L basis names ns' kprs' Rg' HR' W' RN' s es' t us' vs' HS' PN' M') as (md1' & T1' & B1 & _ & _ & _ & B2).
  do 5 eexists. split; [exact A1|]. split; [exact B1|]. split; [exact A2|]. rewrite <- EA. exact B2.
Qed.

(** ** Another order of the processes *)
(** In the second script the process that is number i in the first is number f i.  When types() shows the same numbers of particles in both runs they have the same total rate ... *)
Theorem C90_rate f s : reordered f kprs kprs' -> reportsNumbers names kc md s -> reportsNumbers names kc' md' s -> totalRate (md_in md') = totalRate (md_in md).
Proof using HR HR' W RN W' RN'.
  intros RO HS HS'. destruct (two_rates s HS HS') as [-> ->]. f_equal. apply (reordered_rates L basis names f). apply reordered_map. exact RO.
Qed.
(** ... and go on with the same events of the same processes, and waiting times, with the same probability: the random numbers with which they do so are those of boxes of the same volume. *)
Theorem C90_law f s es : reordered f kprs kprs' -> reportsNumbers names kc md s -> reportsNumbers names kc' md' s -> properEvents L es -> Forall (fun e => 0 <= fst (fst e) < zlen kprs) es ->
  exists bs bs', Forall properBox bs /\ Forall properBox bs' /\ zlen bs = zlen es /\ zlen bs' = zlen es /\ boxesVolume bs' = boxesVolume bs /\
    forall t us vs, properNumbers us vs -> (makes md t us vs es <-> inBoxes bs us vs) /\ (makes md' t us vs (renumbered f es) <-> inBoxes bs' us vs).
Proof using HR HR' W RN W' RN'.
  intros RO HS HS' PE PI. assert (PE' : properEvents L (renumbered f es)) by (unfold properEvents, renumbered in *; rewrite Forall_map; exact PE).
  assert (EN : zlen (renumbered f es) = zlen es) by apply zlen_map. destruct (two_laws s es (renumbered f es) HS HS' PE PE') as (bs & bs' & B1 & B2 & B3 & B4 & B5 & B6); [|exists bs, bs'; rewrite EN in B4; auto 10].
  apply reordered_law; [apply reordered_map; exact RO|]. rewrite zlen_map. exact PI.
Qed.
(** After such events types() shows the same in both. *)
Theorem C90_after f s es t us vs us' vs' : reordered f kprs kprs' -> reportsNumbers names kc md s -> reportsNumbers names kc' md' s -> Forall (fun e => 0 <= fst (fst e) < zlen kprs) es ->
  properNumbers us vs -> properNumbers us' vs' -> makes md t us vs es -> makes md' t us' vs' (renumbered f es) ->
  exists md1 T1 md1' T1' s1, timedRun md (DFin t) us vs = Some (md1, DFin T1, []) /\ timedRun md' (DFin t) us' vs' = Some (md1', DFin T1', []) /\
    reportsNumbers names kc md1 s1 /\ reportsNumbers names kc' md1' s1.
Proof using HR HR' W RN W' RN'. intros RO HS HS' PI. apply two_after with s; auto. apply after_reordered; assumption. Qed.

(** ** Another unit of time *)
(** All rates of the second script are those of the first multiplied by m / n.  Then so is the total rate ... *)
Theorem C91_rate m n s : rescaled m n (map snd kprs) (map snd kprs') -> reportsNumbers names kc md s -> reportsNumbers names kc' md' s ->
  exists r r', totalRate (md_in md) = Some r /\ totalRate (md_in md') = Some r' /\ n * r' = m * r.
Proof using HR HR' W RN W' RN'.
  intros RS HS HS'. destruct (two_rates s HS HS') as [-> ->]. do 2 eexists. split; [reflexivity|]. split; [reflexivity|]. apply rescaled_rates. exact RS.
Qed.
(** ... and the same events have the same probability with waiting times multiplied by n / m ... *)
Theorem C91_law m n s es : 0 < m -> 0 < n -> rescaled m n (map snd kprs) (map snd kprs') -> reportsNumbers names kc md s -> reportsNumbers names kc' md' s -> properEvents L es ->
  exists bs bs', Forall properBox bs /\ Forall properBox bs' /\ zlen bs = zlen es /\ zlen bs' = zlen es /\ boxesVolume bs' = boxesVolume bs /\
    forall t us vs, properNumbers us vs -> (makes md t us vs es <-> inBoxes bs us vs) /\ (makes md' t us vs (retimed m n es) <-> inBoxes bs' us vs).
Proof using HR HR' W RN W' RN'.
  intros Hm Hn RS HS HS' PE. assert (PE' : properEvents L (retimed m n es)).
  { unfold properEvents, retimed in *. rewrite Forall_map. eapply Forall_impl; [|exact PE]. intros e [H1 H2]. cbn [fst snd]. split; [exact H1|].
    assert (0 < IZR m)%R by (apply IZR_lt; exact Hm). assert (0 < IZR n)%R by (apply IZR_lt; exact Hn). unfold Rdiv. apply Rmult_le_pos; [apply Rmult_le_pos; lra|]. left. apply Rinv_0_lt_compat. lra. }
  assert (EN : zlen (retimed m n es) = zlen es) by apply zlen_map. destruct (two_laws s es (retimed m n es) HS HS' PE PE') as (bs & bs' & B1 & B2 & B3 & B4 & B5 & B6); [|exists bs, bs'; rewrite EN in B4; auto 10].
  apply rescaled_law; assumption.
Qed.
(** ... and lead to the same states. *)
Theorem C91_after m n s es t us vs us' vs' : rescaled m n (map snd kprs) (map snd kprs') -> reportsNumbers names kc md s -> reportsNumbers names kc' md' s ->
  properNumbers us vs -> properNumbers us' vs' -> makes md t us vs es -> makes md' t us' vs' (retimed m n es) ->
  exists md1 T1 md1' T1' s1, timedRun md (DFin t) us vs = Some (md1, DFin T1, []) /\ timedRun md' (DFin t) us' vs' = Some (md1', DFin T1', []) /\
    reportsNumbers names kc md1 s1 /\ reportsNumbers names kc' md1' s1.
Proof using HR HR' W RN W' RN'. intros RS HS HS'. apply two_after with s; auto. apply after_rescaled. exact RS. Qed.
End Two.
(** Rate constants that are multiplied give rates that are multiplied. *)
Theorem C91_constants S S' kprs kprs' Rg Rg' m n : constants S kprs Rg -> constants S' kprs' Rg' ->
  Forall2 (fun kpr kpr' => n * fst kpr' = m * fst kpr /\ cp_basis (snd kpr') = cp_basis (snd kpr) /\ cp_spec (snd kpr') = cp_spec (snd kpr)) kprs kprs' -> rescaled m n (map snd kprs) (map snd kprs').
Proof.
  intros C C' H. assert (G : forall l l', Forall2 (fun kpr kpr' : Z * cproc => n * fst kpr' = m * fst kpr /\ cp_basis (snd kpr') = cp_basis (snd kpr) /\ cp_spec (snd kpr') = cp_spec (snd kpr)) l l' ->
    incl l kprs -> incl l' kprs' -> rescaled m n (map snd l) (map snd l')).
  { induction 1 as [|[k pr] [k' pr'] l l' (E & E1 & E2) F IH]; intros I I'; [constructor|]. cbn [map snd fst] in *. constructor.
    - split; [exact E1|]. split; [exact E2|]. intros x s. rewrite (co_rates _ _ _ C k pr x s), (co_rates _ _ _ C' k' pr' x s); [exact E|apply I'; left; reflexivity|apply I; left; reflexivity].
    - apply IH; intros y Hy; [apply I|apply I']; right; exact Hy. }
  apply (G kprs kprs' H); apply incl_refl.
Qed.

(** ** Concrete cases: the ring of TReverse.v with its processes in the opposite order, and with all rate constants multiplied by 3/2 (from a script where they are doubled) *)
Definition x90Args (procs : list anyArgs) : mixedArgs := mkMA (pyCoords [mkC 20 0 0; mkC 0 20 0; mkC 0 0 30]) (pyCoords [czero]) (VTuple [VInt 3; VInt 1; VInt 1]) (VTuple [VBool true; VBool false; VBool false])
  (VList (map VStr x82Types)) VNone (VList [VStr "B"; VStr "A"]) procs (VBool true) None.
Definition x90try (procs : list anyArgs) : bool := match mixedScript 10 (x90Args procs) with Ok (kl, kc, ki) => match KMCLatticeModel 10 2 xhash kl kc ki with Ok (Some _) => true | _ => false end | _ => false end.
Definition x91Procs (c : Z) : list anyArgs := [ PlainArgs (pyPlain [czero] ["B"] ["A"] 0 (c * 3)); PlainArgs (pyPlain [czero] ["A"] ["B"] 0 (c * 5));
  PlainArgs (pyPlain [czero; mkC 10 0 0] ["A"; "B"] ["B"; "A"] 0 (c * 4)); PlainArgs (pyPlain [czero; mkC 10 0 0] ["B"; "A"] ["A"; "B"] 0 (c * 4)) ].
Definition x91Kprs (c : Z) : list (Z * cproc) := [ x82proc (c * 3) [czero] ["B"] ["A"]; x82proc (c * 5) [czero] ["A"] ["B"]; x82proc (c * 4) [czero; mkC 10 0 0] ["A"; "B"] ["B"; "A"]; x82proc (c * 4) [czero; mkC 10 0 0] ["B"; "A"] ["A"; "B"] ].
Lemma x90_posed : mixedPosed 10 xhash (x90Args (rev x82Procs)) x82L [czero] abNames (oneEachSite x82Types) (rev x82Kprs) 1.
Proof.
  pose proof x82_posed as P. assert (IN : forall kpr, In kpr (rev x82Kprs) -> In kpr x82Kprs) by (intros kpr H; apply in_rev; exact H). constructor; try apply P.
  - pose proof (mp_types _ _ _ _ _ _ _ _ _ P) as [(s & T1 & T2 & T3)|T]; [left; exists s; split; [exact T1|]; split; [exact T2|]; intros k pr Hin; apply (T3 k pr), IN, Hin|right; exact T].
  - change (rev x82Procs) with (rev (ma_processes x82Args)). cbn [ma_processes x90Args]. assert (F := mp_processes _ _ _ _ _ _ _ _ _ P). clear P IN. revert F. generalize (ma_processes x82Args) as l, x82Kprs as l'. intros l l' F. induction F; [constructor|]. cbn [rev]. apply Forall2_app; [assumption|]. constructor; [assumption|constructor].
  - intros k pr Hin. apply (mp_proper _ _ _ _ _ _ _ _ _ P k pr), IN, Hin.
  - apply fromConstants. pose proof (mp_rates _ _ _ _ _ _ _ _ _ P) as C. inversion C as [C0|]. constructor.
    + intros k pr x s Hin. apply (co_rates _ _ _ C0), IN, Hin.
    + split; [apply (co_reach _ _ _ C0)|]. intros k pr c Hin. apply (proj2 (co_reach _ _ _ C0) k pr c), IN, Hin.
Qed.
Lemma x91_like c k pr : In (k, pr) (x91Kprs c) -> exists k0 pr0, In (k0, pr0) x82Kprs /\ k = c * k0 /\ cp_basis pr = cp_basis pr0 /\ cp_spec pr = cp_spec pr0 /\ forall x s, cp_rate pr x s = k.
Proof.
  intros [E|[E|[E|[E|[]]]]]; injection E as <- <-.
  - exists 3. eexists. split; [left; reflexivity|auto].
  - exists 5. eexists. split; [right; left; reflexivity|auto].
  - exists 4. eexists. split; [right; right; left; reflexivity|auto].
  - exists 4. eexists. split; [right; right; right; left; reflexivity|auto].
Qed.
Lemma x91_posed c : 0 <= c -> mixedPosed 10 xhash (x90Args (x91Procs c)) x82L [czero] abNames (oneEachSite x82Types) (x91Kprs c) 1.
Proof.
  intros Hc. pose proof x82_posed as P. constructor; try apply P.
  - left. exists x82Types. split; [split; [vm_compute; reflexivity|left; split; reflexivity]|]. split; [reflexivity|]. intros k pr [E|[E|[E|[E|[]]]]]; injection E as <- <-; eexists; reflexivity.
  - cbn [x90Args ma_processes]. unfold x91Procs, x91Kprs, x82proc. repeat (constructor; [apply pyPlain_describes; cbn [fst]; try lia; intros t; cbn; intuition|]). constructor.
  - intros k pr Hin. destruct (x91_like c k pr Hin) as (k0 & pr0 & Hin0 & _ & -> & -> & _). apply (mp_proper _ _ _ _ _ _ _ _ _ P k0 pr0 Hin0).
  - apply fromConstants. pose proof (mp_rates _ _ _ _ _ _ _ _ _ P) as C. inversion C as [C0|]. constructor.
    + intros k pr x s Hin. destruct (x91_like c k pr Hin) as (_ & _ & _ & _ & _ & _ & E). apply E.
    + split; [apply (co_reach _ _ _ C0)|]. intros k pr v Hin. destruct (x91_like c k pr Hin) as (k0 & pr0 & Hin0 & _ & _ & -> & _). apply (proj2 (co_reach _ _ _ C0) k0 pr0 v Hin0).
Qed.
Lemma x90try_ok : x90try (rev x82Procs) = true. Proof. vm_compute. reflexivity. Qed.
Lemma x91try_ok c : c = 2 \/ c = 3 -> x90try (x91Procs c) = true. Proof. intros [-> | ->]; vm_compute; reflexivity. Qed.
Strategy expand [x90try].
Lemma x90_runs procs : x90try procs = true -> exists kl kc ki md, mixedScript 10 (x90Args procs) = Ok (kl, kc, ki) /\ KMCLatticeModel 10 2 xhash kl kc ki = Ok (Some md).
Proof.
  intros M. unfold x90try in M. destruct (mixedScript 10 (x90Args procs)) as [[[kl kc] ki]|] eqn:E1; [|discriminate]. destruct (KMCLatticeModel 10 2 xhash kl kc ki) as [[md|]|] eqn:E2; try discriminate. exists kl, kc, ki, md. auto.
Qed.
(** The script and the one with the opposite order are accepted; the particle hops from site 0 to site 1 (process 2 of 0, 1, 2, 3; process 1 in the other order) with the same probability. *)
Example C90_example w : (0 <= w)%R -> exists kl kc ki md kl' kc' ki' md', mixedScript 10 (x90Args x82Procs) = Ok (kl, kc, ki) /\ KMCLatticeModel 10 2 xhash kl kc ki = Ok (Some md) /\
  mixedScript 10 (x90Args (rev x82Procs)) = Ok (kl', kc', ki') /\ KMCLatticeModel 10 2 xhash kl' kc' ki' = Ok (Some md') /\
  exists bs bs', boxesVolume bs' = boxesVolume bs /\ forall t us vs, properNumbers us vs -> (makes md t us vs [((2, 0), w)] <-> inBoxes bs us vs) /\ (makes md' t us vs [((1, 0), w)] <-> inBoxes bs' us vs).
Proof.
  intros Hw. assert (M := x82try_ok). change (x90try x82Procs = true) in M. apply x90_runs in M. destruct M as (kl & kc & ki & md & E1 & E2). destruct (x90_runs _ x90try_ok) as (kl' & kc' & ki' & md' & E1' & E2').
  assert (RN : mixedRun 10 2 xhash x82Args kc md) by (exists kl, ki, md, []; auto). assert (RN' : mixedRun 10 2 xhash (x90Args (rev x82Procs)) kc' md') by (exists kl', ki', md', []; auto).
  destruct (C73_start 10 2 xhash x82Args kl kc ki x82L [czero] abNames (oneEachSite x82Types) x82Kprs 1 ltac:(lia) E1 x82_posed) as (md0 & E0 & RP). assert (md0 = md) by congruence. subst md0.
  destruct (C73_start 10 2 xhash _ kl' kc' ki' x82L [czero] abNames (oneEachSite x82Types) _ 1 ltac:(lia) E1' x90_posed) as (md0' & E0' & RP'). assert (md0' = md') by congruence. subst md0'.
  exists kl, kc, ki, md, kl', kc', ki', md'. repeat (split; [assumption|]).
  assert (RO : reordered (fun i => 3 - i) x82Kprs (rev x82Kprs)).
  { split; [reflexivity|]. split; [intros; lia|]. intros i kpr Ei. pose proof (zget_range _ _ _ Ei) as Hr. change (zlen x82Kprs) with 4 in Hr. assert (C : i = 0 \/ i = 1 \/ i = 2 \/ i = 3) by lia.
    destruct C as [-> |[-> |[-> | ->]]]; exact Ei. }
  destruct (C90_law 10 2 2 xhash xhash x82Args _ kc kc' md md' x82L [czero] abNames _ _ x82Kprs _ 1 1 ltac:(lia) ltac:(lia) x82_posed RN x90_posed RN' (fun i => 3 - i) _ [((2, 0), w)] RO RP RP') as (bs & bs' & _ & _ & _ & _ & V & B).
  { constructor; [split; [vm_compute; tauto|exact Hw]|constructor]. }
  { constructor; [cbn [fst]; change (zlen x82Kprs) with 4; lia|constructor]. }
  exists bs, bs'. split; [exact V|]. exact B.
Qed.
(** Doubled and tripled rates: total rates 38 and 57; a waiting time of more than w with the former is as probable as one of more than 2 w / 3 with the latter. *)
Example C91_example w : (0 <= w)%R -> exists kl kc ki md kl' kc' ki' md', mixedScript 10 (x90Args (x91Procs 2)) = Ok (kl, kc, ki) /\ KMCLatticeModel 10 2 xhash kl kc ki = Ok (Some md) /\
  mixedScript 10 (x90Args (x91Procs 3)) = Ok (kl', kc', ki') /\ KMCLatticeModel 10 2 xhash kl' kc' ki' = Ok (Some md') /\ totalRate (md_in md) = Some 38 /\ totalRate (md_in md') = Some 57 /\
  exists bs bs', boxesVolume bs' = boxesVolume bs /\ forall t us vs, properNumbers us vs -> (makes md t us vs [((2, 0), w)] <-> inBoxes bs us vs) /\ (makes md' t us vs [((2, 0), (w * 2 / 3)%R)] <-> inBoxes bs' us vs).
Proof.
  intros Hw. destruct (x90_runs _ (x91try_ok 2 ltac:(lia))) as (kl & kc & ki & md & E1 & E2). destruct (x90_runs _ (x91try_ok 3 ltac:(lia))) as (kl' & kc' & ki' & md' & E1' & E2').
  assert (RN : mixedRun 10 2 xhash (x90Args (x91Procs 2)) kc md) by (exists kl, ki, md, []; auto). assert (RN' : mixedRun 10 2 xhash (x90Args (x91Procs 3)) kc' md') by (exists kl', ki', md', []; auto).
  pose proof (x91_posed 2 ltac:(lia)) as P. pose proof (x91_posed 3 ltac:(lia)) as P'.
  destruct (C73_start 10 2 xhash _ kl kc ki x82L [czero] abNames (oneEachSite x82Types) _ 1 ltac:(lia) E1 P) as (md0 & E0 & RP). assert (md0 = md) by congruence. subst md0.
  destruct (C73_start 10 2 xhash _ kl' kc' ki' x82L [czero] abNames (oneEachSite x82Types) _ 1 ltac:(lia) E1' P') as (md0' & E0' & RP'). assert (md0' = md') by congruence. subst md0'.
  exists kl, kc, ki, md, kl', kc', ki', md'. repeat (split; [assumption|]).
  assert (RS : rescaled 3 2 (map snd (x91Kprs 2)) (map snd (x91Kprs 3))) by (repeat (constructor; [split; [reflexivity|]; split; [reflexivity|]; intros; reflexivity|]); constructor).
  destruct (two_rates 10 2 2 xhash xhash _ _ kc kc' md md' x82L [czero] abNames _ _ _ _ 1 1 ltac:(lia) ltac:(lia) P RN P' RN' _ RP RP') as [T T'].
  split; [rewrite T; vm_compute; reflexivity|]. split; [rewrite T'; vm_compute; reflexivity|].
  destruct (C91_law 10 2 2 xhash xhash _ _ kc kc' md md' x82L [czero] abNames _ _ _ _ 1 1 ltac:(lia) ltac:(lia) P RN P' RN' 3 2 _ [((2, 0), w)] ltac:(lia) ltac:(lia) RS RP RP') as (bs & bs' & _ & _ & _ & _ & V & B).
  { constructor; [split; [vm_compute; tauto|exact Hw]|constructor]. }
  exists bs, bs'. split; [exact V|]. exact B.
Qed.

Print Assumptions C90_rate.
Print Assumptions C90_law.
Print Assumptions C90_after.
Print Assumptions C91_rate.
Print Assumptions C91_law.
Print Assumptions C91_after.
Print Assumptions C91_constants.
Print Assumptions C90_example.
Print Assumptions C91_example.
