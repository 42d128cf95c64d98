(** C92: a process with rate zero is as good as no process. *)
From Coq Require Import Reals Lra.
From Verif Require Import PBase SModel SNoUB SPyChain2 MTimer PIdeal PChain PChain2 PNear PPick PPyChain PPyChain2 PPyChain3 PPyChain5 PPyProcess TPyLattice TPyBucket TPyChain TTimer TPyChain2 TIdeal TChain TEnd PReverse TPyProcess TPossible XSystems XRows XCheck TReverse PLaw TLaw PRecast TRecast.
From Verif Require Export SIdle.
From Coq Require Import ZifyBool.
Open Scope string_scope.
Open Scope list_scope.
Open Scope Z_scope.

Lemma idle_event L basis names pr x s : idle pr -> eventRate L basis names pr x s = 0.
Proof. intros H. unfold eventRate. rewrite (H x s). destruct (canHappen _ _ _ _ _ _); reflexivity. Qed.
Lemma idle_rates L basis names prs more s : Forall idle more -> allRates L basis names (prs ++ more) s = allRates L basis names prs s.
Proof.
  intros H. unfold allRates. rewrite map_app, zsum_app. enough (E : zsum (map (fun pr => ratesOf L basis names pr s) more) = 0) by lia.
  induction H as [|pr more Hp H IH]; [reflexivity|]. cbn [map]. rewrite PBase.zsum_cons, IH. unfold ratesOf. enough (E : zsum (map (fun x => eventRate L basis names pr x s) (sites L)) = 0) by lia.
  induction (sites L) as [|x l IHl]; [reflexivity|]. cbn [map]. rewrite PBase.zsum_cons, IHl, (idle_event L basis names pr x s Hp). reflexivity.
Qed.
Lemma idle_get {A} (l more : list A) i : 0 <= i < zlen l -> zget (l ++ more) i = zget l i.
Proof. intros Hi. rewrite !zget_nth by lia. apply nth_error_app1. unfold zlen in Hi. lia. Qed.
Lemma idle_law L basis names prs more es : Forall idle more -> forall s, Forall (fun e => 0 <= fst (fst e) < zlen prs) es -> pathLaw L basis names (prs ++ more) s es = pathLaw L basis names prs s es.
Proof.
  intros H. induction es as [|[[i x] w] es IH]; intros s PE; [reflexivity|]. inversion PE as [|? ? Hi PE']; subst. cbn [fst] in Hi. cbn [pathLaw]. rewrite (idle_get prs more i Hi), (idle_rates L basis names prs more s H).
  destruct (zget prs i) as [pr|]; [|reflexivity]. rewrite (IH _ PE'). reflexivity.
Qed.
Lemma idle_after L basis names kprs more es : forall s, Forall (fun e : Z * Z * R => 0 <= fst (fst e) < zlen kprs) es -> stateAfter L basis names (kprs ++ more) s es = stateAfter L basis names kprs s es.
Proof.
  induction es as [|[[i x] w] es IH]; intros s PE; [reflexivity|]. inversion PE as [|? ? Hi PE']; subst. cbn [fst] in Hi. cbn [stateAfter].
  rewrite map_app, (idle_get (map snd kprs) (map snd more) i) by (rewrite zlen_map; exact Hi). destruct (zget (map snd kprs) i) as [pr|]; [|reflexivity]. apply (IH _ PE').
Qed.

(** ** Two scripts: the second has in addition processes whose rates are zero *)
Section Two.
Context (S ranks ranks' : Z) (hash hash' : list Z -> Z) (a a' : mixedArgs) (kc kc' : kconf) (md md' : model) (L : lattice) (basis : list coord) (names : list string) (ns ns' : particles)
  (kprs more : list (Z * cproc)) (Rg Rg' : Z).
Context (HR : 1 <= ranks) (HR' : 1 <= ranks') (W : mixedPosed S hash a L basis names ns kprs Rg) (RN : mixedRun S ranks hash a kc md).
Context (W' : mixedPosed S hash' a' L basis names ns' (kprs ++ more) Rg') (RN' : mixedRun S ranks' hash' a' kc' md').
Context (Z0 : Forall (fun kpr => idle (snd kpr)) more).
(** No step ever performs one of these processes. *)
Theorem C92_never s es t us vs : reportsNumbers names kc' md' s -> properNumbers us vs -> makes md' t us vs es -> Forall (fun e => 0 <= fst (fst e) < zlen kprs) es.
Proof using HR' W' RN' Z0.
  intros HS PN HM. revert s RN' HS PN. induction HM as [md' t|md' t u us v vs e w es md1 t1 HT HE HW HM IH]; intros s RN0 HS PN; [constructor|].
  destruct PN as [PU PV]. inversion PU as [|? ? PU1 PU']; subst. inversion PV as [|? ? PV1 PV']; subst. apply timedRun_one in HT as HT'; [|exact PV1]. destruct HT' as (rate & E1 & E2 & E3).
  destruct (C73_total S ranks' hash' a' kc' md' L basis names ns' (kprs ++ more) Rg' HR' W' RN0) as (s0 & HS0 & E1' & NN). rewrite (reports_unique _ _ _ _ _ HS0 HS) in *. rewrite E1 in E1'. injection E1' as ->.
  set (prs := map snd (kprs ++ more)) in *.
  assert (HT0 : 0 < allRates L basis names prs s). { destruct (Z.eq_dec (allRates L basis names prs s) 0) as [E0|]; [|lia]. exfalso. rewrite E0, C60_zero_rate in E2; [discriminate|]. intros y [<-|[]]; lra. }
  destruct (C73_step S ranks' hash' a' kc' md' L basis names ns' (kprs ++ more) Rg' HR' W' RN0 s (fst u) (snd u) HS HT0 (proj1 PU1) (proj2 PU1)) as (md1' & s1 & E3' & RN1 & HS1 & HST). assert (md1' = md1) by congruence. subst md1'.
  change (lastEvent md1) with (cf_lastproc (md_cf md1), cf_lastsite (md_cf md1)) in HST. inversion HST as [i pr x Ei Hx HP Ee Es]. rewrite <- Es in HS1.
  constructor; [|apply (IH _ RN1 HS1 (conj PU' PV'))]. cbn [fst]. pose proof (zget_range _ _ _ Ei) as Hr. destruct (Z.ltb_spec i (zlen kprs)) as [Hi|Hi]; [lia|]. exfalso.
  unfold prs in Ei. rewrite map_app in Ei. rewrite zget_nth, nth_error_app2 in Ei by (try lia; rewrite map_length; unfold zlen in Hi; lia). apply nth_error_In in Ei. apply in_map_iff in Ei. destruct Ei as (kpr & <- & Hk).
  rewrite Forall_forall in Z0. rewrite idle_event in HP by (apply (Z0 kpr Hk)). lia.
Qed.
(** When types() shows the same numbers of particles in both runs, both have the same total rate ... *)
Theorem C92_rate s : reportsNumbers names kc md s -> reportsNumbers names kc' md' s -> totalRate (md_in md') = totalRate (md_in md).
Proof using HR HR' W RN W' RN' Z0.
  intros HS HS'. destruct (two_rates S ranks ranks' hash hash' a a' kc kc' md md' L basis names ns ns' kprs (kprs ++ more) Rg Rg' HR HR' W RN W' RN' s HS HS') as [-> ->]. f_equal.
  rewrite map_app. apply idle_rates. rewrite Forall_map. exact Z0.
Qed.
(** ... and go on with any events and waiting times with the same probability ... *)
Theorem C92_law s es : reportsNumbers names kc md s -> reportsNumbers names kc' md' s -> properEvents L es -> Forall (fun e => 0 <= fst (fst e) < zlen kprs) es ->
  exists bs bs', Forall properBox bs /\ Forall properBox bs' /\ zlen bs = zlen es /\ zlen bs' = zlen es /\ boxesVolume bs' = boxesVolume bs /\
    forall t us vs, properNumbers us vs -> (makes md t us vs es <-> inBoxes bs us vs) /\ (makes md' t us vs es <-> inBoxes bs' us vs).
Proof using HR HR' W RN W' RN' Z0.
  intros HS HS' PE PI. apply (two_laws S ranks ranks' hash hash' a a' kc kc' md md' L basis names ns ns' kprs (kprs ++ more) Rg Rg' HR HR' W RN W' RN' s es es HS HS' PE PE).
  rewrite map_app. apply idle_law; [rewrite Forall_map; exact Z0|]. rewrite zlen_map. exact PI.
Qed.
(** ... to the same states. *)
Theorem C92_after s es t us vs us' vs' : reportsNumbers names kc md s -> reportsNumbers names kc' md' s -> properNumbers us vs -> properNumbers us' vs' -> makes md t us vs es -> makes md' t us' vs' es ->
  exists md1 T1 md1' T1' s1, timedRun md (DFin t) us vs = Some (md1, DFin T1, []) /\ timedRun md' (DFin t) us' vs' = Some (md1', DFin T1', []) /\
    reportsNumbers names kc md1 s1 /\ reportsNumbers names kc' md1' s1.
Proof using HR HR' W RN W' RN' Z0.
  intros HS HS' PN PN' M M'. apply (two_after S ranks ranks' hash hash' a a' kc kc' md md' L basis names ns ns' kprs (kprs ++ more) Rg Rg' HR HR' W RN W' RN' s es es t us vs us' vs' HS HS'); auto.
  apply idle_after. apply (C92_never s es t us' vs' HS' PN' M').
Qed.
End Two.
(** A rate constant of zero is a rate of zero. *)
Theorem C92_constants S kprs more Rg : constants S (kprs ++ more) Rg -> (forall k pr, In (k, pr) more -> k = 0) -> Forall (fun kpr => idle (snd kpr)) more.
Proof. intros C H. rewrite Forall_forall. intros [k pr] Hk x s. cbn [snd]. rewrite (co_rates _ _ _ C k pr x s) by (apply in_or_app; right; exact Hk). apply (H k pr Hk). Qed.

(** ** A concrete case: the ring of TReverse.v, and the same with a process more which could happen but has the rate constant 0 *)
Definition x92Procs : list anyArgs := x82Procs ++ [PlainArgs (pyPlain [czero; mkC 10 0 0] ["A"; "B"] ["A"; "A"] 0 0)].
Definition x92Kprs : list (Z * cproc) := x82Kprs ++ [x82proc 0 [czero; mkC 10 0 0] ["A"; "B"] ["A"; "A"]].
Lemma x92try_ok : x90try x92Procs = true. Proof. vm_compute. reflexivity. Qed.
Lemma x92_posed : mixedPosed 10 xhash (x90Args x92Procs) x82L [czero] abNames (oneEachSite x82Types) x92Kprs 1.
Proof.
  pose proof x82_posed as P. assert (LK : forall k pr, In (k, pr) x92Kprs -> (forall x s, cp_rate pr x s = k) /\ exists k0 pr0, In (k0, pr0) x82Kprs /\ cp_basis pr = cp_basis pr0 /\ positions (cp_spec pr) = positions (cp_spec pr0) /\ SPyChain2.isPlain pr).
  { intros k pr [E|[E|[E|[E|[E|[]]]]]]; injection E as <- <-; (split; [reflexivity|]).
    - exists 3. eexists. split; [left; reflexivity|]. split; [reflexivity|]. split; [reflexivity|eexists; reflexivity].
    - exists 5. eexists. split; [right; left; reflexivity|]. split; [reflexivity|]. split; [reflexivity|eexists; reflexivity].
    - exists 4. eexists. split; [right; right; left; reflexivity|]. split; [reflexivity|]. split; [reflexivity|eexists; reflexivity].
    - exists 4. eexists. split; [right; right; right; left; reflexivity|]. split; [reflexivity|]. split; [reflexivity|eexists; reflexivity].
    - exists 4. eexists. split; [right; right; left; reflexivity|]. split; [reflexivity|]. split; [reflexivity|eexists; reflexivity]. }
  constructor; try apply P.
  - left. exists x82Types. split; [split; [vm_compute; reflexivity|left; split; reflexivity]|]. split; [reflexivity|]. intros k pr Hin. apply LK in Hin. destruct Hin as (_ & k0 & pr0 & _ & _ & _ & IP). exact IP.
  - cbn [x90Args ma_processes]. unfold x92Procs, x92Kprs. apply Forall2_app; [exact (mp_processes _ _ _ _ _ _ _ _ _ P)|]. constructor; [unfold x82proc; apply pyPlain_describes; cbn [fst]; try lia; intros t; cbn; intuition|constructor].
  - intros k pr Hin. apply LK in Hin. destruct Hin as (_ & k0 & pr0 & Hin0 & -> & -> & (rows & ->)). destruct (mp_proper _ _ _ _ _ _ _ _ _ P k0 pr0 Hin0) as (A & _). split; [exact A|]. split; exact I.
  - apply fromConstants. pose proof (mp_rates _ _ _ _ _ _ _ _ _ P) as C. inversion C as [C0|]. constructor.
    + intros k pr x s Hin. apply LK in Hin. apply (proj1 Hin).
    + split; [apply (co_reach _ _ _ C0)|]. intros k pr v Hin. apply LK in Hin. destruct Hin as (_ & k0 & pr0 & Hin0 & _ & -> & _). apply (proj2 (co_reach _ _ _ C0) k0 pr0 v Hin0).
Qed.
(** Both scripts are accepted and have the same total rate, 19, although the process more could happen at site 0; the hop has the same probability in both. *)
Example C92_example w : (0 <= w)%R -> exists kl kc ki md kl' kc' ki' md', mixedScript 10 (x90Args x82Procs) = Ok (kl, kc, ki) /\ KMCLatticeModel 10 2 xhash kl kc ki = Ok (Some md) /\
  mixedScript 10 (x90Args x92Procs) = Ok (kl', kc', ki') /\ KMCLatticeModel 10 2 xhash kl' kc' ki' = Ok (Some md') /\ totalRate (md_in md) = Some 19 /\ totalRate (md_in md') = Some 19 /\
  (exists pr, zget (map snd x92Kprs) 4 = Some pr /\ canHappen x82L [czero] abNames pr 0 (particleNumbers abNames (oneEachSite x82Types)) = true) /\
  exists bs bs', boxesVolume bs' = boxesVolume bs /\ forall t us vs, properNumbers us vs -> (makes md t us vs [((2, 0), w)] <-> inBoxes bs us vs) /\ (makes md' t us vs [((2, 0), w)] <-> inBoxes bs' us vs).
Proof.
  intros Hw. assert (M := x82try_ok). change (x90try x82Procs = true) in M. apply x90_runs in M. destruct M as (kl & kc & ki & md & E1 & E2). destruct (x90_runs _ x92try_ok) as (kl' & kc' & ki' & md' & E1' & E2').
  assert (RN : mixedRun 10 2 xhash x82Args kc md) by (exists kl, ki, md, []; auto). assert (RN' : mixedRun 10 2 xhash (x90Args x92Procs) kc' md') by (exists kl', ki', md', []; auto).
  destruct (C73_start 10 2 xhash x82Args kl kc ki x82L [czero] abNames (oneEachSite x82Types) x82Kprs 1 ltac:(lia) E1 x82_posed) as (md0 & E0 & RP). assert (md0 = md) by congruence. subst md0.
  destruct (C73_start 10 2 xhash _ kl' kc' ki' x82L [czero] abNames (oneEachSite x82Types) _ 1 ltac:(lia) E1' x92_posed) as (md0' & E0' & RP'). assert (md0' = md') by congruence. subst md0'.
  exists kl, kc, ki, md, kl', kc', ki', md'. repeat (split; [assumption|]).
  destruct (two_rates 10 2 2 xhash xhash _ _ kc kc' md md' x82L [czero] abNames _ _ _ _ 1 1 ltac:(lia) ltac:(lia) x82_posed RN x92_posed RN' _ RP RP') as [T T'].
  split; [rewrite T; vm_compute; reflexivity|]. split; [rewrite T'; vm_compute; reflexivity|]. split; [eexists; split; [reflexivity|vm_compute; reflexivity]|].
  assert (Z0 : Forall (fun kpr : Z * cproc => idle (snd kpr)) [x82proc 0 [czero; mkC 10 0 0] ["A"; "B"] ["A"; "A"]]) by (constructor; [intros x s; reflexivity|constructor]).
  destruct (C92_law 10 2 2 xhash xhash x82Args _ kc kc' md md' x82L [czero] abNames _ _ x82Kprs _ 1 1 ltac:(lia) ltac:(lia) x82_posed RN x92_posed RN' Z0 _ [((2, 0), w)] RP RP') as (bs & bs' & _ & _ & _ & _ & V & B).
  { constructor; [split; [vm_compute; tauto|exact Hw]|constructor]. }
  { constructor; [cbn [fst]; change (zlen x82Kprs) with 4; lia|constructor]. }
  exists bs, bs'. split; [exact V|]. exact B.
Qed.

Print Assumptions C92_never.
Print Assumptions C92_rate.
Print Assumptions C92_law.
Print Assumptions C92_after.
Print Assumptions C92_constants.
Print Assumptions C92_example.
