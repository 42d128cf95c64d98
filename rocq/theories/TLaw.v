(** C81: with independent, uniformly distributed random numbers a simulation has the law of the continuous time Markov chain of its script. *)
From Coq Require Import Lra.
From Verif Require Import PBase SModel SNoUB SPyChain2 PPyChain2 PPyChain3 PPyChain5 TTimer TPyChain2 PPick PChain SLaw PLaw TIdeal TChain TEnd XSystems XRows.
From Coq Require Import ZifyBool.
Open Scope string_scope.
Open Scope list_scope.
Open Scope Z_scope.

Lemma pathLaw_like L basis names prs prs' : likeChain2 L basis prs prs' -> forall es s, pathLaw L basis names prs s es = pathLaw L basis names prs' s es.
Proof.
  intros LK. pose proof LK as [F A]. induction es as [|[[i x] w] es IH]; intros s; [reflexivity|]. cbn [pathLaw]. destruct (zget prs i) as [pr|] eqn:Ei.
  - destruct (Forall2_to _ _ _ F _ _ Ei) as (pr' & Ei' & K). rewrite Ei'. rewrite (happened_like L basis names pr pr' x s K (A pr (zget_In _ _ _ Ei))), (event_like L basis names pr pr' x s K), (allRates_like L basis names prs prs' s LK), IH. reflexivity.
  - destruct (zget prs' i) as [pr'|] eqn:Ei'; [|reflexivity]. destruct (Forall2_at _ _ _ F _ _ Ei') as (pr & E & _). congruence.
Qed.

Lemma reports_unique names kc md s s' : reportsNumbers names kc md s -> reportsNumbers names kc md s' -> s = s'.
Proof. intros (vs & E & ->) (vs' & E' & ->). congruence. Qed.

Lemma clock_first rate t v t1 vs : propagateTime rate t [v] = Some (t1, []) -> propagateTime rate t (v :: vs) = Some (t1, vs).
Proof. cbn [propagateTime]. destruct (isinf _); [discriminate|]. intros H. injection H as ->. reflexivity. Qed.

(** ** The law of a simulation *)
Section Run.
Context (S ranks : Z) (hash : list Z -> Z) (a : mixedArgs) (kc : kconf) (md : model) (L : lattice) (basis : list coord) (names : list string) (ns : particles) (kprs : list (Z * cproc)) (Rg : Z).
Context (HR : 1 <= ranks) (W : mixedPosed S hash a L basis names ns kprs Rg) (RN : mixedRun S ranks hash a kc md).
Let prs := map snd kprs.
(** In any state s that a run of the script has come to, and for any events at sites of the lattice with waiting times w1, w2, ...: the random numbers with which the run goes on with exactly these
    events, each after a waiting time of more than the one given, are those of a box in the unit cube.  Its volume is the probability of this continuation in the
    Markov chain of the script.  The box is the same at any time t. *)
Theorem C81_law s es : reportsNumbers names kc md s -> properEvents L es ->
  exists bs, Forall properBox bs /\ zlen bs = zlen es /\ boxesVolume bs = pathLaw L basis names prs s es /\
    forall t us vs, properNumbers us vs -> (makes md t us vs es <-> inBoxes bs us vs).
Proof using HR W RN.
  intros HS PE. destruct (run_input2 _ _ _ _ _ _ _ _ _ _ _ _ HR W RN) as (cf & it & prs' & SM & LK & RC & RP). apply (RP md RC) in HS. subst s.
  rewrite (pathLaw_like _ _ _ _ _ LK). exact (law _ _ _ _ _ _ _ _ SM es md RC PE).
Qed.
(** [makes] speaks about the run: with these numbers the run makes a step for each event, the last state and time are those of the run with all numbers, and types() shows the state to which the events lead. *)
Fixpoint stateAfter (s : pstate) (es : list (Z * Z * R)) : pstate :=
  match es with [] => s | ((i, x), w) :: es' => match zget prs i with Some pr => stateAfter (happened L basis names pr x s) es' | None => s end end.
Theorem C81_run s es t us vs : reportsNumbers names kc md s -> properNumbers us vs -> makes md t us vs es ->
  exists md' T, timedRun md (DFin t) us vs = Some (md', DFin T, []) /\ zlen us = zlen es /\ zlen vs = zlen es /\ mixedRun S ranks hash a kc md' /\ reportsNumbers names kc md' (stateAfter s es).
Proof using HR W RN.
  intros HS PN HM. revert s RN HS PN. induction HM as [md t|md t u us v vs e w es md1 t1 HT HE HW HM IH]; intros s RN' HS PN.
  - exists md, t. split; [reflexivity|]. split; [reflexivity|]. split; [reflexivity|]. split; [exact RN'|exact HS].
  - destruct PN as [PU PV]. inversion PU as [|? ? PU1 PU']; subst. inversion PV as [|? ? PV1 PV']; subst.
    apply timedRun_one in HT as HT'; [|exact PV1]. destruct HT' as (rate & E1 & E2 & E3).
    destruct (C73_total S ranks hash a kc md L basis names ns kprs Rg HR W RN') as (s0 & HS0 & E1' & NN). rewrite (reports_unique _ _ _ _ _ HS0 HS) in *. fold prs in E1', NN. rewrite E1 in E1'. injection E1' as ->.
    assert (HT0 : 0 < allRates L basis names prs s). { destruct (Z.eq_dec (allRates L basis names prs s) 0) as [E0|]; [|lia]. exfalso. rewrite E0, C60_zero_rate in E2; [discriminate|]. intros y [<-|[]]; lra. }
    destruct (C73_step S ranks hash a kc md L basis names ns kprs Rg HR W RN' s (fst u) (snd u) HS HT0 (proj1 PU1) (proj2 PU1)) as (md1' & s1 & E3' & RN1 & HS1 & HST). assert (md1' = md1) by congruence. subst md1'.
    change (lastEvent md1) with (cf_lastproc (md_cf md1), cf_lastsite (md_cf md1)) in HST. inversion HST as [i pr x Ei Hx HP Ee Es]. fold prs in Ei. rewrite <- Es in HS1.
    destruct (IH _ RN1 HS1 (conj PU' PV')) as (md' & T & R1 & R2 & R3 & R4 & R5). exists md', T. rewrite !zlen_cons. split; [|split; [lia|split; [lia|split; [exact R4|]]]].
    + cbn [timedRun]. rewrite E1. cbn [obind]. rewrite (clock_first _ _ _ _ vs E2). cbn [obind fst snd]. rewrite E3. exact R1.
    + cbn [stateAfter]. rewrite Ei. exact R5.
Qed.
End Run.

(** ** The law of the chain: checks of the specification *)
Definition rsum (l : list R) : R := fold_right Rplus 0%R l.
Lemma rsum_scale {A} (f : A -> Z) (k : R) l : rsum (map (fun x => IZR (f x) * k)%R l) = (IZR (zsum (map f l)) * k)%R.
Proof. induction l as [|x l IH]; [cbn; ring|]. cbn [map]. rewrite PBase.zsum_cons, plus_IZR. unfold rsum in *. cbn [fold_right]. rewrite IH. ring. Qed.
Lemma zsum_prod {A B} (f : A * B -> Z) l l' : zsum (map f (list_prod l l')) = zsum (map (fun x => zsum (map (fun y => f (x, y)) l')) l).
Proof. induction l as [|x l IH]; [reflexivity|]. cbn [list_prod map]. rewrite map_app, zsum_app, IH, map_map, PBase.zsum_cons. reflexivity. Qed.
(** The events of a state exclude each other and one of them happens: the probability that the waiting time is longer than w, whatever the event, is exp (- R w). *)
Theorem C81_waiting L basis names prs s w : 0 < allRates L basis names prs s ->
  rsum (map (fun e => pathLaw L basis names prs s [(e, w)]) (list_prod (zrange 0 (zlen prs - 1)) (sites L))) = exp (- (IZR (allRates L basis names prs s) * w)).
Proof.
  intros HT. set (T := allRates L basis names prs s) in *. assert (HTr : (0 < IZR T)%R) by (apply IZR_lt; exact HT).
  set (f := fun e : Z * Z => match zget prs (fst e) with Some pr => eventRate L basis names pr (snd e) s | None => 0 end).
  assert (E : map (fun e => pathLaw L basis names prs s [(e, w)]) (list_prod (zrange 0 (zlen prs - 1)) (sites L)) = map (fun e => IZR (f e) * (/ IZR T * exp (- (IZR T * w))))%R (list_prod (zrange 0 (zlen prs - 1)) (sites L))).
  { apply map_ext. intros [i x]. cbn [pathLaw]. unfold f. cbn [fst snd]. fold T. destruct (zget prs i); [unfold Rdiv|]; ring. }
  rewrite E, rsum_scale, zsum_prod.
  assert (E2 : zsum (map (fun x => zsum (map (fun y => f (x, y)) (sites L))) (zrange 0 (zlen prs - 1))) = T).
  { unfold T, allRates. rewrite <- (zsum_numbers prs (fun _ pr => ratesOf L basis names pr s) (fun pr => ratesOf L basis names pr s)) by reflexivity. f_equal. apply map_ext_in. intros i Hi.
    unfold f. cbn [fst snd]. destruct (zget prs i) as [pr|]; [reflexivity|]. clear. induction (sites L) as [|x l IH]; [reflexivity|]. cbn [map]. rewrite PBase.zsum_cons, IH. reflexivity. }
  rewrite E2. field. lra.
Qed.
(** what happens later depends on the past only through the state it led to *)
Theorem C81_markov L basis names kprs es es' : forall s, let prs := map snd kprs in
  (pathLaw L basis names prs s (es ++ es') = pathLaw L basis names prs s es * pathLaw L basis names prs (stateAfter L basis names kprs s es) es')%R.
Proof.
  induction es as [|[[i x] w] es IH]; intros s prs; [cbn; ring|]. cbn [app pathLaw stateAfter]. fold prs. destruct (zget prs i) as [pr|]; [|ring]. rewrite IH. fold prs. ring.
Qed.

(** ** A concrete case: the script with a rate calculator, two events *)
Definition x81start : pstate := particleNumbers abNames (oneEachSite xaTypes).
Definition x81checks : bool :=
  match zget (map snd x73pKprs) 0, zget (map snd x73pKprs) 1 with
  | Some p0, Some p1 => let s1 := happened x1L x1basis abNames p0 0 x81start in
      ((allRates x1L x1basis abNames (map snd x73pKprs) x81start =? 21) && (eventRate x1L x1basis abNames p0 0 x81start =? 3) &&
       (allRates x1L x1basis abNames (map snd x73pKprs) s1 =? 20) && (eventRate x1L x1basis abNames p1 4 s1 =? 4))%bool
  | _, _ => false
  end.
Lemma x81checks_ok : x81checks = true. Proof. vm_compute. reflexivity. Qed.
Strategy expand [x81checks].
(** The script of C73_example_plain: hopping particles with two processes.  A run makes first the event of process 0 at site 0 after more than w1, and then the event of process 1 at site 4 after more than w2
    more, with the probability 3/21 exp (-21 w1) 4/20 exp (-20 w2). *)
Example C81_example w1 w2 : (0 <= w1)%R -> (0 <= w2)%R -> exists kl kc ki md bs, mixedScript 10 x73pArgs = Ok (kl, kc, ki) /\ KMCLatticeModel 10 2 xhash kl kc ki = Ok (Some md) /\
  Forall properBox bs /\ zlen bs = 2 /\ boxesVolume bs = (3 / 21 * exp (- (21 * w1)) * (4 / 20 * exp (- (20 * w2))))%R /\
  forall t us vs, properNumbers us vs -> (makes md t us vs [((0, 0), w1); ((1, 4), w2)] <-> inBoxes bs us vs).
Proof.
  intros H1 H2. assert (M := x79made_ok). unfold x79made in M. destruct (mixedScript 10 x73pArgs) as [[[kl kc] ki]|] eqn:E1; [|discriminate]. clear M.
  destruct (C73_start 10 2 xhash x73pArgs kl kc ki x1L x1basis abNames (oneEachSite xaTypes) x73pKprs 1 ltac:(lia) E1 x73_plain) as (md & E2 & RP).
  assert (RN : mixedRun 10 2 xhash x73pArgs kc md) by (exists kl, ki, md, []; auto).
  destruct (C81_law 10 2 xhash x73pArgs kc md x1L x1basis abNames (oneEachSite xaTypes) x73pKprs 1 ltac:(lia) x73_plain RN _ [((0, 0), w1); ((1, 4), w2)] RP) as (bs & B1 & B2 & B3 & B4).
  { constructor; [split; [vm_compute; tauto|exact H1]|]. constructor; [split; [vm_compute; tauto|exact H2]|constructor]. }
  exists kl, kc, ki, md, bs. split; [reflexivity|]. split; [exact E2|]. split; [exact B1|]. split; [exact B2|]. split; [|exact B4]. rewrite B3.
  assert (C := x81checks_ok). unfold x81checks in C. fold x81start. cbn [pathLaw]. destruct (zget (map snd x73pKprs) 0) as [p0|]; [|discriminate]. destruct (zget (map snd x73pKprs) 1) as [p1|]; [|discriminate].
  cbv zeta in C. apply andb_prop in C. destruct C as [C C4]. apply andb_prop in C. destruct C as [C C3]. apply andb_prop in C. destruct C as [C1 C2]. apply Z.eqb_eq in C1, C2, C3, C4. rewrite C1, C2, C3, C4. ring.
Qed.

Print Assumptions C81_law.
Print Assumptions C81_run.
Print Assumptions C81_waiting.
Print Assumptions C81_markov.
Print Assumptions C81_example.
