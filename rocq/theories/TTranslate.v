(** C89: no cell of a periodic lattice is special: a simulation that starts from a translated configuration has the translated law. *)
From Coq Require Import Reals Lra.
From Verif Require Import PBase SModel SNoUB SPyChain2 MTimer PIdeal PChain PChain2 PNear PPick PPyChain PPyChain2 PPyChain3 PPyChain5 PPyProcess TPyLattice TPyBucket TPyChain TTimer TPyChain2 TIdeal TChain PReverse TPyProcess TPossible XSystems XRows XCheck TReverse TLaw PTranslate.
From Verif Require Export STranslate.
From Coq Require Import ZifyBool.
Open Scope string_scope.
Open Scope list_scope.
Open Scope Z_scope.

(** ** What a translation is *)
(** It moves every site to another site with the same basis point, no two to the same, and keeps all displacements: y lies at displacement c from x exactly if it does so afterwards. *)
Theorem C89_translation L d : wf_lattice L -> fitting L d ->
  Permutation (map (movedTo L d) (sites L)) (sites L) /\ (forall x, In x (sites L) -> movedTo L d x mod lt_nb L = x mod lt_nb L) /\
  forall basis x y c, In x (sites L) -> In y (sites L) -> there L basis (movedTo L d x) c (movedTo L d y) = there L basis x c y.
Proof. intros WF FT. split; [apply moved_perm; exact WF|]. split; [intros x Hx; apply moved_basis; assumption|]. intros. apply there_moved; assumption. Qed.
(** Rate constants are the same everywhere. *)
Theorem C89_constants L d S kprs Rg : constants S kprs Rg -> sameEverywhere L d (map snd kprs).
Proof. intros C pr x s s' Hp _ _. apply in_map_iff in Hp. destruct Hp as ([k pr0] & E & Hin). cbn in E. subst pr0. rewrite !(co_rates _ _ _ C k pr _ _ Hin). reflexivity. Qed.

(** ** Two scripts with the same lattice and processes *)
Section Two.
Context (S ranks : Z) (hash : list Z -> Z) (a a' : mixedArgs) (kc kc' : kconf) (md md' : model) (L : lattice) (basis : list coord) (names : list string) (ns ns' : particles) (kprs : list (Z * cproc)) (Rg : Z).
Context (HR : 1 <= ranks) (W : mixedPosed S hash a L basis names ns kprs Rg) (RN : mixedRun S ranks hash a kc md).
Context (W' : mixedPosed S hash a' L basis names ns' kprs Rg) (RN' : mixedRun S ranks hash a' kc' md').
Context (d : translation) (FT : fitting L d).
Let prs := map snd kprs.
Context (SE : sameEverywhere L d prs).
Lemma translate_wf : wf_lattice L.
Proof using HR W RN. destruct (run_input2 _ _ _ _ _ _ _ _ _ _ _ _ HR W RN) as (cf & it & prs' & SM & _). eapply pc_wf. exact (proj1 SM). Qed.
(** When the numbers of particles that types() shows in the second run are those of the first, moved, both have the same total rate. *)
Theorem C89_rate s s' : reportsNumbers names kc md s -> reportsNumbers names kc' md' s' -> translated L d s s' -> totalRate (md_in md') = totalRate (md_in md).
Proof using HR W RN W' RN' FT SE.
  intros HS HS' T. destruct (C73_total S ranks hash a kc md L basis names ns kprs Rg HR W RN) as (s0 & HS0 & E & _). rewrite (reports_unique _ _ _ _ _ HS0 HS) in E.
  destruct (C73_total S ranks hash a' kc' md' L basis names ns' kprs Rg HR W' RN') as (s1 & HS1 & E' & _). rewrite (reports_unique _ _ _ _ _ HS1 HS') in E'.
  rewrite E, E'. f_equal. apply (rates_moved L translate_wf d FT basis names prs SE s s' T).
Qed.
(** The first run goes on with given events and waiting times with the same probability as the second run with the moved events: the random numbers with which they do so are those of two boxes of the same volume. *)
Theorem C89_law s s' es : reportsNumbers names kc md s -> reportsNumbers names kc' md' s' -> translated L d s s' -> properEvents L es ->
  exists bs bs', Forall properBox bs /\ Forall properBox bs' /\ zlen bs = zlen es /\ zlen bs' = zlen es /\ boxesVolume bs' = boxesVolume bs /\
    forall t us vs, properNumbers us vs -> (makes md t us vs es <-> inBoxes bs us vs) /\ (makes md' t us vs (movedEvents L d es) <-> inBoxes bs' us vs).
Proof using HR W RN W' RN' FT SE.
  intros HS HS' T PE. destruct (C81_law S ranks hash a kc md L basis names ns kprs Rg HR W RN s es HS PE) as (bs & B1 & B2 & B3 & B4).
  destruct (C81_law S ranks hash a' kc' md' L basis names ns' kprs Rg HR W' RN' s' (movedEvents L d es) HS' (proper_moved L translate_wf d es PE)) as (bs' & B1' & B2' & B3' & B4').
  exists bs, bs'. split; [exact B1|]. split; [exact B1'|]. split; [exact B2|]. split; [rewrite B2'; unfold movedEvents; apply zlen_map|]. split.
  - rewrite B3, B3'. apply (law_moved L translate_wf d FT basis names prs SE es s s' T PE).
  - intros t us vs PN. split; [apply B4; exact PN|apply B4'; exact PN].
Qed.
Lemma after_moved s s' es : translated L d s s' -> properEvents L es -> translated L d (stateAfter L basis names kprs s es) (stateAfter L basis names kprs s' (movedEvents L d es)).
Proof using HR W RN FT.
  intros T PE. revert s s' T. induction es as [|[[i x] w] es IH]; intros s s' T; [exact T|]. inversion PE as [|? ? [Hx _] PE']; subst. cbn [fst snd] in Hx. cbn [movedEvents map stateAfter fst snd].
  destruct (zget (map snd kprs) i) as [pr|]; [|exact T]. apply IH; [exact PE'|]. apply (happened_moved L translate_wf d FT); assumption.
Qed.
(** After such events what types() shows in the second run is again what it shows in the first, moved. *)
Theorem C89_after s s' es t us vs us' vs' : reportsNumbers names kc md s -> reportsNumbers names kc' md' s' -> translated L d s s' -> properEvents L es ->
  properNumbers us vs -> properNumbers us' vs' -> makes md t us vs es -> makes md' t us' vs' (movedEvents L d es) ->
  exists md1 T1 s1 md1' T1' s1', timedRun md (DFin t) us vs = Some (md1, DFin T1, []) /\ timedRun md' (DFin t) us' vs' = Some (md1', DFin T1', []) /\
    reportsNumbers names kc md1 s1 /\ reportsNumbers names kc' md1' s1' /\ translated L d s1 s1'.
Proof using HR W RN W' RN' FT.
  intros HS HS' T PE PN PN' M M'. destruct (C81_run S ranks hash a kc md L basis names ns kprs Rg HR W RN s es t us vs HS PN M) as (md1 & T1 & A1 & _ & _ & _ & A2).
  destruct (C81_run S ranks hash a' kc' md' L basis names ns' kprs Rg HR W' RN' s' (movedEvents L d es) t us' vs' HS' PN' M') as (md1' & T1' & B1 & _ & _ & _ & B2).
  do 6 eexists. split; [exact A1|]. split; [exact B1|]. split; [exact A2|]. split; [exact B2|]. apply after_moved; assumption.
Qed.
End Two.
(** The types given to the scripts, moved, give numbers of particles that are moved. *)
Theorem C89_start L d names ns ns' : zlen ns = nsites L -> zlen ns' = nsites L -> (forall x, In x (sites L) -> zget ns' (movedTo L d x) = zget ns x) ->
  translated L d (particleNumbers names ns) (particleNumbers names ns').
Proof. intros H1 H2 H. unfold particleNumbers. split; [rewrite zlen_map; exact H1|]. split; [rewrite zlen_map; exact H2|]. intros x Hx. rewrite !zget_map, (H x Hx). reflexivity. Qed.

(** ** A concrete case: the ring of TReverse.v with the particle at site 0, and with the particle at site 1 *)
Definition x89Args (types : list string) : mixedArgs := mkMA (pyCoords [mkC 20 0 0; mkC 0 20 0; mkC 0 0 30]) (pyCoords [czero]) (VTuple [VInt 3; VInt 1; VInt 1]) (VTuple [VBool true; VBool false; VBool false])
  (VList (map VStr types)) VNone (VList [VStr "B"; VStr "A"]) x82Procs (VBool true) None.
Definition x89Types : list string := ["B"; "A"; "B"].
Definition x89try : bool := match mixedScript 10 (x89Args x89Types) with Ok (kl, kc, ki) => match KMCLatticeModel 10 2 xhash kl kc ki with Ok (Some _) => true | _ => false end | _ => false end.
Lemma x89try_ok : x89try = true. Proof. vm_compute. reflexivity. Qed.
Lemma x89_posed : mixedPosed 10 xhash (x89Args x89Types) x82L [czero] abNames (oneEachSite x89Types) x82Kprs 1.
Proof.
  pose proof x82_posed as P. constructor; try apply P.
  - left. exists x89Types. split; [split; [vm_compute; reflexivity|left; split; reflexivity]|]. split; [reflexivity|].
    intros k pr [E|[E|[E|[E|[]]]]]; injection E as <- <-; eexists; reflexivity.
  - apply fromConstants. pose proof (mp_rates _ _ _ _ _ _ _ _ _ P) as C. inversion C. assumption.
Qed.
Strategy expand [x89try].
(** Both scripts are accepted; at the start they have the same total rate, 19; and the first makes its particle hop from site 0 to site 1, with the probability with which the second makes its particle hop from site 1 to site 2. *)
Example C89_example w : (0 <= w)%R -> exists kl kc ki md kl' kc' ki' md', mixedScript 10 x82Args = Ok (kl, kc, ki) /\ KMCLatticeModel 10 2 xhash kl kc ki = Ok (Some md) /\
  mixedScript 10 (x89Args x89Types) = Ok (kl', kc', ki') /\ KMCLatticeModel 10 2 xhash kl' kc' ki' = Ok (Some md') /\
  totalRate (md_in md) = Some 19 /\ totalRate (md_in md') = totalRate (md_in md) /\
  exists bs bs', boxesVolume bs' = boxesVolume bs /\ forall t us vs, properNumbers us vs -> (makes md t us vs [((2, 0), w)] <-> inBoxes bs us vs) /\ (makes md' t us vs [((2, 1), w)] <-> inBoxes bs' us vs).
Proof.
  intros Hw. assert (M := x82try_ok). unfold x82try in M. destruct (mixedScript 10 x82Args) as [[[kl kc] ki]|] eqn:E1; [|discriminate]. destruct (KMCLatticeModel 10 2 xhash kl kc ki) as [[md|]|] eqn:E2; try discriminate. clear M.
  assert (M := x89try_ok). unfold x89try in M. destruct (mixedScript 10 (x89Args x89Types)) as [[[kl' kc'] ki']|] eqn:E1'; [|discriminate]. destruct (KMCLatticeModel 10 2 xhash kl' kc' ki') as [[md'|]|] eqn:E2'; try discriminate. clear M.
  assert (RN : mixedRun 10 2 xhash x82Args kc md) by (exists kl, ki, md, []; auto). assert (RN' : mixedRun 10 2 xhash (x89Args x89Types) kc' md') by (exists kl', ki', md', []; auto).
  destruct (C73_start 10 2 xhash x82Args kl kc ki x82L [czero] abNames (oneEachSite x82Types) x82Kprs 1 ltac:(lia) E1 x82_posed) as (md0 & E0 & RP). assert (md0 = md) by congruence. subst md0.
  destruct (C73_start 10 2 xhash (x89Args x89Types) kl' kc' ki' x82L [czero] abNames (oneEachSite x89Types) x82Kprs 1 ltac:(lia) E1' x89_posed) as (md0' & E0' & RP'). assert (md0' = md') by congruence. subst md0'.
  exists kl, kc, ki, md, kl', kc', ki', md'. split; [reflexivity|]. split; [exact E2|]. split; [reflexivity|]. split; [exact E2'|].
  set (d := mkTranslation 1 0 0). assert (FT : fitting x82L d) by (split; [discriminate|split; reflexivity]).
  assert (SE : sameEverywhere x82L d (map snd x82Kprs)) by (intros pr x s s' [<-|[<-|[<-|[<-|[]]]]] _ _; reflexivity).
  assert (T : translated x82L d (particleNumbers abNames (oneEachSite x82Types)) (particleNumbers abNames (oneEachSite x89Types))).
  { apply C89_start; [reflexivity|reflexivity|]. intros x Hx. assert (C : x = 0 \/ x = 1 \/ x = 2) by (vm_compute in Hx; intuition). destruct C as [-> |[-> | ->]]; reflexivity. }
  split. { destruct (C73_total 10 2 xhash x82Args kc md x82L [czero] abNames (oneEachSite x82Types) x82Kprs 1 ltac:(lia) x82_posed RN) as (s0 & HS0 & E & _). rewrite (reports_unique _ _ _ _ _ HS0 RP) in E. rewrite E. vm_compute. reflexivity. }
  split. { exact (C89_rate 10 2 xhash x82Args (x89Args x89Types) kc kc' md md' x82L [czero] abNames _ _ x82Kprs 1 ltac:(lia) x82_posed RN x89_posed RN' d FT SE _ _ RP RP' T). }
  destruct (C89_law 10 2 xhash x82Args (x89Args x89Types) kc kc' md md' x82L [czero] abNames _ _ x82Kprs 1 ltac:(lia) x82_posed RN x89_posed RN' d FT SE _ _ [((2, 0), w)] RP RP' T) as (bs & bs' & _ & _ & _ & _ & V & B).
  { constructor; [split; [vm_compute; tauto|exact Hw]|constructor]. }
  exists bs, bs'. split; [exact V|]. exact B.
Qed.

Print Assumptions C89_translation.
Print Assumptions C89_constants.
Print Assumptions C89_rate.
Print Assumptions C89_law.
Print Assumptions C89_after.
Print Assumptions C89_start.
Print Assumptions C89_example.
