(** C93: only the lattice, the numbers of particles, the processes and the rates matter. *)
From Coq Require Import Reals Lra.
From Verif Require Import PBase SModel SNoUB SPyChain2 MTimer PIdeal PChain PChain2 PNear PPick PPyChain PPyChain2 PPyChain3 PPyChain5 PPyProcess TPyLattice TPyBucket TPyChain TTimer TPyChain2 TIdeal TChain TEnd PReverse TPyProcess TPossible XSystems XRows XCheck TReverse PLaw TLaw PRecast TRecast.
From Coq Require Import ZifyBool.
Open Scope string_scope.
Open Scope list_scope.
Open Scope Z_scope.

(** Two scripts that describe the same lattice, particles, processes and rates.  The cell vectors, the way the types are given, the order of the possible types, whether rates are cached, what the
    calculator is, and the number of MPI processes may be different.  Both are accepted by the backend and start from the same numbers of particles ... *)
Theorem C93_start S ranks ranks' hash hash' a a' kl kc ki kl' kc' ki' L basis names ns kprs Rg Rg' : 1 <= ranks -> 1 <= ranks' ->
  mixedPosed S hash a L basis names ns kprs Rg -> mixedPosed S hash' a' L basis names ns kprs Rg' -> mixedScript S a = Ok (kl, kc, ki) -> mixedScript S a' = Ok (kl', kc', ki') ->
  exists md md' s, KMCLatticeModel S ranks hash kl kc ki = Ok (Some md) /\ KMCLatticeModel S ranks' hash' kl' kc' ki' = Ok (Some md') /\ reportsNumbers names kc md s /\ reportsNumbers names kc' md' s.
Proof.
  intros HR HR' W W' E E'. destruct (C73_start S ranks hash a kl kc ki L basis names ns kprs Rg HR E W) as (md & M & RP). destruct (C73_start S ranks' hash' a' kl' kc' ki' L basis names ns kprs Rg' HR' E' W') as (md' & M' & RP').
  exists md, md', (particleNumbers names ns). auto.
Qed.
Lemma renumbered_same es : renumbered (fun i => i) es = es.
Proof. unfold renumbered. rewrite <- (map_id es) at 2. apply map_ext. intros [[i x] w]. reflexivity. Qed.
Lemma reordered_same {A} (l : list A) : reordered (fun i => i) l l.
Proof. split; [reflexivity|]. split; auto. Qed.
Section Two.
Context (S ranks ranks' : Z) (hash hash' : list Z -> Z) (a a' : mixedArgs) (kc kc' : kconf) (md md' : model) (L : lattice) (basis : list coord) (names : list string) (ns ns' : particles) (kprs : list (Z * cproc)) (Rg Rg' : Z).
Context (HR : 1 <= ranks) (HR' : 1 <= ranks') (W : mixedPosed S hash a L basis names ns kprs Rg) (RN : mixedRun S ranks hash a kc md).
Context (W' : mixedPosed S hash' a' L basis names ns' kprs Rg') (RN' : mixedRun S ranks' hash' a' kc' md').
(** ... and whenever both show the same numbers of particles they have the same total rate, ... *)
Theorem C93_rate s : reportsNumbers names kc md s -> reportsNumbers names kc' md' s -> totalRate (md_in md') = totalRate (md_in md).
Proof using HR HR' W RN W' RN'.
  apply (C90_rate S ranks ranks' hash hash' a a' kc kc' md md' L basis names ns ns' kprs kprs Rg Rg' HR HR' W RN W' RN' (fun i => i) s (reordered_same kprs)).
Qed.
(** ... go on with any events and waiting times with the same probability, ... *)
Theorem C93_law s es : reportsNumbers names kc md s -> reportsNumbers names kc' md' s -> properEvents L es ->
  exists bs bs', Forall properBox bs /\ Forall properBox bs' /\ zlen bs = zlen es /\ zlen bs' = zlen es /\ boxesVolume bs' = boxesVolume bs /\
    forall t us vs, properNumbers us vs -> (makes md t us vs es <-> inBoxes bs us vs) /\ (makes md' t us vs es <-> inBoxes bs' us vs).
Proof using HR HR' W RN W' RN'.
  intros HS HS' PE. apply (two_laws S ranks ranks' hash hash' a a' kc kc' md md' L basis names ns ns' kprs kprs Rg Rg' HR HR' W RN W' RN' s es es HS HS' PE PE). reflexivity.
Qed.
(** ... and come to the same numbers of particles. *)
Theorem C93_after s es t us vs us' vs' : reportsNumbers names kc md s -> reportsNumbers names kc' md' s -> properNumbers us vs -> properNumbers us' vs' -> makes md t us vs es -> makes md' t us' vs' es ->
  exists md1 T1 md1' T1' s1, timedRun md (DFin t) us vs = Some (md1, DFin T1, []) /\ timedRun md' (DFin t) us' vs' = Some (md1', DFin T1', []) /\
    reportsNumbers names kc md1 s1 /\ reportsNumbers names kc' md1' s1.
Proof using HR HR' W RN W' RN'.
  intros HS HS'. apply (two_after S ranks ranks' hash hash' a a' kc kc' md md' L basis names ns ns' kprs kprs Rg Rg' HR HR' W RN W' RN' s es es t us vs us' vs' HS HS'). reflexivity.
Qed.
End Two.

(** ** A concrete case: the ring of TReverse.v on two MPI processes, and on three with a skew cell and the possible types in the other order *)
Definition x93Args : mixedArgs := mkMA (pyCoords [mkC 20 0 0; mkC 10 20 0; mkC 0 5 30]) (pyCoords [czero]) (VTuple [VInt 3; VInt 1; VInt 1]) (VTuple [VBool true; VBool false; VBool false])
  (VList (map VStr x82Types)) VNone (VList [VStr "A"; VStr "B"]) x82Procs (VBool true) None.
Definition x93try : bool := match mixedScript 10 x93Args with Ok (kl, kc, ki) => match KMCLatticeModel 10 3 xhash kl kc ki with Ok (Some _) => true | _ => false end | _ => false end.
Lemma x93try_ok : x93try = true. Proof. vm_compute. reflexivity. Qed.
Lemma x93_posed : mixedPosed 10 xhash x93Args x82L [czero] abNames (oneEachSite x82Types) x82Kprs 1.
Proof.
  pose proof x82_posed as P. constructor; try apply P.
  - intros given E. injection E as E. destruct given as [|g1 [|g2 [|]]]; try discriminate. injection E as <- <-. repeat (constructor; [cbn; intuition discriminate|]). constructor.
  - split; [apply (mp_names _ _ _ _ _ _ _ _ _ P)|]. intros t. unfold usable. cbn [x93Args ma_possible]. unfold abNames. cbn [In possibleNames]. 
    unfold usable in *. vm_compute possibleNames. cbn. intuition congruence.
Qed.
Strategy expand [x93try].
Example C93_example : exists kl kc ki md kl' kc' ki' md', mixedScript 10 x82Args = Ok (kl, kc, ki) /\ KMCLatticeModel 10 2 xhash kl kc ki = Ok (Some md) /\
  mixedScript 10 x93Args = Ok (kl', kc', ki') /\ KMCLatticeModel 10 3 xhash kl' kc' ki' = Ok (Some md') /\ totalRate (md_in md) = Some 19 /\ totalRate (md_in md') = Some 19 /\
  mixedPosed 10 xhash x82Args x82L [czero] abNames (oneEachSite x82Types) x82Kprs 1 /\ mixedPosed 10 xhash x93Args x82L [czero] abNames (oneEachSite x82Types) x82Kprs 1.
Proof.
  assert (M := x82try_ok). unfold x82try in M. destruct (mixedScript 10 x82Args) as [[[kl kc] ki]|] eqn:E1; [|discriminate]. clear M.
  assert (M := x93try_ok). unfold x93try in M. destruct (mixedScript 10 x93Args) as [[[kl' kc'] ki']|] eqn:E1'; [|discriminate]. clear M.
  destruct (C73_start 10 2 xhash x82Args kl kc ki x82L [czero] abNames (oneEachSite x82Types) x82Kprs 1 ltac:(lia) E1 x82_posed) as (md & E2 & RP).
  destruct (C73_start 10 3 xhash x93Args kl' kc' ki' x82L [czero] abNames (oneEachSite x82Types) x82Kprs 1 ltac:(lia) E1' x93_posed) as (md' & E2' & RP').
  assert (RN : mixedRun 10 2 xhash x82Args kc md) by (exists kl, ki, md, []; auto). assert (RN' : mixedRun 10 3 xhash x93Args kc' md') by (exists kl', ki', md', []; auto).
  exists kl, kc, ki, md, kl', kc', ki', md'. split; [reflexivity|]. split; [exact E2|]. split; [reflexivity|]. split; [exact E2'|].
  destruct (two_rates 10 2 3 xhash xhash _ _ kc kc' md md' x82L [czero] abNames _ _ _ _ 1 1 ltac:(lia) ltac:(lia) x82_posed RN x93_posed RN' _ RP RP') as [T T'].
  split; [rewrite T; vm_compute; reflexivity|]. split; [rewrite T'; vm_compute; reflexivity|]. split; [exact x82_posed|exact x93_posed].
Qed.

Print Assumptions C93_start.
Print Assumptions C93_rate.
Print Assumptions C93_law.
Print Assumptions C93_after.
Print Assumptions C93_example.
