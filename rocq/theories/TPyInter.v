(** C69: interactions as the user makes them: which arguments are accepted, which rate calculator is used, how far it sees, what reaches the backend. *)
From Verif Require PAnalysis.
From Verif Require Import PBase SModel SEvent SGeo SBuild SPlain SStep SBucket SPossible PLattice PBuild PTypes TTypes PPyProcess TPyProcess TPyBucket TPyLattice XSystems.
From Verif Require Export SPyInter.
From Coq Require Import ZifyBool.
Open Scope string_scope.
Open Scope list_scope.
Open Scope Z_scope.

(** ** Accepted arguments *)
(** Exactly a non-empty sequence of processes and a bool (default True) are accepted. *)
Theorem C69_accepted processes implicit_wildcards o :
  newInteractions processes implicit_wildcards = Ok o <->
  exists ps w, ps <> [] /\ processes = Some (map Some ps) /\ ((implicit_wildcards = VNone /\ w = true) \/ implicit_wildcards = VBool w) /\ o = mkIO ps w None false None.
Proof.
  assert (GV : forall ps : list kprocess, oall (fun p => match p with Some q => Ok q | None => Raise KmcError end) (map Some ps) = Ok ps) by (induction ps as [|p ps IH]; [reflexivity|]; cbn [map oall MPy.obind]; rewrite IH; reflexivity).
  unfold newInteractions, KMCInteractions. split.
  - destruct processes as [l|]; [|discriminate]. destruct (Z.eqb_spec (zlen l) 0) as [|Hl]; [discriminate|]. destruct (oall _ l) as [ps|] eqn:E; cbn [MPy.obind]; [|discriminate].
    assert (X : l = map Some ps). { clear - E. revert ps E. induction l as [|x l IH]; intros ps E; cbn [oall] in E; [injection E as <-; reflexivity|]. destruct x as [q|]; cbn [MPy.obind] in E; [|discriminate]. destruct (oall _ l) as [qs|] eqn:E'; cbn [MPy.obind] in E; [|discriminate]. injection E as <-. cbn [map]. f_equal. apply IH. reflexivity. }
    assert (NE : ps <> []) by (intros ->; subst l; apply Hl; reflexivity).
    destruct implicit_wildcards as [|b| | | | | |]; cbn [MPy.obind]; try discriminate; intros H; injection H as <-; cbn [ki_processes ki_wild]; [exists ps, true|exists ps, b]; rewrite X; auto 6.
  - intros (ps & w & NE & -> & HW & ->). rewrite zlen_map. destruct (Z.eqb_spec (zlen ps) 0) as [Hz|_]; [destruct ps; [congruence|rewrite zlen_cons in Hz; pose proof (zlen_nonneg ps); lia]|].
    rewrite GV. cbn [MPy.obind]. destruct HW as [[-> ->]| ->]; reflexivity.
Qed.
Theorem C69_error processes implicit_wildcards : (forall o, newInteractions processes implicit_wildcards <> Ok o) -> newInteractions processes implicit_wildcards = Raise KmcError.
Proof.
  unfold newInteractions, KMCInteractions. intros H. destruct processes as [l|]; [|reflexivity]. destruct (zlen l =? 0); [reflexivity|].
  destruct (oall_error (fun p => match p with Some q => Ok q | None => Raise KmcError end) l) as [[ps E] | E]; [intros x _; destruct x; [left; eexists; reflexivity|right; reflexivity]| |rewrite E; reflexivity].
  rewrite E in *. cbn [MPy.obind] in *. destruct implicit_wildcards; try reflexivity; exfalso; eapply H; reflexivity.
Qed.

(** ** Which calculator is used *)
Lemma setAll_fields customs l : forall o o', setAll customs o l = Ok o' -> io_processes o' = io_processes o /\ io_wild o' = io_wild o /\ io_backend o' = io_backend o.
Proof.
  induction l as [|a l IH]; intros o o' H; cbn [setAll] in H; [injection H as <-; auto|]. destruct (setRateCalculator customs o a) as [o1|] eqn:E; cbn [MPy.obind] in H; [|discriminate]. apply IH in H. destruct H as (H1 & H2 & H3).
  rewrite H1, H2, H3. destruct a as [|n|c|]; cbn [setRateCalculator] in E; [|destruct (findCustom customs n); [|discriminate]| |discriminate]; injection E as <-; auto.
Qed.
Lemma setAll_last customs l : forall o o' a, setAll customs o (l ++ [a]) = Ok o' -> exists o1, setAll customs o l = Ok o1 /\ setRateCalculator customs o1 a = Ok o'.
Proof.
  induction l as [|b l IH]; intros o o' a H; cbn [app setAll] in H.
  - destruct (setRateCalculator customs o a) as [o1|] eqn:E; cbn [MPy.obind] in H; [|discriminate]. injection H as <-. exists o. split; [reflexivity|exact E].
  - destruct (setRateCalculator customs o b) as [o1|] eqn:E; cbn [MPy.obind] in H; [|discriminate]. destruct (IH _ _ _ H) as (o2 & H1 & H2). exists o2. split; [|exact H2]. cbn [setAll]. rewrite E. exact H1.
Qed.
Lemma setAll_builtin customs l : forall o o', setAll customs o l = Ok o' -> io_builtin o = false -> (forall n, ~ In (CalcName n) l) -> io_builtin o' = false.
Proof.
  induction l as [|a l IH]; intros o o' H HB HN; cbn [setAll] in H; [injection H as <-; exact HB|]. destruct (setRateCalculator customs o a) as [o1|] eqn:E; cbn [MPy.obind] in H; [|discriminate]. apply (IH _ _ H); [|intros n I; exact (HN n (or_intror I))].
  destruct a as [|n|c|]; cbn [setRateCalculator] in E; [|exfalso; exact (HN n (or_introl eq_refl))| |discriminate]; injection E as <-; exact HB.
Qed.
Lemma noClass_last l c : noClassAfterName (l ++ [CalcClass c]) = true -> forall n, ~ In (CalcName n) l.
Proof.
  induction l as [|a l IH]; intros H n I; [destruct I|]. destruct I as [->|I].
  - cbn [app noClassAfterName] in H. apply andb_true_iff in H. destruct H as [H _]. rewrite forallb_app in H. apply andb_true_iff in H. destruct H as [_ H]. discriminate H.
  - apply (IH (match a return noClassAfterName ((a :: l) ++ [CalcClass c]) = true -> noClassAfterName (l ++ [CalcClass c]) = true with CalcName _ => fun E => proj2 (proj1 (andb_true_iff _ _) E) | _ => fun E => E end H) n I).
Qed.
(** Only None, the known names and classes can be set; everything else is an Error. *)
Theorem C69_settable customs o a : (exists o', setRateCalculator customs o a = Ok o') <-> a = CalcNone \/ (exists c, a = CalcClass c) \/ exists n c, a = CalcName n /\ In (n, c) customs.
Proof.
  split.
  - intros [o' H]. destruct a as [|n|c|]; cbn [setRateCalculator] in H; [auto| |eauto|discriminate]. unfold findCustom in H. destruct (find _ customs) as [[n' c]|] eqn:E; [|discriminate]. apply find_some in E. destruct E as [I E]. apply String.eqb_eq in E. cbn [fst] in E. subst n'. eauto 6.
  - intros [-> |[[c ->]|(n & c & -> & I)]]; cbn [setRateCalculator]; [eauto|eauto|]. unfold findCustom. destruct (find _ customs) as [nc|] eqn:E; [cbn; eauto|]. exfalso. apply (find_none _ _ E) in I. cbn [fst] in I. rewrite String.eqb_refl in I. discriminate.
Qed.
Theorem C69_not_settable customs o a : (forall o', setRateCalculator customs o a <> Ok o') -> setRateCalculator customs o a = Raise KmcError.
Proof. intros H. destruct a as [|n|c|]; cbn [setRateCalculator] in *; [exfalso; eapply H; reflexivity| |exfalso; eapply H; reflexivity|reflexivity]. destruct (findCustom customs n); [exfalso; eapply H; reflexivity|reflexivity]. Qed.
(** The last call before the backend is made decides, as long as no class is given after a name: its calculator is used, made with the user's configuration.
    A class that is not derived from the plugin class is refused. *)
Theorem C69_calculator_partial customs processes implicit_wildcards o l a o' : (forall n c, In (n, c) customs -> cc_kind c = Derived) ->
  newInteractions processes implicit_wildcards = Ok o -> setAll customs o (l ++ [a]) = Ok o' -> noClassAfterName (l ++ [a]) = true -> makeCalculator o' = askedFor customs a.
Proof.
  intros HC HN HS HL. apply C69_accepted in HN. destruct HN as (ps & w & _ & _ & _ & ->). destruct (setAll_last _ _ _ _ _ HS) as (o1 & H1 & H2). destruct a as [|n|c|]; cbn [setRateCalculator] in H2.
  - injection H2 as <-. reflexivity.
  - unfold findCustom in H2. cbn [askedFor]. destruct (find _ customs) as [[n' c]|] eqn:E; cbn [option_map snd] in H2; [|discriminate]. injection H2 as <-. unfold makeCalculator. cbn [io_class io_builtin]. apply find_some in E. destruct E as [I _]. rewrite (HC _ _ I). reflexivity.
  - assert (HB : io_builtin o1 = false) by (eapply setAll_builtin; [exact H1|reflexivity|exact (noClass_last _ _ HL)]). injection H2 as <-. unfold makeCalculator. cbn [io_class io_builtin askedFor]. rewrite HB. reflexivity.
  - discriminate.
Qed.
(** Without that condition it is false: after a name, a class is made with the backend's configuration instead of the user's, and is not checked. *)
Theorem C69_calculator_refuted : exists customs o l a o' g, newInteractions (Some [Some (KPlainP (mkKP [czero] [] [] [] [0] 1))]) VNone = Ok o /\ (forall n c, In (n, c) customs -> cc_kind c = Derived) /\
  setAll customs o (l ++ [a]) = Ok o' /\ makeCalculator o' = Ok (Some g) /\ askedFor customs a <> Ok (Some g) /\
  exists a2 o2 g2, setAll customs o (l ++ [a2]) = Ok o2 /\ makeCalculator o2 = Ok (Some g2) /\ askedFor customs a2 = Raise KmcError.
Proof.
  set (g1 := mkPlug None false [] noCalculator). set (g2 := mkPlug (Some 7) false [] noCalculator).
  set (cl := mkClass Derived (fun w => match w with UserConfiguration => g1 | BackendConfiguration => g2 end)).
  exists [("Named", mkClass Derived (fun _ => g1))]. eexists. exists [CalcName "Named"], (CalcClass cl). eexists. exists g2.
  split; [reflexivity|]. split; [intros n c [E|[]]; injection E as <- <-; reflexivity|]. split; [reflexivity|]. split; [reflexivity|]. split; [discriminate|].
  exists (CalcClass (mkClass PluginItself (fun _ => g1))). eexists. exists g1. split; [reflexivity|]. split; reflexivity.
Qed.
(** Once the backend has been made it stays; setting another calculator has no effect, whatever types and basis are asked for. *)
Theorem C69_kept S customs o possible nbasis it o1 l o2 possible' nbasis' : interBackend S o possible nbasis = Ok (Some (it, o1)) -> setAll customs o1 l = Ok o2 -> interBackend S o2 possible' nbasis' = Ok (Some (it, o2)).
Proof.
  intros H HS. assert (E : io_backend o1 = Some it).
  { unfold interBackend in H. destruct (io_backend o) as [it'|] eqn:EB; [injection H as <- <-; exact EB|]. destruct (forallb _ _); [|discriminate]. destruct (makeCalculator o) as [g|]; cbn [MPy.obind] in H; [|discriminate].
    destruct (backendInteractions _ _ _ _) as [[it'|]|]; cbn [MPy.obind obind] in H; try discriminate. injection H as <- <-. reflexivity. }
  apply setAll_fields in HS. destruct HS as (_ & _ & HS). unfold interBackend. rewrite HS, E. reflexivity.
Qed.

(** ** What reaches the backend *)
Lemma mlFold_cut S origin coords types upd idx : forall acc acc', ofold (mlStep S origin coords types upd) idx acc = Some acc' ->
  ml_cut2 acc' = ml_cut2 acc \/ exists k c, In k idx /\ zget coords k = Some c /\ cnorm2 (csub c origin) = ml_cut2 acc'.
Proof.
  induction idx as [|k idx IH]; intros acc acc' H; cbn [ofold] in H; [injection H as <-; left; reflexivity|]. ob H as a1 E. unfold mlStep in E. ob E as c Ec. ob E as t Et. ob E as u Eu. inversion E; subst a1; clear E.
  destruct (IH _ _ H) as [X|(k' & c' & I & Ek & X)]; [|right; exists k', c'; split; [right; exact I|auto]]. cbn [ml_cut2] in X. rewrite X. destruct (Z.max_spec (cnorm2 (csub c origin)) (ml_cut2 acc)) as [[_ ->]|[_ ->]]; [left; reflexivity|]. right. exists k, c. split; [left; reflexivity|auto].
Qed.
Lemma cnorm2_nonneg c : 0 <= cnorm2 c. Proof. unfold cnorm2. nia. Qed.
Lemma mkProcess_reach S first second rate basis origins vectors number p : zlen (cf_elements first) = zlen (cf_coords first) -> mkProcess S first second rate basis origins vectors number = Some p ->
  largestReach (cf_coords first) (pr_cut2 p) /\ pr_custom p = false /\ pr_number p = number /\ pr_rate p = rate /\ pr_basis p = basis.
Proof.
  intros HL H. unfold mkProcess in H. ob H as acc Eacc. ob H as l El. inversion H; subst p; clear H. cbn [pr_cut2 pr_custom pr_number pr_rate pr_basis]. split; [|auto].
  unfold configurationsToMatchList in Eacc. ob Eacc as upd Eupd. ob Eacc as c0 E0. exists c0. split; [exact E0|].
  destruct (mlFold_spec _ _ _ _ _ _ _ _ Eacc) as (es & M1 & M2 & M3 & _ & _ & _ & M7 & M8). cbn [ml_cut2] in *. split.
  - intros c Hc. apply In_zget in Hc. destruct Hc as [i Ei]. apply zget_range in Ei as Hr. pose proof (M3 i) as Z1. rewrite zget_zrange in Z1 by lia. rewrite Z.add_0_l in Z1. cbn [obind] in Z1. rewrite Ei in Z1. cbn [obind] in Z1.
    destruct (zget_lt es i) as [e Ee]; [rewrite M2, zlen_zrange; lia|]. rewrite Ee in Z1. symmetry in Z1. ob Z1 as t Et. ob Z1 as u Eu. inversion Z1; subst e. apply zget_In in Ee. exact (M8 _ Ee).
  - destruct (mlFold_cut _ _ _ _ _ _ _ _ Eacc) as [X|(k & c & _ & Ek & X)]; [|exists c; split; [eapply zget_In; exact Ek|exact X]]. cbn [ml_cut2] in X. exists c0. split; [eapply zget_In; exact E0|]. rewrite X. unfold cnorm2, csub. cbn [cx cy cz]. lia.
Qed.
Lemma made_elements coords els pt cf : mkConfiguration coords els pt = Some cf -> cf_coords cf = coords /\ zlen (cf_elements cf) = zlen els.
Proof. intros H. apply mkConfiguration_info in H. destruct H as [A B _ _ _ _ _ _ _ _ _]. rewrite A, B. auto. Qed.
(** Every process arrives under its number, with its rate and those of its basis points that the lattice has; with a calculator it uses custom rates, is cached exactly if the
    calculator caches and does not exclude its number, and looks as far as the calculator asks, but never less far than its own positions. *)
Definition arrives (S nbasis : Z) (g : option plugin) (i : Z) (p : kprocess) (proc : process) : Prop :=
  pr_number proc = i /\ pr_rate proc = rateOf p /\ pr_basis proc = filter (fun b => b <? nbasis) (basisOf p) /\
  exists m, largestReach (positionsOf p) m /\
    match g with
    | None => pr_custom proc = false /\ pr_cut2 proc = m
    | Some g => pr_custom proc = true /\ (pr_cache proc = true <-> pg_cache g = true /\ ~ In i (pg_exclude g)) /\ seenWithin S g m (pr_cut2 proc) /\ pr_range proc = Z.sqrt (pr_cut2 proc) / S
    end.
Definition sameLengths (p : kprocess) : Prop := match p with KPlainP q => zlen (kp_before q) = zlen (kp_coords q) | KBucketP b => zlen (kb_match b) = zlen (kb_coords b) end.
(** processes made by one of the two constructors *)
Definition constructed (S : Z) (p : kprocess) : Prop :=
  match p with
  | KPlainP q => exists coordinates before after moves basis rate, KMCProcess S coordinates before after moves basis rate = Ok q
  | KBucketP b => exists coordinates minimum update basis rate, KMCBucketProcess S coordinates minimum update basis rate = Ok b
  end.
Lemma centred_zlen cs : zlen (centred cs) = zlen cs. Proof. destruct cs; [reflexivity|]. unfold centred. apply zlen_map. Qed.
Lemma constructed_lengths S p : constructed S p -> sameLengths p.
Proof.
  destruct p as [q|b]; cbn [constructed sameLengths].
  - intros (c & b & a & m & bs & r & H). unfold KMCProcess in H. repeat match type of H with MPy.obind ?e _ = _ => destruct e; cbn [MPy.obind] in H; [|discriminate] end. cbv zeta in H.
    repeat match type of H with MPy.obind ?e _ = _ => destruct e; cbn [MPy.obind] in H; [|discriminate] end. injection H as <-. cbn [kp_before kp_coords]. rewrite centred_zlen, !zlen_map. reflexivity.
  - intros (c & m & u & bs & r & H). unfold KMCBucketProcess in H. destruct (checkCoordinateList c) as [cs0|]; cbn [MPy.obind] in H; [|discriminate]. cbv zeta in H.
    repeat match type of H with MPy.obind ?e _ = _ => destruct e as [?x|] eqn:?E; cbn [MPy.obind] in H; [|discriminate] end. destruct (Z.eqb_spec (zlen x1) (zlen (centred cs0))) as [EL|]; cbn [negb] in H; [|discriminate].
    destruct (oall _ (concat x1)); cbn [MPy.obind] in H; [|discriminate]. destruct (oall _ x1) as [ms'|] eqn:EM; cbn [MPy.obind] in H; [|discriminate]. injection H as <-. cbn [kb_match kb_coords]. apply oall_Forall2 in EM. apply Forall2_zlen in EM. rewrite !centred_zlen in *. lia.
Qed.
Lemma process_arrives S pt nbasis ki i p proc : sameLengths p -> backendProcess S pt nbasis (customOf S ki i) i p = Ok (Some proc) -> arrives S nbasis (ki_plugin ki) i p proc.
Proof.
  intros SL H.
  assert (G : forall first second rate basis origins vectors, zlen (cf_elements first) = zlen (cf_coords first) ->
     match customOf S ki i with None => mkProcess S first second rate basis origins vectors i | Some (cut, cache) => mkCustomProcess S first second rate basis cut origins vectors i cache end = Some proc ->
     cf_coords first = positionsOf p -> rate = rateOf p -> basis = filter (fun b => b <? nbasis) (basisOf p) -> arrives S nbasis (ki_plugin ki) i p proc).
  { intros first second rate basis origins vectors HL HM HP HR HB. unfold arrives, customOf in *. destruct (ki_plugin ki) as [g|].
    - unfold mkCustomProcess in HM. ob HM as p0 E0. destruct (mkProcess_reach _ _ _ _ _ _ _ _ _ HL E0) as (LR & _). injection HM as <-. cbn [pr_number pr_rate pr_basis pr_custom pr_cache pr_cut2 pr_range]. rewrite <- HP. split; [reflexivity|]. split; [exact HR|]. split; [exact HB|]. exists (pr_cut2 p0). split; [exact LR|]. split; [reflexivity|]. split; [|split; [|reflexivity]].
      + rewrite andb_true_iff, negb_true_iff. split; intros [A B]; (split; [exact A|]); [intros I|]; [apply (proj2 (zmem_In i (pg_exclude g))) in I; congruence|]. destruct (zmem i (pg_exclude g)) eqn:E; [|reflexivity]. apply zmem_In in E. contradiction.
      + unfold seenWithin. cbv zeta. set (cut := match pg_cutoff g with Some c => c | None => S end). destruct (Z.leb_spec 0 cut), (Z.ltb_spec cut 0); try lia; cbn [andb]; [|reflexivity]. destruct (Z.ltb_spec (pr_cut2 p0) (cut * cut)); lia.
    - destruct (mkProcess_reach _ _ _ _ _ _ _ _ _ HL HM) as (LR & A & B & C & D). rewrite <- HP, <- HR, <- HB. split; [exact B|]. split; [exact C|]. split; [exact D|]. eauto. }
  destruct p as [q|b]; cbn [backendProcess sameLengths] in *.
  - injection H as H. ob H as first E1. ob H as second E2. destruct (made_elements _ _ _ _ E1) as [A B]. rewrite zlen_map in B. eapply G; [|exact H|exact A|reflexivity|reflexivity]. rewrite A, B. exact SL.
  - destruct (backendElements _) as [els|] eqn:EE; cbn [MPy.obind] in H; [|discriminate]. destruct (updateMaps _) as [upd|]; cbn [MPy.obind] in H; [|discriminate]. injection H as H. ob H as first E1. destruct (made_elements _ _ _ _ E1) as [A B]. eapply G; [|exact H|exact A|reflexivity|reflexivity].
    rewrite A, B. rewrite <- SL. unfold backendElements in EE. cbn [kc_types] in EE. apply oall_Forall2 in EE. apply Forall2_zlen in EE. congruence.
Qed.
Theorem C69_backend S o possible nbasis it o' : io_backend o = None -> (forall p, In p (io_processes o) -> constructed S p) -> interBackend S o possible nbasis = Ok (Some (it, o')) ->
  exists g, makeCalculator o = Ok g /\ in_wild it = io_wild o /\ (in_custom it = true <-> g <> None) /\ (forall c, g = Some c -> in_rc it = pg_rates c) /\ zlen (in_procs it) = zlen (io_processes o) /\
    forall i p proc, zget (io_processes o) i = Some p -> zget (in_procs it) i = Some proc -> arrives S nbasis g i p proc.
Proof.
  intros NB SL H. unfold interBackend in H. rewrite NB in H. destruct (forallb _ _); [|discriminate]. destruct (makeCalculator o) as [g|] eqn:EM; cbn [MPy.obind] in H; [|discriminate]. exists g. split; [reflexivity|].
  unfold backendInteractions, backendProcesses in H. cbn [ki_processes ki_wild ki_plugin] in H. destruct (forallb _ _); cbn [MPy.obind] in H; [|discriminate]. destruct (oall _ _) as [ops|] eqn:EO; cbn [MPy.obind] in H; [|discriminate].
  destruct (omap (fun p => p) ops) as [procs|] eqn:EP; cbn [MPy.obind obind] in H; [|discriminate].
  assert (PR : in_procs it = procs) by (destruct g; injection H as <- _; reflexivity). split; [destruct g; injection H as <- _; reflexivity|]. split; [destruct g; injection H as <- _; cbn; split; congruence|]. split; [intros c ->; injection H as <- _; reflexivity|].
  rewrite PR. clear H PR. apply oall_Forall2 in EO. pose proof (Forall2_zlen _ _ _ EO) as LO. pose proof (zlen_nonneg (io_processes o)) as NN. rewrite PPyProcess.zlen_combine in LO by (rewrite zlen_zrange; lia). rewrite zlen_zrange in LO. pose proof (omap_zlen _ _ _ EP) as LP. split; [lia|].
  intros i p proc Ei Ep. pose proof (zget_range _ _ _ Ei) as Hi. eapply (process_arrives S possible nbasis (mkKI (io_processes o) (io_wild o) g)); [apply (constructed_lengths S), SL; eapply zget_In; exact Ei|].
  pose proof (omap_zget _ _ _ i EP) as Eop. rewrite Ep in Eop. symmetry in Eop. ob Eop as op Eop'. subst op. rename Eop' into Eop. assert (EC : zget (combine (zrange 0 (zlen (io_processes o) - 1)) (io_processes o)) i = Some (i, p)) by (rewrite zget_combine, zget_zrange, Ei by lia; reflexivity).
  exact (PAnalysis.Forall2_zget _ _ _ EO i (i, p) (Some proc) EC Eop).
Qed.

(** ** The default cutoff *)
Lemma largestReach_unique cs m m' : largestReach cs m -> largestReach cs m' -> m = m'.
Proof. intros (c & E & B & x & I & X) (c' & E' & B' & x' & I' & X'). rewrite E in E'. injection E' as <-. specialize (B _ I'). specialize (B' _ I). lia. Qed.
(** The documentation of cutoff(): without an answer of its own the calculator sees as far as the largest process reaches.
    That holds of the largest process itself, if it reaches at least 1.0. *)
Theorem C69_default_partial S o possible nbasis it o' g i p proc m : 0 <= S -> io_backend o = None -> (forall q, In q (io_processes o) -> constructed S q) -> interBackend S o possible nbasis = Ok (Some (it, o')) ->
  makeCalculator o = Ok (Some g) -> pg_cutoff g = None -> zget (io_processes o) i = Some p -> zget (in_procs it) i = Some proc ->
  largestReach (positionsOf p) m -> (forall q m', In q (io_processes o) -> largestReach (positionsOf q) m' -> m' <= m) -> S * S <= m -> pr_cut2 proc = m.
Proof.
  intros HS NB HC H HM HG Ei Ep HR _ H1. destruct (C69_backend _ _ _ _ _ _ NB HC H) as (g' & HM' & _ & _ & _ & _ & HA). rewrite HM in HM'. injection HM' as <-.
  destruct (HA _ _ _ Ei Ep) as (_ & _ & _ & m' & HR' & _ & _ & HC' & _). rewrite (largestReach_unique _ _ _ HR' HR) in HC'. unfold seenWithin in HC'. rewrite HG in HC'. cbv zeta in HC'. destruct (Z.ltb_spec S 0); lia.
Qed.
(** a swap over a distance of 2.0 and a change at one site; S = 10 *)
Definition xiFar : kproc := match KMCProcess 10 (pyCoords [czero; mkC 20 0 0]) (pyNames ["A"; "B"]) (pyNames ["B"; "A"]) VNone (pyBasis [0]) (VFloat (FNum 3)) with Ok p => p | Raise _ => mkKP [] [] [] [] [] 0 end.
Definition xiNear : kproc := match KMCProcess 10 (pyCoords [czero]) (pyNames ["A"]) (pyNames ["B"]) VNone (pyBasis [0; 1]) (VFloat (FNum 5)) with Ok p => p | Raise _ => mkKP [] [] [] [] [] 0 end.
Lemma xi_constructed p : In p [KPlainP xiFar; KPlainP xiNear] -> constructed 10 p.
Proof. intros [<- |[<- |[]]]; cbn [constructed]; [exists (pyCoords [czero; mkC 20 0 0]), (pyNames ["A"; "B"]), (pyNames ["B"; "A"]), VNone, (pyBasis [0]), (VFloat (FNum 3))|exists (pyCoords [czero]), (pyNames ["A"]), (pyNames ["B"]), VNone, (pyBasis [0; 1]), (VFloat (FNum 5))]; vm_compute; reflexivity. Qed.
Definition xiClass (g : plugin) : calcClass := mkClass Derived (fun _ => g).
(** It does not hold of the others: a process that reaches 2.0 does not make the calculator see further than 1.0 around another one. *)
Theorem C69_default_refuted : exists o o1 it o2 proc, newInteractions (Some (map Some [KPlainP xiFar; KPlainP xiNear])) VNone = Ok o /\ (forall p, In p (io_processes o) -> constructed 10 p) /\
  setRateCalculator [] o (CalcClass (xiClass (mkPlug None false [] noCalculator))) = Ok o1 /\ interBackend 10 o1 ptAB 2 = Ok (Some (it, o2)) /\
  largestReach (positionsOf (KPlainP xiFar)) 400 /\ zget (in_procs it) 1 = Some proc /\ pr_cut2 proc = 100.
Proof.
  eexists _, _, _, _, _. split; [reflexivity|]. split; [exact xi_constructed|]. split; [reflexivity|]. split; [vm_compute; reflexivity|]. split; [|split; vm_compute; reflexivity].
  exists czero. split; [vm_compute; reflexivity|]. split; [|exists (mkC 20 0 0); split; [right; left; vm_compute|vm_compute]; reflexivity]. intros c [E|[E|[]]]; vm_compute in E; subst c; vm_compute; discriminate.
Qed.

(** ** The hypotheses are met *)
(** a calculator that looks as far as 1.5, caches, and excludes process 1; set after another one and before a query; asked again with other types *)
Definition xiCalc : plugin := mkPlug (Some 15) true [1] noCalculator.
Example C69_example : exists o o1 it o2 p0 p1, newInteractions (Some (map Some [KPlainP xiFar; KPlainP xiNear])) (VBool false) = Ok o /\
  setAll [("Named", xiClass (mkPlug None false [] noCalculator))] o [CalcNone; CalcClass (xiClass (mkPlug None false [] noCalculator)); CalcClass (xiClass xiCalc)] = Ok o1 /\
  noClassAfterName [CalcNone; CalcClass (xiClass (mkPlug None false [] noCalculator)); CalcClass (xiClass xiCalc)] = true /\ makeCalculator o1 = Ok (Some xiCalc) /\ io_backend o1 = None /\
  interBackend 10 o1 ptAB 1 = Ok (Some (it, o2)) /\ (forall p, In p (io_processes o1) -> constructed 10 p) /\ in_wild it = false /\ in_procs it = [p0; p1] /\
  (pr_cut2 p0, pr_cache p0, pr_basis p0, pr_rate p0, pr_range p0) = (400, true, [0], 3, 2) /\ (pr_cut2 p1, pr_cache p1, pr_basis p1, pr_rate p1, pr_range p1) = (225, false, [0], 5, 1) /\
  exists o3, setAll [("Named", xiClass (mkPlug None false [] noCalculator))] o2 [CalcName "Named"] = Ok o3 /\ interBackend 10 o3 [] 7 = Ok (Some (it, o3)).
Proof.
  eexists _, _, _, _, _, _. split; [reflexivity|]. split; [reflexivity|]. split; [reflexivity|]. split; [reflexivity|]. split; [reflexivity|]. split; [vm_compute; reflexivity|]. split; [exact xi_constructed|]. split; [reflexivity|]. split; [reflexivity|]. split; [vm_compute; reflexivity|]. split; [vm_compute; reflexivity|].
  eexists. split; reflexivity.
Qed.
(** refused: no processes, something that is not a process, a number as flag; a calculator of an unknown name, an instance *)
Example C69_refused : newInteractions None VNone = Raise KmcError /\ newInteractions (Some []) VNone = Raise KmcError /\ newInteractions (Some [Some (KPlainP xiFar); None]) VNone = Raise KmcError /\
  newInteractions (Some [Some (KPlainP xiFar)]) (VInt 1) = Raise KmcError /\ (forall o, setRateCalculator [("Named", xiClass xiCalc)] o (CalcName "named") = Raise KmcError) /\ (forall o, setRateCalculator [] o CalcOther = Raise KmcError).
Proof. repeat split. Qed.
(** the default: the process that reaches 2.0 is seen within 2.0 *)
Example C69_default_example : exists o it o2 proc, newInteractions (Some (map Some [KPlainP xiFar; KPlainP xiNear])) VNone = Ok o /\
  interBackend 10 (mkIO (io_processes o) (io_wild o) (Some (xiClass (mkPlug None false [] noCalculator))) false None) ptAB 2 = Ok (Some (it, o2)) /\ zget (in_procs it) 0 = Some proc /\ pr_cut2 proc = 400.
Proof. eexists _, _, _, _. split; [reflexivity|]. split; [vm_compute; reflexivity|]. split; vm_compute; reflexivity. Qed.

Print Assumptions C69_accepted.
Print Assumptions C69_backend.
Print Assumptions C69_calculator_partial.
Print Assumptions C69_kept.
Print Assumptions C69_default_partial.
Print Assumptions C69_default_refuted.
Print Assumptions C69_calculator_refuted.
