(** C80: several runs on one model.  Each goes on from where the one before ended, and each seeds the generator anew. *)
From Coq Require Import Lra.
From Verif Require Import PBase SModel SRepeat PRandom TRandom XSystems.
From Coq Require Import ZifyBool.
Open Scope list_scope.
Open Scope Z_scope.

Section C80.
(** any engines *)
Context {E : Type} (seeded : rng -> Z -> E) (canonical : rng -> E -> deviate * E).

Lemma runOnce_engine fuel c km g : callType c <> DEVICE ->
  runOnce seeded canonical fuel c km g =
  (b <- kmcBackend km ;;
   if totalAvailableSites (md_in (fst b)) =? 0 then Some (NothingAvailable, mkKmcModel (km_make km) (Some b), prepared seeded (rl_rng c) (callSeed c) g)
   else option_map (fun x => let '(md', t', _, e', en) := x in (Looped en, mkKmcModel (km_make km) (Some (md', t')), setEngine (prepared seeded (rl_rng c) (callSeed c) g) e'))
          (loopEngine canonical fuel (rl_steps c) (callType c) (fst b) (snd b) (seeded (callType c) (callSeed c)))).
Proof.
  intros Hc. unfold runOnce, setRngType. fold (callType c). assert (Ei : isDevice (callType c) = false) by (destruct (callType c); try reflexivity; contradiction). rewrite Ei.
  destruct (kmcBackend km) as [[md t]|]; cbn [obind fst snd]; [|reflexivity].
  change (seedRandom seeded (rc_time (rl_rng c)) (rl_now c) (rc_seed (rl_rng c)) _) with (prepared seeded (rl_rng c) (callSeed c) g).
  destruct (totalAvailableSites (md_in md) =? 0); [reflexivity|]. rewrite loop_engine by (rewrite prepared_type; exact Hc).
  rewrite prepared_type, prepared_engine by exact Hc. fold (callType c). destruct (loopEngine _ _ _ _ _ _) as [[[[[md2 t2] ss] e3] en]|]; reflexivity.
Qed.
Lemma runOnce_does fuel c km g e km' g' : callType c <> DEVICE -> runOnce seeded canonical fuel c km g = Some (e, km', g') ->
  exists md t steps md' t', kmcBackend km = Some (md, t) /\ km' = mkKmcModel (km_make km) (Some (md', t')) /\ callDoes seeded canonical c md t steps e md' t'.
Proof.
  intros Hc H. rewrite runOnce_engine in H by exact Hc. ob H as b EB. destruct b as [md t]. cbn [fst snd] in H.
  destruct (Z.eqb_spec (totalAvailableSites (md_in md)) 0) as [E0|E0].
  - injection H as <- <- <-. exists md, t, [], md, t. split; [first [exact EB|reflexivity]|]. split; [reflexivity|]. constructor. exact E0.
  - destruct (loopEngine _ _ _ _ _ _) as [[[[[md' t'] steps] e'] en]|] eqn:EL; cbn [option_map] in H; [|discriminate]. injection H as <- <- <-.
    apply loopEngine_numbers in EL. destruct EL as (N & T & F). exists md, t, steps, md', t'. split; [first [exact EB|reflexivity]|]. split; [reflexivity|]. constructor; [exact E0| | |exact F].
    + specialize (N O). rewrite Nat.add_0_r in N. rewrite N. cbn [numbers]. rewrite app_nil_r. reflexivity.
    + specialize (T []). rewrite app_nil_r in T. exact T.
Qed.

(** ** A sequence of calls *)
(** Whatever the generators g did before and however the calls differ: on a new model (no call of run so far) the first call starts from the configuration given, at time 0,
    each later one from where the one before it ended, in configuration and time; each uses the numbers of its engine newly seeded with its seed, from the first on. *)
Theorem C80_calls fuel cs km g es km' g' : Forall (fun c => callType c <> DEVICE) cs -> cs <> [] -> km_backend km = None -> runCalls seeded canonical fuel cs km g = Some (es, km', g') ->
  exists md ss md' t', km_make km = Some md /\ callsDo seeded canonical cs md (DFin 0) ss es md' t' /\ km_make km' = km_make km /\ km_backend km' = Some (md', t').
Proof.
  assert (G : forall cs km g es km' g', Forall (fun c => callType c <> DEVICE) cs -> runCalls seeded canonical fuel cs km g = Some (es, km', g') ->
    (cs = [] /\ es = [] /\ km' = km) \/ exists md t ss md' t', kmcBackend km = Some (md, t) /\ callsDo seeded canonical cs md t ss es md' t' /\ km' = mkKmcModel (km_make km) (Some (md', t'))).
  { clear. induction cs as [|c cs IH]; intros km g es km' g' HF H; cbn [runCalls] in H.
    - injection H as <- <- <-. left. auto.
    - right. inversion HF as [|? ? Hc HF']; subst. ob H as r Er. destruct r as [[e km1] g1]. ob H as x Ex. destruct x as [[es1 km2] g2]. injection H as <- <- <-.
      destruct (runOnce_does _ _ _ _ _ _ _ Hc Er) as (md & t & steps & md1 & t1 & EB & -> & D). specialize (IH _ _ _ _ _ HF' Ex).
      destruct IH as [(-> & -> & ->)|(md2 & t2 & ss & md' & t' & EB2 & D2 & ->)].
      + exists md, t, [steps], md1, t1. split; [exact EB|]. split; [|reflexivity]. econstructor; [exact D|constructor].
      + cbn [kmcBackend km_backend] in EB2. injection EB2 as <- <-. exists md, t, (steps :: ss), md', t'. split; [exact EB|]. split; [|reflexivity]. econstructor; [exact D|exact D2]. }
  intros HF HN HB H. destruct (G _ _ _ _ _ _ HF H) as [(-> & _)|(md & t & ss & md' & t' & EB & D & ->)]; [contradiction|].
  unfold kmcBackend in EB. rewrite HB in EB. ob EB as md0 EM. injection EB as <- <-. exists md0, ss, md', t'. split; [first [exact EM|reflexivity]|]. split; [exact D|]. split; reflexivity.
Qed.

Lemma numbers_prefix ty e : forall a b, (a <= b)%nat -> startsWith (numbers canonical ty e a) (numbers canonical ty e b).
Proof.
  intros a. revert e. induction a as [|a IH]; intros e b H; [exists (numbers canonical ty e b); reflexivity|]. destruct b as [|b]; [lia|]. cbn [numbers].
  destruct (IH (snd (canonical ty e)) b ltac:(lia)) as [r Er]. exists r. cbn [app]. f_equal. exact Er.
Qed.
Lemma does_numbers c md t steps e md' t' : callDoes seeded canonical c md t steps e md' t' ->
  allNumbers steps = numbers canonical (callType c) (seeded (callType c) (callSeed c)) (length (allNumbers steps)).
Proof. intros H. inversion H; subst; [reflexivity|assumption]. Qed.

(** ** The same numbers again *)
(** Any two calls of the same generator type with the same seed use the same numbers: those of the one that uses fewer are the first ones of the other.
    (calls of one model or of different models, at any times and in any states) *)
Theorem C80_same_numbers c c' md t steps e md1 t1 md' t' steps' e' md1' t1' :
  callDoes seeded canonical c md t steps e md1 t1 -> callDoes seeded canonical c' md' t' steps' e' md1' t1' -> callType c = callType c' -> callSeed c = callSeed c' ->
  startsWith (allNumbers steps) (allNumbers steps') \/ startsWith (allNumbers steps') (allNumbers steps).
Proof.
  intros D D' HT HS. apply does_numbers in D, D'. rewrite <- HT, <- HS in D'. rewrite D, D'.
  destruct (Nat.le_ge_cases (length (allNumbers steps)) (length (allNumbers steps'))); [left|right]; apply numbers_prefix; assumption.
Qed.
(** For a sequence of calls on one model: when the settings ask for a fixed seed (the default is a time seed), all calls use the beginnings of one sequence of numbers. *)
Theorem C80_fixed_seed fuel cs km g es km' g' ty seed : ty <> DEVICE -> Forall (fun c => rl_rng c = mkRngControl ty false seed) cs -> cs <> [] -> km_backend km = None ->
  runCalls seeded canonical fuel cs km g = Some (es, km', g') ->
  exists md ss md' t', km_make km = Some md /\ callsDo seeded canonical cs md (DFin 0) ss es md' t' /\ km_backend km' = Some (md', t') /\
    Forall (fun steps => allNumbers steps = numbers canonical ty (seeded ty seed) (length (allNumbers steps))) ss.
Proof.
  intros Hty HF HN HB H.
  destruct (C80_calls fuel cs km g es km' g') as (md & ss & md' & t' & EM & D & _ & EB); [|exact HN|exact HB|exact H|].
  { eapply Forall_impl; [|exact HF]. intros c Ec. unfold callType. rewrite Ec. exact Hty. }
  exists md, ss, md', t'. split; [exact EM|]. split; [exact D|]. split; [exact EB|]. clear - D HF. induction D as [|c cs md t steps e md1 t1 ss es md2 t2 D1 D2 IH]; constructor.
  - inversion HF as [|? ? Ec HF']; subst. apply does_numbers in D1. unfold callType, callSeed, usedSeed in D1. rewrite Ec in D1. exact D1.
  - apply IH. inversion HF; assumption.
Qed.

(** ** Longer runs extend shorter ones *)
Lemma loopEngine_app fuel m ty : forall n md t e x, loopEngine canonical fuel (n + m) ty md t e = Some x ->
  exists md1 t1 ss1 e1 en1, loopEngine canonical fuel n ty md t e = Some (md1, t1, ss1, e1, en1) /\
    (en1 = NoProcess /\ x = (md1, t1, ss1, e1, NoProcess) \/
     en1 = AllSteps /\ exists md2 t2 ss2 e2 en2, loopEngine canonical fuel m ty md1 t1 e1 = Some (md2, t2, ss2, e2, en2) /\ x = (md2, t2, ss1 ++ ss2, e2, en2)).
Proof.
  induction n as [|n IH]; intros md t e x H.
  - exists md, t, [], e, AllSteps. split; [reflexivity|]. right. split; [reflexivity|]. destruct x as [[[[md2 t2] ss2] e2] en2]. exists md2, t2, ss2, e2, en2. split; [exact H|reflexivity].
  - cbn [plus loopEngine] in *. destruct (totalAvailableSites (md_in md) =? 0).
    + injection H as <-. exists md, t, [], e, NoProcess. split; [reflexivity|]. left. auto.
    + ob H as r Er. rewrite Er. cbn [obind]. ob H as md1 ES. rewrite ES. cbn [obind]. ob H as y Ey. destruct y as [[[[md2 t2] ss2] e2] en2]. injection H as <-.
      destruct (IH _ _ _ _ Ey) as (mda & ta & sa & ea & na & EL & Hx). rewrite EL. cbn [obind]. do 5 eexists. split; [reflexivity|].
      destruct Hx as [[-> EQ]|(-> & mdb & tb & sb & eb & nb & EL2 & EQ)]; injection EQ as -> -> -> -> ->; [left; auto|]. right. split; [reflexivity|]. exists mdb, tb, sb, eb, nb. split; [exact EL2|reflexivity].
Qed.
(** If a run of n + m steps is possible, so is the run of n steps with the same settings on the same new model, and the long run is the short one continued: with the numbers
    that follow those of the short one.  (the second of two runs, by contrast, begins again with the first number) *)
Theorem C80_longer fuel n m c now km g e km' g' : rc_type c <> DEVICE -> km_backend km = None -> runOnce seeded canonical fuel (mkCall (n + m) c now) km g = Some (Looped e, km', g') ->
  exists md md1 t1 steps1 g1 e1 md2 t2 steps2, km_make km = Some md /\ runOnce seeded canonical fuel (mkCall n c now) km g = Some (Looped e1, mkKmcModel (km_make km) (Some (md1, t1)), g1) /\
    km' = mkKmcModel (km_make km) (Some (md2, t2)) /\
    timedRun md (DFin 0) (choiceNumbers steps1) (clockNumbers steps1) = Some (md1, t1, []) /\ timedRun md1 t1 (choiceNumbers steps2) (clockNumbers steps2) = Some (md2, t2, []) /\
    allNumbers steps1 ++ allNumbers steps2 = numbers canonical (rc_type c) (seeded (rc_type c) (usedSeed c now)) (length (allNumbers steps1) + length (allNumbers steps2)) /\
    (e1 = NoProcess -> steps2 = [] /\ e = NoProcess) /\ (e = AllSteps -> e1 = AllSteps /\ length steps1 = n /\ length steps2 = m).
Proof.
  intros Hc HB H. rewrite runOnce_engine in H by exact Hc. rewrite runOnce_engine by exact Hc. unfold kmcBackend in *. rewrite HB in *. destruct (km_make km) as [md|]; cbn [obind] in *; [|discriminate].
  cbn [fst snd rl_steps] in *. unfold callType, callSeed in *. cbn [rl_rng rl_now] in *.
  destruct (totalAvailableSites (md_in md) =? 0); [discriminate|].
  destruct (loopEngine canonical fuel (n + m) _ _ _ _) as [x|] eqn:EL; cbn [option_map] in H; [|discriminate].
  destruct (loopEngine_app _ _ _ _ _ _ _ _ EL) as (md1 & t1 & ss1 & e1 & en1 & E1 & Hx). rewrite E1. cbn [option_map].
  apply loopEngine_numbers in E1. destruct E1 as (N1 & T1 & F1). pose proof (T1 []) as T1'. rewrite app_nil_r in T1'.
  destruct Hx as [[-> ->]|(-> & md2 & t2 & ss2 & e2 & en2 & E2 & ->)]; injection H as <- <- <-.
  - exists md, md1, t1, ss1. do 2 eexists. exists md1, t1, []. split; [reflexivity|]. split; [reflexivity|]. split; [reflexivity|]. split; [exact T1'|]. split; [reflexivity|].
    split; [|split; [auto|discriminate]]. specialize (N1 O). cbn [allNumbers flat_map length]. rewrite N1. reflexivity.
  - apply loopEngine_numbers in E2. destruct E2 as (N2 & T2 & F2). pose proof (T2 []) as T2'. rewrite app_nil_r in T2'.
    exists md, md1, t1, ss1. do 2 eexists. exists md2, t2, ss2. split; [reflexivity|]. split; [reflexivity|]. split; [reflexivity|]. split; [exact T1'|]. split; [exact T2'|].
    split; [|split; [discriminate|]].
    + rewrite N1. f_equal. specialize (N2 O). rewrite Nat.add_0_r in N2. cbn [numbers] in N2. rewrite app_nil_r in N2. symmetry. exact N2.
    + intros ->. destruct F1 as [[_ F1]|(F & _)]; [|discriminate]. destruct F2 as [[_ F2]|(F & _)]; [|discriminate]. auto.
Qed.
End C80.

(** ** Two runs are not one long run *)
(** One would expect that run for n steps followed by run for m steps does what one run for n + m steps does (C49: it does if the backend is given the same numbers).
    With a fixed seed it does not: the second call seeds the generator again. *)
Definition toyCall (n : nat) : runCall := mkCall n (mkRngControl MINSTD false 3) 1000.
Definition x80Check : bool :=
  somewhere x1cf (fun cf => somewhere x1in (fun it => somewhere (mkLatticeModel 1 xhash x1L cf it) (fun md =>
    somewhere (toyLoop 1 MINSTD md (toySeed MINSTD 3)) (fun md1 => somewhere (toyLoop 1 MINSTD md1 (toySeed MINSTD 3)) (fun md2 => somewhere (toyLoop 2 MINSTD md (toySeed MINSTD 3)) (fun md3 =>
      negb (totalAvailableSites (md_in md) =? 0) && negb (totalAvailableSites (md_in md1) =? 0) &&
      if list_eq_dec (list_eq_dec Z.eq_dec) (cf_types (md_cf md2)) (cf_types (md_cf md3)) then false else true)))))).
Lemma x80_ok : x80Check = true. Proof. vm_compute. reflexivity. Qed.
Strategy expand [x80Check].
Lemma toyOnce n km md t g md' : kmcBackend km = Some (md, DFin t) -> totalAvailableSites (md_in md) <> 0 -> toyLoop n MINSTD md (toySeed MINSTD 3) = Some md' ->
  exists t' g', runOnce toySeed toyNext 5 (toyCall n) km g = Some (Looped AllSteps, mkKmcModel (km_make km) (Some (md', DFin t')), g').
Proof.
  intros EB H0 EL. rewrite runOnce_engine by discriminate. rewrite EB. cbn [obind fst snd]. rewrite (proj2 (Z.eqb_neq _ 0) H0).
  destruct (toyLoop_loop 4 n MINSTD md t _ _ EL) as (t' & ss & e' & EE). change (rl_steps (toyCall n)) with n. change (callType (toyCall n)) with MINSTD. change (callSeed (toyCall n)) with 3. rewrite EE. do 2 eexists. reflexivity.
Qed.
Theorem C80_split_refuted : exists km g es1 km1 g1 md1 t1 es2 km2 g2 md2 t2,
  km_backend km = None /\ runCalls toySeed toyNext 5 [toyCall 1; toyCall 1] km g = Some (es1, km1, g1) /\ runCalls toySeed toyNext 5 [toyCall 2] km g = Some (es2, km2, g2) /\
  es1 = [Looped AllSteps; Looped AllSteps] /\ es2 = [Looped AllSteps] /\ km_backend km1 = Some (md1, t1) /\ km_backend km2 = Some (md2, t2) /\ cf_types (md_cf md1) <> cf_types (md_cf md2).
Proof.
  pose proof x80_ok as H. unfold x80Check in H. apply somewhere_Some in H. destruct H as (cf & E1 & H). apply somewhere_Some in H. destruct H as (it & E2 & H).
  apply somewhere_Some in H. destruct H as (md0 & E3 & H). apply somewhere_Some in H. destruct H as (md1 & E4 & H). apply somewhere_Some in H. destruct H as (md2 & E5 & H). apply somewhere_Some in H. destruct H as (md3 & E6 & H).
  apply andb_true_iff in H. destruct H as [H HN]. apply andb_true_iff in H. destruct H as [A0 A1]. apply negb_true_iff, Z.eqb_neq in A0. apply negb_true_iff, Z.eqb_neq in A1.
  destruct (list_eq_dec (list_eq_dec Z.eq_dec) (cf_types (md_cf md2)) (cf_types (md_cf md3))) as [|HD]; [discriminate|].
  pose (km := mkKmcModel (Some md0) None).
  destruct (toyOnce 1 km md0 0 (someGens 8) md1 eq_refl A0 E4) as (t1 & g1 & R1).
  destruct (toyOnce 1 (mkKmcModel (Some md0) (Some (md1, DFin t1))) md1 t1 g1 md2 eq_refl A1 E5) as (t2 & g2 & R2).
  destruct (toyOnce 2 km md0 0 (someGens 8) md3 eq_refl A0 E6) as (t3 & g3 & R3).
  do 12 eexists. split; [|split; [|split; [|split; [|split; [|split; [|split; [|exact HD]]]]]]].
  - exact (eq_refl (km_backend km)).
  - cbn [runCalls]. rewrite R1. cbn [obind]. change (km_make km) with (Some md0). rewrite R2. cbn [obind]. reflexivity.
  - cbn [runCalls]. rewrite R3. cbn [obind]. reflexivity.
  - reflexivity.
  - reflexivity.
  - reflexivity.
  - reflexivity.
Qed.

(** ** A concrete case for the hypotheses: two calls with a fixed seed on system 1, with the toy engine *)
Example C80_example : exists km g es km' g', Forall (fun c => callType c <> DEVICE) [toyCall 1; toyCall 1] /\ Forall (fun c => rl_rng c = mkRngControl MINSTD false 3) [toyCall 1; toyCall 1] /\
  km_backend km = None /\ runCalls toySeed toyNext 5 [toyCall 1; toyCall 1] km g = Some (es, km', g') /\ es = [Looped AllSteps; Looped AllSteps] /\
  exists km2 g2, runOnce toySeed toyNext 5 (mkCall (1 + 1) (mkRngControl MINSTD false 3) 1000) km g = Some (Looped AllSteps, km2, g2).
Proof.
  destruct C80_split_refuted as (km & g & es1 & km1 & g1 & md1 & t1 & es2 & km2 & g2 & md2 & t2 & HB & H1 & H2 & -> & -> & _).
  exists km, g. do 3 eexists. split; [repeat constructor; discriminate|]. split; [repeat constructor|]. split; [exact HB|]. split; [exact H1|]. split; [reflexivity|].
  cbn [runCalls] in H2. ob H2 as r Er. destruct r as [[e km3] g3]. cbn [obind] in H2. injection H2 as -> -> ->. exists km2, g2. exact Er.
Qed.
Print Assumptions C80_calls. Print Assumptions C80_same_numbers. Print Assumptions C80_fixed_seed. Print Assumptions C80_longer. Print Assumptions C80_split_refuted.
