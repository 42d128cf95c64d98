(** Theorems on the arguments of KMCLatticeModel.run: C83. *)
From Verif Require Import MRunArgs SRunArgs TRepeat XCheck XSystems TRandom.
Open Scope string_scope.
Open Scope list_scope.
Open Scope Z_scope.

Section C83.
Context (objects : Z -> pyobject) {E : Type} (seeded : rng -> Z -> E).
Let start := runStart objects seeded.

Lemma objects_of cls : forall l, forallb (fun v => match v with VOther n => cls (objects n) | _ => false end) l = true <-> exists ns, l = map VOther ns /\ forall n, In n ns -> cls (objects n) = true.
Proof.
  induction l as [|v l IH].
  - split; [intros _; exists []; split; [reflexivity|intros n []]|reflexivity].
  - cbn [forallb]. rewrite andb_true_iff, IH. split.
    + intros [Hv (ns & -> & HN)]. destruct v as [| | | | | | |m]; try discriminate. exists (m :: ns). split; [reflexivity|]. intros n [<-|Hn]; auto.
    + intros (ns & EQ & HN). destruct ns as [|m ns]; [discriminate|]. injection EQ as -> ->. split; [apply HN; left; reflexivity|]. exists ns. split; [reflexivity|]. intros n Hn. apply HN. right. exact Hn.
Qed.
Lemma chars_other s ns : chars s = map VOther ns -> ns = [].
Proof. destruct s, ns; try discriminate; reflexivity. Qed.
Lemma checkObjects_spec cls v l : checkObjects (fun v => match v with VOther n => cls (objects n) | _ => false end) v = Ok l <-> exists ns, l = map VOther ns /\ givesObjects objects cls v ns.
Proof.
  assert (G : forall l0, checkSequenceOf (fun v => match v with VOther n => cls (objects n) | _ => false end) v = Ok l -> asSeq v = Some l0 -> l = l0 /\ l <> [] /\ exists ns, l = map VOther ns /\ forall n, In n ns -> cls (objects n) = true).
  { intros l0 H HS. unfold checkSequenceOf in H. rewrite HS in H. destruct l0 as [|x l0]; [discriminate|]. destruct (forallb _ _) eqn:EF in H; [|discriminate]. injection H as <-. split; [reflexivity|]. split; [discriminate|]. apply objects_of. exact EF. }
  split.
  - intros H. destruct v as [| | | |s|l0|l0|m]; cbn [checkObjects] in H; try discriminate.
    + injection H as <-. exists []. split; [reflexivity|]. left. split; reflexivity.
    + destruct (G _ H eq_refl) as (-> & HN & ns & EQ & _). rewrite EQ in HN. apply chars_other in EQ. subst ns. contradiction.
    + destruct (G _ H eq_refl) as (-> & HN & ns & -> & HC). exists ns. split; [reflexivity|]. right. split; [intros ->; apply HN; reflexivity|]. split; [left; reflexivity|exact HC].
    + destruct (G _ H eq_refl) as (-> & HN & ns & -> & HC). exists ns. split; [reflexivity|]. right. split; [intros ->; apply HN; reflexivity|]. split; [right; reflexivity|exact HC].
  - intros (ns & -> & [[-> ->]|(HN & HV & HC)]); [reflexivity|].
    assert (HF : forallb (fun v => match v with VOther n => cls (objects n) | _ => false end) (map VOther ns) = true) by (apply objects_of; exists ns; split; [reflexivity|exact HC]).
    destruct ns as [|m ns]; [contradiction|]. destruct HV as [-> | ->]; cbn [checkObjects]; unfold checkSequenceOf; cbn [asSeq map]; cbn [map] in HF; rewrite HF; reflexivity.
Qed.
Lemma map_other_inj : forall a b, map VOther a = map VOther b -> a = b.
Proof. induction a as [|x a IH]; intros [|y b] H; try discriminate; [reflexivity|]. injection H as -> H. f_equal. apply IH. exact H. Qed.
Lemma asControl_spec v p : asControl objects v = Some p <-> exists n, v = VOther n /\ ob_control (objects n) = Some p.
Proof. split; [|intros (n & -> & H); exact H]. destruct v as [| | | | | | |m]; cbn [asControl]; try discriminate. intros H. exists m. auto. Qed.
Lemma checkFilename_spec v f : checkFilename v = Ok f <-> match f with None => v = VNone | Some s => v = VStr s end.
Proof. destruct f as [s|]; destruct v; cbn; split; intros H; try discriminate; try (injection H as <-); try reflexivity; injection H as <-; reflexivity. Qed.
Lemma checkTrajType_spec v s : checkTrajType v = Ok s <-> v = VNone /\ s = "lattice" \/ v = VStr s.
Proof.
  split.
  - destruct v; cbn; intros H; try discriminate; injection H as <-; auto.
  - intros [[-> ->]| ->]; reflexivity.
Qed.
Lemma checkRunArgs_spec a p f ty an br : checkRunArgs objects a = Ok (p, f, ty, an, br) <->
  asControl objects (ra_control a) = Some p /\ checkFilename (ra_file a) = Ok f /\ checkTrajType (ra_type a) = Ok ty /\ checkObjects (isAnalysis objects) (ra_analysis a) = Ok an /\ checkObjects (isBreaker objects) (ra_breakers a) = Ok br.
Proof.
  unfold checkRunArgs. destruct (asControl objects (ra_control a)) as [q|]; [|split; [discriminate|intros [H _]; discriminate]].
  destruct (checkFilename (ra_file a)) as [f'|e]; cbn [MPy.obind]; [|split; [discriminate|intros (_ & H & _); discriminate]].
  destruct (checkTrajType (ra_type a)) as [t'|e]; cbn [MPy.obind]; [|split; [discriminate|intros (_ & _ & H & _); discriminate]].
  destruct (checkObjects (isAnalysis objects) (ra_analysis a)) as [a'|e]; cbn [MPy.obind]; [|split; [discriminate|intros (_ & _ & _ & H & _); discriminate]].
  destruct (checkObjects (isBreaker objects) (ra_breakers a)) as [b'|e]; cbn [MPy.obind]; [|split; [discriminate|intros (_ & _ & _ & _ & H); discriminate]].
  split; [intros H; injection H as -> -> -> -> ->; auto|]. intros (H1 & H2 & H3 & H4 & H5). congruence.
Qed.
Lemma traj_spec a f ty tr : checkFilename (ra_file a) = Ok f -> checkTrajType (ra_type a) = Ok ty -> (trajectoryOf f ty = Some tr <-> givesTrajectory (ra_file a) (ra_type a) tr).
Proof.
  rewrite checkFilename_spec, checkTrajType_spec. intros HF HT. unfold trajectoryOf, givesTrajectory. destruct f as [f|].
  - rewrite HF. destruct (String.eqb_spec ty "lattice") as [->|N1]; [|destruct (String.eqb_spec ty "xyz") as [->|N2]].
    + split.
      * intros H. injection H as <-. split; [reflexivity|]. destruct HT as [[-> _]| ->]; auto.
      * destruct tr as [[[] g]|]; intros [H1 H2]; [injection H1 as ->; reflexivity| |discriminate]. destruct HT as [[HT _]|HT]; rewrite HT in H2; discriminate.
    + destruct HT as [[_ HT]|HT]; [discriminate|]. split.
      * intros H. injection H as <-. auto.
      * destruct tr as [[[] g]|]; intros [H1 H2]; [|injection H1 as ->; reflexivity|discriminate]. rewrite HT in H2. destruct H2; discriminate.
    + destruct HT as [[_ HT]|HT]; [contradiction|]. split; [discriminate|]. destruct tr as [[[] g]|]; intros [H1 H2]; [|rewrite HT in H2; injection H2 as ->; contradiction|discriminate].
      rewrite HT in H2. destruct H2 as [H2|H2]; [discriminate|]. injection H2 as ->. contradiction.
  - rewrite HF. split.
    + intros H. injection H as <-. split; [reflexivity|]. destruct HT as [[-> _]| ->]; [auto|right; eexists; reflexivity].
    + destruct tr as [[[] g]|]; intros [H1 H2]; [discriminate|discriminate|reflexivity].
Qed.
Lemma rng_called s ty : rngCalled s ty -> rngNamed s = ty.
Proof. intros [[-> ->]|[[-> ->]|[[-> ->]|[[-> ->]|[-> ->]]]]]; reflexivity. Qed.

(** ** Which arguments are accepted *)
(** For a model in which something can happen and a generator that is supported, the run begins with the settings, the trajectory and the objects the arguments ask for, in the
    order given; and with nothing else. *)
Theorem C83_accepts now a km g p tr an br md t : kmcBackend km = Some (md, t) -> totalAvailableSites (md_in md) <> 0 -> (p_rng p = "DEVICE" -> g_entropy g = true) ->
  (exists km' g', start now a km g = Some (Started p tr (map VOther an) (map VOther br), km', g')) <-> asksFor objects a p tr an br.
Proof.
  intros HB HA HD. subst start. unfold runStart. split.
  - intros (km' & g' & H). destruct (checkRunArgs objects a) as [[[[[p' f] ty] an'] br']|e] eqn:EC; [|discriminate]. destruct (proj1 (checkRunArgs_spec _ _ _ _ _ _) EC) as (H1 & H2 & H3 & H4 & H5).
    destruct (setRngType (rngNamed (p_rng p')) g) as [ok g1]. destruct ok; [|discriminate]. rewrite HB in H. destruct (totalAvailableSites (md_in md) =? 0); [discriminate|].
    destruct (trajectoryOf f ty) as [tr'|] eqn:ET; [|discriminate]. injection H as -> -> -> -> _ _. apply asControl_spec in H1. apply (traj_spec _ _ _ _ H2 H3) in ET.
    apply checkObjects_spec in H4. apply checkObjects_spec in H5. destruct H4 as (ns & EQ & H4), H5 as (ms & EQ' & H5). apply map_other_inj in EQ, EQ'. subst ns ms. repeat split; assumption.
  - intros (H1 & HT & H4 & H5). apply asControl_spec in H1.
    assert (exists f, checkFilename (ra_file a) = Ok f) as [f H2]. { destruct tr as [[[] f]|]; destruct HT as [HF _]; eexists; apply checkFilename_spec; [instantiate (1 := Some f)|instantiate (1 := Some f)|instantiate (1 := None)]; exact HF. }
    assert (exists s, checkTrajType (ra_type a) = Ok s) as [ty H3].
    { destruct tr as [[[] f0]|]; destruct HT as [_ HY]; cbn in HY; [destruct HY as [-> | ->]|rewrite HY|destruct HY as [-> |[s ->]]]; eexists; reflexivity. }
    assert (EC : checkRunArgs objects a = Ok (p, f, ty, map VOther an, map VOther br)).
    { apply checkRunArgs_spec. split; [exact H1|]. split; [exact H2|]. split; [exact H3|]. split; apply checkObjects_spec; eexists; (split; [reflexivity|assumption]). }
    rewrite EC. apply (traj_spec _ _ _ _ H2 H3) in HT. rewrite HB, HT, (proj2 (Z.eqb_neq _ 0) HA). unfold setRngType.
    assert (OK : (if isDevice (rngNamed (p_rng p)) then g_entropy g else true) = true).
    { unfold rngNamed. destruct (String.eqb_spec (p_rng p) "MINSTD"); [reflexivity|]. destruct (String.eqb_spec (p_rng p) "RANLUX24"); [reflexivity|]. destruct (String.eqb_spec (p_rng p) "RANLUX48"); [reflexivity|].
      destruct (String.eqb_spec (p_rng p) "DEVICE") as [HDV|]; [|reflexivity]. exact (HD HDV). }
    rewrite OK. do 2 eexists. reflexivity.
Qed.
(** A run that begins was asked for; the backend has been made if there was none, and the generator of the type asked for is in use, in the state the seed gives *)
Theorem C83_begins now a km g p tr lan lbr km' g' : start now a km g = Some (Started p tr lan lbr, km', g') ->
  exists an br md t, lan = map VOther an /\ lbr = map VOther br /\ asksFor objects a p tr an br /\ kmcBackend km = Some (md, t) /\ totalAvailableSites (md_in md) <> 0 /\
    km' = mkKmcModel (km_make km) (Some (md, t)) /\
    forall ty, rngCalled (p_rng p) ty -> g_type g' = ty /\ (ty <> DEVICE -> engineOf ty g' = Some (seeded ty (if p_timeSeed p then p_seed p + now else p_seed p))) /\
      forall ty', ty' <> ty -> engineOf ty' g' = engineOf ty' g.
Proof.
  subst start. unfold runStart. intros H. destruct (checkRunArgs objects a) as [[[[[p' f] ty] an'] br']|e] eqn:EC; [|discriminate]. destruct (proj1 (checkRunArgs_spec _ _ _ _ _ _) EC) as (H1 & H2 & H3 & H4 & H5).
  destruct (setRngType (rngNamed (p_rng p')) g) as [ok g1] eqn:EG. destruct ok; [|discriminate]. destruct (kmcBackend km) as [[md t]|]; [|discriminate].
  destruct (totalAvailableSites (md_in md) =? 0) eqn:EA; [discriminate|]. destruct (trajectoryOf f ty) as [tr'|] eqn:ET; [|discriminate]. injection H as -> -> -> -> <- <-.
  apply checkObjects_spec in H4. apply checkObjects_spec in H5. destruct H4 as (ns & -> & H4), H5 as (ms & -> & H5). exists ns, ms, md, t. split; [reflexivity|]. split; [reflexivity|].
  split; [|split; [reflexivity|split; [apply Z.eqb_neq; exact EA|split; [reflexivity|]]]].
  - split; [apply asControl_spec; exact H1|]. split; [apply (traj_spec _ _ _ _ H2 H3); exact ET|]. split; assumption.
  - intros ty0 HT. apply rng_called in HT. rewrite HT in EG. unfold setRngType in EG. injection EG as _ <-. unfold seedRandom, seedEngine. cbn [g_type].
    destruct ty0; (split; [reflexivity|]; split; [intros N; try contradiction; reflexivity|]; intros [] N; try contradiction; reflexivity).
Qed.
Lemma right_spec a : (exists x, checkRunArgs objects a = Ok x) <-> exists p, rightTypes objects a p.
Proof.
  split.
  - intros [[[[[p f] ty] an] br] EC]. apply checkRunArgs_spec in EC. destruct EC as (H1 & H2 & H3 & H4 & H5). exists p. apply asControl_spec in H1. split; [exact H1|].
    apply checkFilename_spec in H2. apply checkTrajType_spec in H3. apply checkObjects_spec in H4. apply checkObjects_spec in H5. destruct H4 as (ns & _ & H4), H5 as (ms & _ & H5).
    split; [destruct f as [f|]; [right; exists f; exact H2|left; exact H2]|]. split; [destruct H3 as [[H3 _]|H3]; [left; exact H3|right; eexists; exact H3]|]. split; eexists; eassumption.
  - intros (p & H1 & H2 & H3 & [an H4] & [br H5]). apply asControl_spec in H1.
    assert (exists f, checkFilename (ra_file a) = Ok f) as [f F2] by (destruct H2 as [->|[f ->]]; eexists; reflexivity).
    assert (exists f, checkTrajType (ra_type a) = Ok f) as [ty F3] by (destruct H3 as [->|[s ->]]; eexists; reflexivity).
    exists (p, f, ty, map VOther an, map VOther br). apply checkRunArgs_spec. split; [exact H1|]. split; [exact F2|]. split; [exact F3|]. split; apply checkObjects_spec; eexists; (split; [reflexivity|eassumption]).
Qed.
(** ** What is refused *)
(** An argument of a wrong type is refused, whatever the state of the model, and changes nothing: no backend is made, no generator is seeded *)
Theorem C83_untouched now a km g : (forall p, ~ rightTypes objects a p) <-> exists km' g', start now a km g = Some (RefusedArgs, km', g') /\ km' = km /\ g' = g.
Proof.
  subst start. unfold runStart. destruct (checkRunArgs objects a) as [[[[[p f] ty] an] br]|e] eqn:EC.
  - split.
    + intros H. exfalso. destruct (proj1 (right_spec a) (ex_intro _ _ EC)) as [q Q]. exact (H q Q).
    + intros (km' & g' & H & _). exfalso. destruct (setRngType (rngNamed (p_rng p)) g) as [[] g1]; [|discriminate]. destruct (kmcBackend km) as [[md t]|]; [|discriminate].
      destruct (totalAvailableSites (md_in md) =? 0); [discriminate|]. destruct (trajectoryOf f ty); discriminate.
  - split; [intros _; exists km, g; auto|]. intros _ p HR. destruct (proj2 (right_spec a) (ex_intro _ p HR)) as [x EX]. congruence.
Qed.
(** The other arguments that are not accepted are those with a file name and a string that is neither 'lattice' nor 'xyz'.  They are refused too, but only after the generator
    has been seeded and the backend has been made. *)
Theorem C83_kind now a km g p md t : rightTypes objects a p -> kmcBackend km = Some (md, t) -> totalAvailableSites (md_in md) <> 0 -> (p_rng p = "DEVICE" -> g_entropy g = true) ->
  ((forall tr an br, ~ asksFor objects a p tr an br) <-> exists km' g', start now a km g = Some (RefusedKind, km', g')) /\
  ((forall tr an br, ~ asksFor objects a p tr an br) <-> exists f s, ra_file a = VStr f /\ ra_type a = VStr s /\ s <> "lattice" /\ s <> "xyz").
Proof.
  intros HR HB HA HD. pose proof HR as (H1 & H2 & H3 & [an H4] & [br H5]).
  assert (S2 : (forall tr an br, ~ asksFor objects a p tr an br) <-> exists f s, ra_file a = VStr f /\ ra_type a = VStr s /\ s <> "lattice" /\ s <> "xyz").
  { split.
    - intros HN. destruct H2 as [H2|[f H2]].
      + exfalso. apply (HN None an br). split; [exact H1|]. split; [split; assumption|]. split; assumption.
      + destruct H3 as [H3|[s H3]]; [exfalso; apply (HN (Some (LatticeKind, f)) an br); split; [exact H1|]; split; [split; [exact H2|left; exact H3]|]; split; assumption|].
        exists f, s. split; [exact H2|]. split; [exact H3|]. split; intros ->.
        * apply (HN (Some (LatticeKind, f)) an br). split; [exact H1|]. split; [split; [exact H2|right; exact H3]|]. split; assumption.
        * apply (HN (Some (XyzKind, f)) an br). split; [exact H1|]. split; [split; [exact H2|exact H3]|]. split; assumption.
    - intros (f & s & F1 & F2 & N1 & N2) tr an0 br0 (_ & HT & _). destruct tr as [[[] f']|]; destruct HT as [T1 T2]; rewrite F1 in T1; try discriminate; rewrite F2 in T2.
      + destruct T2 as [T2|T2]; [discriminate|]. injection T2 as ->. contradiction.
      + injection T2 as ->. contradiction. }
  split; [|exact S2]. rewrite S2. clear S2.
  destruct (proj2 (right_spec a) (ex_intro _ p HR)) as [[[[[p' f] ty] an'] br'] EC]. subst start. unfold runStart. rewrite EC, HB, (proj2 (Z.eqb_neq _ 0) HA).
  apply checkRunArgs_spec in EC. destruct EC as (C1 & C2 & C3 & _ & _). apply asControl_spec in H1. assert (p' = p) as -> by congruence. unfold setRngType.
  assert (OK : (if isDevice (rngNamed (p_rng p)) then g_entropy g else true) = true).
  { unfold rngNamed. destruct (String.eqb_spec (p_rng p) "MINSTD"); [reflexivity|]. destruct (String.eqb_spec (p_rng p) "RANLUX24"); [reflexivity|]. destruct (String.eqb_spec (p_rng p) "RANLUX48"); [reflexivity|].
    destruct (String.eqb_spec (p_rng p) "DEVICE") as [HDV|]; [|reflexivity]. exact (HD HDV). }
  rewrite OK. apply checkFilename_spec in C2. apply checkTrajType_spec in C3. unfold trajectoryOf. split.
  - intros (f0 & s & F1 & F2 & N1 & N2). destruct f as [f|]; [|congruence]. destruct C3 as [[C3 _]|C3]; [congruence|]. assert (ty = s) as -> by congruence.
    apply String.eqb_neq in N1, N2. rewrite N1, N2. do 2 eexists. reflexivity.
  - intros (km' & g' & H). destruct f as [f|]; [|discriminate]. destruct (String.eqb_spec ty "lattice") as [|N1]; [discriminate|]. destruct (String.eqb_spec ty "xyz") as [|N2]; [discriminate|].
    exists f, ty. split; [exact C2|]. split; [destruct C3 as [[_ C3]|C3]; [contradiction|exact C3]|]. auto.
Qed.
End C83.

(** ** A concrete case: object 1 holds settings, object 2 is an analysis, object 3 is an analysis and a breaker *)
Definition x83objects (n : Z) : pyobject :=
  if n =? 1 then mkObject (Some (mkParams 10 (Some 1) 1 false 3 None "MINSTD")) false false
  else if n =? 2 then mkObject None true false else if n =? 3 then mkObject None true true else mkObject None false false.
Definition x83args (file ty an : pyval) : runArgs := mkRunArgs (VOther 1) file ty an (VTuple [VOther 3]).
Lemma x83_model : exists md, totalAvailableSites (md_in md) <> 0.
Proof.
  pose proof x80_ok as H. unfold x80Check in H. apply somewhere_Some in H. destruct H as (cf & E1 & H). apply somewhere_Some in H. destruct H as (it & E2 & H).
  apply somewhere_Some in H. destruct H as (md0 & E3 & H). apply somewhere_Some in H. destruct H as (md1 & E4 & H). apply somewhere_Some in H. destruct H as (md2 & E5 & H). apply somewhere_Some in H. destruct H as (md3 & E6 & H).
  apply andb_true_iff in H. destruct H as [H _]. apply andb_true_iff in H. destruct H as [A0 _]. apply negb_true_iff, Z.eqb_neq in A0. exists md0. exact A0.
Qed.
Lemma x83_objects an : In an [VNone; VList [VOther 2; VOther 3]] -> exists ns, givesObjects x83objects ob_analysis an ns.
Proof.
  intros [<-|[<-|[]]]; [exists []; left; auto|]. exists [2; 3]. right. split; [discriminate|]. split; [left; reflexivity|]. intros n [<-|[<-|[]]]; reflexivity.
Qed.
Lemma x83_breaker : givesObjects x83objects ob_breaker (VTuple [VOther 3]) [3].
Proof. right. split; [discriminate|]. split; [right; reflexivity|]. intros n [<-|[]]; reflexivity. Qed.
Example C83_example : exists md km, km_backend km = None /\ kmcBackend km = Some (md, DFin 0) /\ totalAvailableSites (md_in md) <> 0 /\
  asksFor x83objects (x83args (VStr "run.xyz") (VStr "xyz") (VList [VOther 2; VOther 3])) (mkParams 10 (Some 1) 1 false 3 None "MINSTD") (Some (XyzKind, "run.xyz")) [2; 3] [3] /\
  rngCalled "MINSTD" MINSTD /\ (forall p, ~ rightTypes x83objects (x83args (VInt 5) VNone VNone) p) /\ (forall p, ~ rightTypes x83objects (x83args VNone VNone (VList [VOther 1])) p) /\
  rightTypes x83objects (x83args (VStr "run.xyz") (VStr "XYZ") VNone) (mkParams 10 (Some 1) 1 false 3 None "MINSTD").
Proof.
  destruct x83_model as [md HA]. exists md, (mkKmcModel (Some md) None). split; [reflexivity|]. split; [reflexivity|]. split; [exact HA|]. split; [|split; [right; left; auto|split; [|split]]].
  - split; [exists 1; auto|]. split; [split; reflexivity|]. split; [|exact x83_breaker]. right. split; [discriminate|]. split; [left; reflexivity|]. intros n [<-|[<-|[]]]; reflexivity.
  - intros p (_ & [H|[f H]] & _); discriminate.
  - intros p (_ & _ & _ & [ns [[H _]|(_ & [H|H] & HC)]] & _); try discriminate. destruct ns as [|n [|m ns]]; try discriminate. injection H as <-. discriminate (HC 1 (or_introl eq_refl)).
  - split; [exists 1; auto|]. split; [right; eexists; reflexivity|]. split; [right; eexists; reflexivity|]. split; [exists []; left; auto|exists [3]; exact x83_breaker].
Qed.
(** One would expect that a call that is refused for its arguments leaves everything as it was.  It does not for a wrong type of trajectory: the generator of the process has
    been seeded again and its type changed. *)
Theorem C83_refused_refuted : exists a km (g : generators Z) km' g', (forall p tr an br, ~ asksFor x83objects a p tr an br) /\
  runStart x83objects toySeed 1000 a km g = Some (RefusedKind, km', g') /\ km_backend km = None /\ km_backend km' <> None /\ g_type g' <> g_type g /\ g_minstd g' <> g_minstd g.
Proof.
  destruct x83_model as [md HA]. exists (x83args (VStr "run.xyz") (VStr "XYZ") VNone), (mkKmcModel (Some md) None), (someGens 8). do 2 eexists. split; [|split; [|split; [|split; [|split]]]].
  - intros p tr an br (_ & HT & _). destruct tr as [[[] f]|]; destruct HT as [H1 H2]; cbn in H1, H2; try discriminate. destruct H2; discriminate.
  - unfold runStart. cbn [checkRunArgs x83args asControl ra_control x83objects]. 
    change (checkRunArgs x83objects (x83args (VStr "run.xyz") (VStr "XYZ") VNone)) with (Ok (mkParams 10 (Some 1) 1 false 3 None "MINSTD", Some "run.xyz", "XYZ", @nil pyval, [VOther 3])).
    cbn [setRngType p_rng]. change (isDevice (rngNamed "MINSTD")) with false. cbn [kmcBackend km_backend km_make Base.obind]. rewrite (proj2 (Z.eqb_neq _ 0) HA). reflexivity.
  - reflexivity.
  - discriminate.
  - discriminate.
  - vm_compute. discriminate.
Qed.
(** One would expect that a type of trajectory that does not exist is refused.  It is accepted when no file name is given. *)
Theorem C83_type_refuted : exists a p (km : kmcModel) (g : generators Z) km' g' tr an br, ra_type a = VStr "XYZ" /\ runStart x83objects toySeed 1000 a km g = Some (Started p tr an br, km', g').
Proof.
  destruct x83_model as [md HA]. exists (x83args VNone (VStr "XYZ") VNone), (mkParams 10 (Some 1) 1 false 3 None "MINSTD"), (mkKmcModel (Some md) None), (someGens 8).
  destruct (proj2 (C83_accepts x83objects toySeed 1000 (x83args VNone (VStr "XYZ") VNone) (mkKmcModel (Some md) None) (someGens 8) (mkParams 10 (Some 1) 1 false 3 None "MINSTD") None [] [3] md (DFin 0) eq_refl HA ltac:(discriminate))) as (km' & g' & H).
  { split; [exists 1; auto|]. split; [split; [reflexivity|right; eexists; reflexivity]|]. split; [left; auto|exact x83_breaker]. }
  do 5 eexists. split; [reflexivity|exact H].
Qed.
(** One would expect that an empty list of analysis objects means that there are none.  It is refused. *)
Theorem C83_empty_refuted : exists a, ra_control a = VOther 1 /\ ra_file a = VNone /\ ra_type a = VNone /\ ra_breakers a = VNone /\ ra_analysis a = VList [] /\
  forall now km (g : generators Z), runStart x83objects toySeed now a km g = Some (RefusedArgs, km, g).
Proof. exists (mkRunArgs (VOther 1) VNone VNone (VList []) VNone). repeat (split; [reflexivity|]). intros now km g. reflexivity. Qed.
Print Assumptions C83_accepts. Print Assumptions C83_begins. Print Assumptions C83_untouched. Print Assumptions C83_kind. Print Assumptions C83_refused_refuted.
Print Assumptions C83_type_refuted. Print Assumptions C83_empty_refuted. Print Assumptions C83_example.
