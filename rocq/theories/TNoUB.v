(** C50: no step of a simulation leaves the bounds of an array. *)
From Verif Require Import PBase SModel SGeo SEvent SBuild SPlain SStep SBucket SPossible SNoUB MCallback PLattice PProcess PMatcher PPerform PStep PGeo PPossible PRun PEffect PRematch PEvent PBuild PPlain PRow PStepInv
  PBucket PRegular PRates PEnv PNoUB PNoUB2 PNoUB3 TSelect TMatch TStep TPossible TRates XCheck XSystems XRows.
Open Scope string_scope.
Open Scope list_scope.
Open Scope Z_scope.

(** ** C50 *)
(** In the model an access outside an array (and reading past the end of a list) gives [None].  The construction of the model has none:
    input as the Python layer passes it on, and, with implicit wildcards, processes at lattice positions. *)
Theorem C50_start ranks hash L cf it spec : userInput ranks L cf it spec -> fitsGrid L cf it spec -> roomyStart L cf it ->
  mkLatticeModel ranks hash L cf it <> None.
Proof. intros UI FG RS. destruct (start_total ranks hash L cf it spec UI FG RS) as [md0 E]. rewrite E. discriminate. Qed.

(** A step from any state of any run has none, as long as rates are not negative, something can happen, and no process empties a site. *)
Theorem C50_step ranks hash L cf it spec md u1 u2 : userInput ranks L cf it spec -> roomyStart L cf it ->
  (forall i p, zget (in_procs it) i = Some p -> neverEmpties (cf_ptypes cf) (spec i)) ->
  reachable ranks hash L cf it md ->
  (forall i x r, evt (md_in md) i x r -> 0 <= r) -> (exists i x r, evt (md_in md) i x r /\ 0 < r) ->
  unitDeviate u1 -> unitDeviate u2 -> singleStep md u1 u2 <> None.
Proof.
  intros UI RS NE HR O1 O2 U1 U2. destruct (step_total ranks hash L cf it spec UI NE md u1 u2 HR (conj O1 O2) U1 U2) as [md' E]; [|rewrite E; discriminate].
  intros Hc. destruct HR as (md0 & us & E0 & E1). destruct (roomy_start ranks hash L cf it spec UI md0 E0 RS Hc) as [HN RM]. split; [exact HN|].
  pose proof (ui_wf _ _ _ _ _ UI) as WI.
  assert (HR0 : reachable ranks hash L cf it md0) by (exists md0, []; auto). assert (HR : reachable ranks hash L cf it md) by (exists md0, us; auto).
  destruct (reachable_info _ _ _ _ _ _ WI HR0) as (a0 & b0 & R0). destruct (reachable_info _ _ _ _ _ _ WI HR) as (a1 & b1 & R1).
  pose proof (ri_init _ _ _ _ _ _ _ _ R0) as I0. pose proof (ri_init _ _ _ _ _ _ _ _ R1) as I1. assert (a1 = a0) by congruence. subst a1.
  pose proof (ri_expand _ _ _ _ _ _ _ _ R0) as J0. pose proof (ri_expand _ _ _ _ _ _ _ _ R1) as J1. assert (b1 = b0) by congruence. subst b1.
  apply (roomy_static ranks L cf it spec UI md0 md); auto.
  - eapply sameP_trans; [apply sameP_sym; exact (ri_same _ _ _ _ _ _ _ _ R0)|exact (ri_same _ _ _ _ _ _ _ _ R1)].
  - rewrite (ri_coords _ _ _ _ _ _ _ _ R1), (ri_coords _ _ _ _ _ _ _ _ R0). reflexivity.
  - rewrite <- (ri_lat _ _ _ _ _ _ _ _ R1). apply (ri_inv _ _ _ _ _ _ _ _ R1).
  - rewrite <- (ri_lat _ _ _ _ _ _ _ _ R0). apply (ri_inv _ _ _ _ _ _ _ _ R0).
  - rewrite (ri_coords _ _ _ _ _ _ _ _ R0). apply WI.
Qed.

(** So a whole simulation, of any length, has none. *)
Theorem C50_simulation ranks hash L cf it spec : userInput ranks L cf it spec -> fitsGrid L cf it spec -> roomyStart L cf it ->
  (forall i p, zget (in_procs it) i = Some p -> neverEmpties (cf_ptypes cf) (spec i)) ->
  exists md0, mkLatticeModel ranks hash L cf it = Some md0 /\
    forall us, Forall (fun u => unitDeviate (fst u) /\ unitDeviate (snd u)) us -> alive md0 us -> runSteps md0 us <> None.
Proof.
  intros UI FG RS NE. destruct (start_total ranks hash L cf it spec UI FG RS) as [md0 E0]. exists md0. split; [exact E0|].
  intros us HU HA. destruct (run_total ranks hash L cf it spec UI NE us md0 E0) as [md E]; auto; [|rewrite E; discriminate].
  intros Hc. exact (roomy_start ranks hash L cf it spec UI md0 E0 RS Hc).
Qed.

(** ** deciding the hypotheses for concrete systems *)
Definition inputCheck (ranks : Z) (L : lattice) (coords : list coord) (els : list (list string)) (pt : tmap) (xs : list xspec) (wild custom : bool) (rc : ratecalc)
    (Q : config -> interactions -> bool) : bool :=
  somewhere (mkConfiguration coords els pt) (fun cf => somewhere (buildAll (lt_unit L) pt xs) (fun ps => let it := mkInteractions ps wild custom rc in
      wfInputb ranks L cf it && wfPTb pt && fitsb L (maxRange it) && (lt_unit L <? 100000) && forallb (fun x => specOKb (xs_spec x)) xs && Q cf it)).
Lemma inputCheck_sound ranks L coords els pt xs wild custom rc Q : inputCheck ranks L coords els pt xs wild custom rc Q = true ->
  exists cf it, userInput ranks L cf it (specOf xs) /\ cf_ptypes cf = pt /\ in_wild it = wild /\ in_custom it = custom /\ Q cf it = true.
Proof.
  unfold inputCheck. intros H. apply somewhere_Some in H. destruct H as (cf & Ecf & H). apply somewhere_Some in H. destruct H as (ps & Eps & H). cbn zeta in H.
  set (it := mkInteractions ps wild custom rc) in *. 
  rewrite !andb_true_iff in H. destruct H as (((((H1 & H2) & H3) & H4) & H5) & H6). exists cf, it.
  assert (EP : cf_ptypes cf = pt) by (apply mkConfiguration_info in Ecf; apply Ecf).
  split; [|split; [exact EP|split; [reflexivity|split; [reflexivity|exact H6]]]].
  constructor; [apply wfInputb_sound; exact H1|rewrite EP; apply wfPTb_sound; exact H2|rewrite EP; eauto|apply fitsb_sound; exact H3|apply Z.ltb_lt; exact H4|].
  intros i p Ep. rewrite EP. destruct (buildAll_get _ _ _ _ i p Eps) as (x & Ex & B); [exact Ep|]. unfold specOf. rewrite Ex. eapply buildSpec_sound; [|exact B].
  rewrite forallb_forall in H5. apply H5. eapply zget_In; eauto.
Qed.
Definition neverEmptiesb (pt : tmap) (sp : pspec) : bool :=
  match sp with
  | Plain _ => true
  | Bucket rows => forallb (fun r => forallb (fun u => snd u =? 0) (br_upd r) ||
      (negb (existsb (String.eqb "*") (br_before r)) &&
       existsb (fun s => match tfind pt s with Some _ => 0 <? SBucket.howMany s (br_before r) + change (br_upd r) s | None => false end) (map fst pt))) rows
  end.
Lemma change_zero u s : forallb (fun u => snd u =? 0) u = true -> change u s = 0.
Proof.
  unfold change. induction u as [|[a n] u IH]; intros H; [reflexivity|]. cbn [forallb snd] in H. apply andb_true_iff in H. destruct H as [H1 H2]. apply Z.eqb_eq in H1. subst n.
  cbn [tfind]. destruct (String.eqb a s); [reflexivity|auto].
Qed.
Lemma neverEmptiesb_sound pt sp : neverEmptiesb pt sp = true -> neverEmpties pt sp.
Proof.
  destruct sp as [rows|rows]; cbn [neverEmptiesb neverEmpties]; [auto|]. intros H r Hr [s Hs]. rewrite forallb_forall in H. specialize (H r Hr). apply orb_true_iff in H.
  destruct H as [H|H]; [exfalso; apply Hs; apply change_zero; exact H|]. apply andb_true_iff in H. destruct H as [H1 H2]. split.
  - intros Hin. apply negb_true_iff in H1. assert (existsb (String.eqb "*") (br_before r) = true) by (apply existsb_exists; exists "*"; auto). congruence.
  - apply existsb_exists in H2. destruct H2 as (s' & _ & H2). destruct (tfind pt s') as [k|] eqn:E; [|discriminate]. exists s', k. split; [exact E|]. apply Z.ltb_lt. exact H2.
Qed.
Definition fitsGridb (L : lattice) (basis : list coord) (cf : config) (it : interactions) (spec : Z -> pspec) : bool :=
  geoInputb L basis (maxRange it) (zlen (cf_ptypes cf)) cf &&
  forallb (fun i => match zget (in_procs it) i with Some p => match pr_basis p with [b] => placedb L basis (pr_custom p) b (positions (spec i)) | _ => true end | None => true end) (zrange 0 (zlen (in_procs it) - 1)).
Lemma fitsGridb_sound L basis cf it spec : fitsGridb L basis cf it spec = true -> fitsGrid L cf it spec.
Proof.
  intros H _. unfold fitsGridb in H. apply andb_true_iff in H. destruct H as [H1 H2]. exists basis. split; [apply geoInputb_sound; exact H1|].
  intros i p b Ep Eb. rewrite forallb_forall in H2. specialize (H2 i). rewrite Ep, Eb in H2. apply placedb_sound. apply H2. apply In_zrange. apply zget_range in Ep. lia.
Qed.
Fixpoint splitAtCut (cut2 : Z) (cl : list centry) : list centry * list centry :=
  match cl with [] => ([], []) | e :: cl' => if ce_d2 e <=? cut2 then let (a, b) := splitAtCut cut2 cl' in (e :: a, b) else ([], cl) end.
Lemma splitAtCut_spec cut2 cl a b : splitAtCut cut2 cl = (a, b) -> cl = a ++ b /\ (forall e, In e a -> ce_d2 e <= cut2) /\ (forall e l, b = e :: l -> cut2 < ce_d2 e).
Proof.
  revert a b. induction cl as [|e cl IH]; intros a b H; cbn [splitAtCut] in H; [injection H as <- <-; split; [reflexivity|split; [intros ? []|discriminate]]|].
  destruct (Z.leb_spec (ce_d2 e) cut2).
  - destruct (splitAtCut cut2 cl) as [a' b']. injection H as <- <-. destruct (IH _ _ eq_refl) as (-> & A & B). split; [reflexivity|]. split; [intros e' [<-|He']; auto|exact B].
  - injection H as <- <-. split; [reflexivity|]. split; [intros ? []|]. intros e' l E. injection E as <- _. lia.
Qed.
Definition roomyb (L : lattice) (cf : config) (it : interactions) : bool :=
  forallb (fun x => forallb (fun p => negb (existsb (Z.eqb (basisSiteFromIndex L x)) (pr_basis p)) ||
    match scratchML L (maxRange it) cf x with
    | Some cl => match splitAtCut (pr_cut2 p) cl with ((_ :: _) as near, _ :: _) => zlen (pr_ml p) <=? zlen near | _ => false end
    | None => false end) (in_procs it)) (zrange 0 (nsites L - 1)).
Lemma roomyb_sound L cf it : roomyb L cf it = true -> roomy L cf it.
Proof.
  intros H x i p Hx (p0 & Ep0 & Hb) Ep. assert (p0 = p) by congruence. subst p0. unfold roomyb in H. rewrite forallb_forall in H. specialize (H x). rewrite forallb_forall in H.
  assert (Hin : In x (zrange 0 (nsites L - 1))) by (apply In_zrange; lia). specialize (H Hin p (zget_In _ _ _ Ep)). apply orb_true_iff in H. destruct H as [H|H].
  { apply negb_true_iff in H. assert (existsb (Z.eqb (basisSiteFromIndex L x)) (pr_basis p) = true) by (apply existsb_exists; eexists; split; [exact Hb|apply Z.eqb_refl]). congruence. }
  destruct (scratchML L (maxRange it) cf x) as [cl|]; [|discriminate]. destruct (splitAtCut (pr_cut2 p) cl) as [near far] eqn:E. destruct (splitAtCut_spec _ _ _ _ E) as (-> & A & B).
  destruct near as [|n near]; [discriminate|]. destruct far as [|f far]; [discriminate|]. exists (n :: near), f, far. split; [reflexivity|]. split; [discriminate|]. split; [apply Z.leb_le; exact H|]. split; [exact A|eapply B; reflexivity].
Qed.
Definition numberedb (it : interactions) : bool := forallb (fun i => match zget (in_procs it) i with Some p => pr_number p =? i | None => true end) (zrange 0 (zlen (in_procs it) - 1)).
Definition roomyStartb (L : lattice) (cf : config) (it : interactions) : bool :=
  negb (in_custom it) || (numberedb it &&
   somewhere (initMatchLists L (maxRange it) cf) (fun cf1 => somewhere (updateProcessMatchLists L cf1 (clearMatching it)) (fun it2 => roomyb L cf1 it2))).
Lemma numberedb_sound it : numberedb it = true -> numbered it.
Proof. intros H i p Ep. unfold numberedb in H. rewrite forallb_forall in H. specialize (H i). rewrite Ep in H. apply Z.eqb_eq. apply H. apply In_zrange. apply zget_range in Ep. lia. Qed.
Lemma roomyStartb_sound L cf it : roomyStartb L cf it = true -> roomyStart L cf it.
Proof.
  intros H Hc. unfold roomyStartb in H. rewrite Hc in H. cbn [negb orb] in H. apply andb_true_iff in H. destruct H as [H1 H]. split; [apply numberedb_sound; exact H1|].
  apply somewhere_Some in H. destruct H as (cf1 & E1 & H). apply somewhere_Some in H. destruct H as (it2 & E2 & H). intros cf1' it2' F1 F2. assert (cf1' = cf1) by congruence. subst cf1'. assert (it2' = it2) by congruence. subst it2'.
  apply roomyb_sound. exact H.
Qed.
Definition liveb (md : model) : bool :=
  forallb (fun p => forallb (fun e => 0 <=? snd e) (events p)) (in_procs (md_in md)) && existsb (fun p => existsb (fun e => 0 <? snd e) (events p)) (in_procs (md_in md)).
Lemma liveb_sound md : liveb md = true -> (forall i x r, evt (md_in md) i x r -> 0 <= r) /\ exists i x r, evt (md_in md) i x r /\ 0 < r.
Proof.
  unfold liveb. intros H. apply andb_true_iff in H. destruct H as [H1 H2]. split.
  - intros i x r (p & Ep & He). rewrite forallb_forall in H1. specialize (H1 p (zget_In _ _ _ Ep)). rewrite forallb_forall in H1. specialize (H1 _ He). apply Z.leb_le in H1. exact H1.
  - apply existsb_exists in H2. destruct H2 as (p & Hp & H2). apply existsb_exists in H2. destruct H2 as ([x r] & He & H2). apply In_zget in Hp. destruct Hp as [i Ep]. exists i, x, r. split; [exists p; auto|apply Z.ltb_lt; exact H2].
Qed.
Fixpoint aliveb (md : model) (us : list (deviate * deviate)) : bool :=
  match us with [] => true | u :: us' => liveb md && match singleStep md (fst u) (snd u) with Some md' => aliveb md' us' | None => true end end.
Lemma aliveb_sound us : forall md, aliveb md us = true -> alive md us.
Proof.
  induction us as [|u us IH]; intros md H vs w md1 E Hw R.
  - destruct vs; [|discriminate]. destruct w; [contradiction|discriminate].
  - cbn [aliveb] in H. apply andb_true_iff in H. destruct H as [H1 H2]. destruct vs as [|v vs].
    + injection R as <-. apply liveb_sound. exact H1.
    + injection E as -> E. unfold runSteps in R. cbn [ofold] in R. ob R as md2 E2. rewrite E2 in H2. exact (IH md2 H2 vs w md1 E Hw R).
Qed.
Definition unitb (u : deviate) : bool := (0 <? dv_num u) && (dv_num u <=? dv_den u).
Lemma unitb_sound u : unitb u = true -> unitDeviate u.
Proof. unfold unitb, unitDeviate. intros H. bh. lia. Qed.

(** a system meeting all hypotheses, with a run of at least two steps *)
Definition c50Case (spec : Z -> pspec) (custom : bool) : Prop := exists ranks hash L cf it md0 us md,
  userInput ranks L cf it spec /\ fitsGrid L cf it spec /\ roomyStart L cf it /\ (forall i p, zget (in_procs it) i = Some p -> neverEmpties (cf_ptypes cf) (spec i)) /\
  in_wild it = true /\ in_custom it = custom /\ mkLatticeModel ranks hash L cf it = Some md0 /\
  (2 <= length us)%nat /\ Forall (fun u => unitDeviate (fst u) /\ unitDeviate (snd u)) us /\ alive md0 us /\ runSteps md0 us = Some md.
Definition c50Check ranks hash L basis els pt xs custom rc us : bool :=
  inputCheck ranks L (generateLatticeSites L basis) els pt xs true custom rc (fun cf it => fitsGridb L basis cf it (specOf xs) && roomyStartb L cf it &&
    forallb (fun i => neverEmptiesb pt (specOf xs i)) (zrange 0 (zlen (in_procs it) - 1)) && forallb (fun u => unitb (fst u) && unitb (snd u)) us && (2 <=? length us)%nat &&
    somewhere (mkLatticeModel ranks hash L cf it) (fun md0 => aliveb md0 us && somewhere (runSteps md0 us) (fun _ => true))).
Lemma c50_case ranks hash L basis els pt xs custom rc us : c50Check ranks hash L basis els pt xs custom rc us = true -> c50Case (specOf xs) custom.
Proof.
  intros H. apply inputCheck_sound in H. destruct H as (cf & it & UI & EP & EW & EC & H). rewrite !andb_true_iff in H. destruct H as (((((H1 & H2) & H3) & H4) & H5) & H6).
  apply somewhere_Some in H6. destruct H6 as (md0 & E0 & H6). apply andb_true_iff in H6. destruct H6 as [H6 H7]. apply somewhere_Some in H7. destruct H7 as (md & E1 & _).
  exists ranks, hash, L, cf, it, md0, us, md. split; [exact UI|]. split; [eapply fitsGridb_sound; exact H1|]. split; [apply roomyStartb_sound; exact H2|]. split.
  - intros i p Ep. rewrite forallb_forall in H3. rewrite EP. apply neverEmptiesb_sound. apply H3. apply In_zrange. apply zget_range in Ep. lia.
  - split; [exact EW|]. split; [exact EC|]. split; [exact E0|]. split; [apply Nat.leb_le; exact H5|]. split; [|split; [apply aliveb_sound; exact H6|exact E1]].
    apply Forall_forall. intros u Hu. rewrite forallb_forall in H4. specialize (H4 u Hu). apply andb_true_iff in H4. destruct H4. split; apply unitb_sound; assumption.
Qed.
Definition c50us : list (deviate * deviate) := [(dev 1 100, dev 1 2); (dev 1 2, dev 2 3); (dev 99 100, dev 1 1)].
Example C50_example_plain : c50Case (specOf xaSpecs) false.
Proof. apply (c50_case 2 xhash x1L x1basis (one xaTypes) x1pt xaSpecs false norc c50us). vm_compute. reflexivity. Qed.
Example C50_example_custom : c50Case (specOf xdSpecs) true.
Proof. apply (c50_case 2 xhash x1L x1basis (one xaTypes) x1pt xdSpecs true norc c50us). vm_compute. reflexivity. Qed.
Example C50_example_bucket : c50Case (specOf xfSpecs) true.
Proof. apply (c50_case 3 xhash x1L x1basis xfEls x1pt xfSpecs true norc c50us). vm_compute. reflexivity. Qed.

(** ** What happens without the conditions *)
(** A custom process with a cutoff beyond all its surroundings (3/2 cells, on a lattice of 4 x 3 x 1 cells): the construction reads past the
    end of the list of surroundings. *)
Definition xgSpecs : list xspec := [ custom1 (Plain hopRows) 0 3 15 ].
Theorem C50_cutoff_refuted : exists ranks hash L cf it spec, userInput ranks L cf it spec /\ fitsGrid L cf it spec /\ in_custom it = true /\ numbered it /\
  (forall i p, zget (in_procs it) i = Some p -> neverEmpties (cf_ptypes cf) (spec i)) /\ mkLatticeModel ranks hash L cf it = None.
Proof.
  assert (H : inputCheck 2 x1L x1sites (one xaTypes) x1pt xgSpecs true true norc (fun cf it => fitsGridb x1L x1basis cf it (specOf xgSpecs) && numberedb it &&
     forallb (fun i => neverEmptiesb x1pt (specOf xgSpecs i)) (zrange 0 (zlen (in_procs it) - 1)) && match mkLatticeModel 2 xhash x1L cf it with None => true | Some _ => false end) = true) by (vm_compute; reflexivity).
  apply inputCheck_sound in H. destruct H as (cf & it & UI & EP & EW & EC & H). rewrite !andb_true_iff in H. destruct H as (((H1 & H2) & H3) & H4).
  exists 2, xhash, x1L, cf, it, (specOf xgSpecs). split; [exact UI|]. split; [eapply fitsGridb_sound; exact H1|]. split; [exact EC|]. split; [apply numberedb_sound; exact H2|]. split.
  - intros i p Ep. rewrite forallb_forall in H3. rewrite EP. apply neverEmptiesb_sound. apply H3. apply In_zrange. apply zget_range in Ep. lia.
  - destruct (mkLatticeModel 2 xhash x1L cf it); [discriminate|reflexivity].
Qed.
(** A process with a position between the sites of the lattice and a particle moving there: the table which renumbers the moves has no entry
    for that position, and is read there. *)
Definition xoSpecs : list xspec := [ plain [mkRow czero "A" "B" (Some (mkC 3 0 0)); mkRow (mkC 3 0 0) "B" "A" (Some (mkC (-3) 0 0))] 3 ].
Theorem C50_off_lattice_refuted : exists ranks hash L cf it spec, userInput ranks L cf it spec /\ in_custom it = false /\
  (forall i p, zget (in_procs it) i = Some p -> neverEmpties (cf_ptypes cf) (spec i)) /\ mkLatticeModel ranks hash L cf it = None.
Proof.
  assert (H : inputCheck 2 x1L x1sites (one xaTypes) x1pt xoSpecs true false norc (fun cf it =>
     forallb (fun i => neverEmptiesb x1pt (specOf xoSpecs i)) (zrange 0 (zlen (in_procs it) - 1)) && match mkLatticeModel 2 xhash x1L cf it with None => true | Some _ => false end) = true) by (vm_compute; reflexivity).
  apply inputCheck_sound in H. destruct H as (cf & it & UI & EP & EW & EC & H). rewrite !andb_true_iff in H. destruct H as (H3 & H4).
  exists 2, xhash, x1L, cf, it, (specOf xoSpecs). split; [exact UI|]. split; [exact EC|]. split.
  - intros i p Ep. rewrite forallb_forall in H3. rewrite EP. apply neverEmptiesb_sound. apply H3. apply In_zrange. apply zget_range in Ep. lia.
  - destruct (mkLatticeModel 2 xhash x1L cf it); [discriminate|reflexivity].
Qed.
(** A bucket process that takes the last particle of a site: the step reads the first of the particles left there. *)
Definition xtSpecs : list xspec := [ bucket1 [mkBRow czero ["A"] [("A", -1)]] 0 4 ].
Theorem C50_empty_site_refuted : exists ranks hash L cf it spec md u1 u2, userInput ranks L cf it spec /\ fitsGrid L cf it spec /\ in_custom it = false /\
  reachable ranks hash L cf it md /\ (forall i x r, evt (md_in md) i x r -> 0 <= r) /\ (exists i x r, evt (md_in md) i x r /\ 0 < r) /\ unitDeviate u1 /\ unitDeviate u2 /\
  singleStep md u1 u2 = None.
Proof.
  assert (H : inputCheck 2 x1L x1sites (one xaTypes) x1pt xtSpecs true false norc (fun cf it => fitsGridb x1L x1basis cf it (specOf xtSpecs) &&
     somewhere (mkLatticeModel 2 xhash x1L cf it) (fun md => liveb md && match singleStep md (dev 1 2) (dev 1 2) with None => true | Some _ => false end)) = true) by (vm_compute; reflexivity).
  apply inputCheck_sound in H. destruct H as (cf & it & UI & EP & EW & EC & H). apply andb_true_iff in H. destruct H as [H1 H]. apply somewhere_Some in H. destruct H as (md & E & H). apply andb_true_iff in H. destruct H as [H2 H3].
  apply liveb_sound in H2. destruct H2 as [H2 H4]. exists 2, xhash, x1L, cf, it, (specOf xtSpecs), md, (dev 1 2), (dev 1 2). split; [exact UI|]. split; [eapply fitsGridb_sound; exact H1|]. split; [exact EC|].
  split; [exists md, []; auto|]. split; [exact H2|]. split; [exact H4|]. split; [apply unitb_sound; reflexivity|]. split; [apply unitb_sound; reflexivity|]. destruct (singleStep md (dev 1 2) (dev 1 2)); [discriminate|reflexivity].
Qed.

Print Assumptions C50_start.
Print Assumptions C50_step.
Print Assumptions C50_simulation.
Print Assumptions C50_cutoff_refuted.
Print Assumptions C50_off_lattice_refuted.
Print Assumptions C50_empty_site_refuted.
