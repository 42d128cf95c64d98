(** C59: what the rate calculator of the user is told. *)
From Verif Require Import PBase SModel SGeo SEvent SBuild SPlain SStep SBucket SPossible SRates MCallback PLattice PProcess PMatcher PPerform PStep PGeo PPossible PRun PEffect PRematch PEvent PBuild PPlain PRow PStepInv PBucket PRegular PRates PEnv TMatch TStep TPossible XCheck XSystems XRows.
Open Scope string_scope.
Open Scope list_scope.
Open Scope Z_scope.

Lemma reach_rates ranks hash L cf it md : wfInput ranks L cf it -> in_custom it = true -> noneCached it -> reachable ranks hash L cf it md -> ratesNow md.
Proof.
  intros WI HC HN (md0 & us & E0 & E1). destruct (start_rates _ _ _ _ _ _ WI HC HN E0) as (A & B & C).
  destruct (mkLatticeModel_inv _ _ _ _ _ _ WI E0) as (IV & _ & cf1 & it2 & it' & mt' & mls & _ & E2 & _ & E4 & SP & _). eapply run_rates; eauto.
  destruct (updateML_get _ _ _ _ E2) as (_ & _ & Hc & _). rewrite E4. cbn [updateProbabilityTable set_table in_custom]. destruct SP as (_ & _ & -> & _). rewrite Hc. exact HC.
Qed.

(** ** C59 *)
(** The state of any run of a simulation with custom rates, without caching; process i was built from rows at lattice positions around its
    only basis point.  An event listed for it at site x carries the rate which the function of the user returns for: the positions of all
    sites of the lattice up to the cutoff, nearest first; what these sites hold now; what they will hold after the event; the rate constant,
    the number of the process, and the position of x. *)
Theorem C59_environment ranks hash L basis cf it spec md i p b x r rateS rateB :
  userInput ranks L cf it spec -> geoInput L basis (maxRange it) (zlen (cf_ptypes cf)) cf -> in_wild it = true ->
  in_custom it = true -> in_rc it = pyCalculator rateS rateB -> noneCached it ->
  reachable ranks hash L cf it md ->
  zget (in_procs it) i = Some p -> pr_basis p = [b] -> placed L basis (pr_custom p) b (positions (spec i)) ->
  coversCut L basis (maxRange it) (pr_cut2 p) ->
  evt (md_in md) i x r ->
  exists ys ds g, surroundings L (cf_coords (md_cf md)) (pr_cut2 p) x ys ds /\ zget (cf_coords (md_cf md)) x = Some g /\
    match spec i with
    | Plain rows => exists before after, toldPlain (md_cf md) rows ys ds before after /\ r = rateS ds before after (pr_rate p) (pr_number p) g
    | Bucket rows => exists before after, toldBucket (md_cf md) rows ys ds before after /\ r = rateB ds before after (pr_rate p) (pr_number p) g
    end.
Proof.
  intros UI GI HW HC ERC HN HR Ep Eb PL CC Hev. pose proof (ui_wf _ _ _ _ _ UI) as WI.
  destruct (reachable_info _ _ _ _ _ _ WI HR) as (cf1 & it2 & RI). destruct (reachable_proc_conv _ _ _ _ _ _ _ _ _ _ RI Ep) as [p' Ep'].
  pose proof (reach_rates _ _ _ _ _ _ WI HC HN HR i x r p' Hev Ep') as HU.
  assert (Erc : in_rc (md_in md) = in_rc it).
  { destruct (ri_same _ _ _ _ _ _ _ _ RI) as (_ & _ & _ & ->). destruct (updateML_get _ _ _ _ (ri_expand _ _ _ _ _ _ _ _ RI)) as (_ & _ & _ & -> & _). reflexivity. }
  assert (Hx : 0 <= x < nsites L /\ basisSiteFromIndex L x = b).
  { apply (iv_evt _ (ri_inv _ _ _ _ _ _ _ _ RI)) in Hev. rewrite (ri_lat _ _ _ _ _ _ _ _ RI) in Hev. destruct Hev as [Hx (q & Eq & Hb)]. split; [exact Hx|].
    assert (q = p') by congruence. subst q. destruct (reachable_proc _ _ _ _ _ _ _ _ _ _ RI Ep') as (p2 & q & E2 & _ & Hs & HQ). assert (p2 = p) by congruence. subst p2.
    apply pstatic_fields in Hs. destruct Hs as (_ & _ & _ & _ & _ & _ & _ & Hs & _). rewrite Hs in Hb.
    assert (Eq' : pr_basis q = [b]). { destruct HQ as [->|[_ HQ]]; [exact Eb|]. apply expand_fields in HQ. destruct HQ as (_ & _ & _ & _ & _ & _ & _ & _ & _ & _ & _ & -> & _). exact Eb. }
    rewrite Eq' in Hb. destruct Hb as [->|[]]. reflexivity. }
  destruct Hx as [Hx Hbx]. rewrite Erc, ERC in HU.
  destruct (environment_data ranks hash L basis cf it spec md UI GI HW HR i b p p' Ep Eb PL Ep' CC x Hx Hbx _ _ HU) as (env & m & tb & oc & af & up & g & ED).
  exists (map ce_index env), (map ce_c env), g. split; [eapply ed_su; eauto|]. split; [eapply ed_g; eauto|].
  destruct (spec i) as [rows|rows] eqn:Sp; rewrite <- Sp in PL.
  - exists tb, af. eapply env_plain in ED; eauto.
  - eapply env_bucket in ED; eauto. destruct ED as (before & after & E1 & E2 & E3). exists before, after. split; [exact E2|]. cbn [pyCalculator rc_bucket] in E3. rewrite E1 in E3. exact E3.
Qed.

(** The cutoff is covered when it is not longer than the range of the matching ... *)
Theorem C59_covered_whole_cells L basis R cut2 : wf_lattice L -> wf_basis L basis -> 0 <= R -> cut2 <= (R * lt_unit L) * (R * lt_unit L) -> coversCut L basis R cut2.
Proof.
  intros WF (_ & HB & _) HR HC a b n Ha Hb. rewrite Forall_forall in HB. destruct (HB a Ha) as (A1 & A2 & A3). destruct (HB b Hb) as (B1 & B2 & B3). pose proof (wfl_unit _ WF) as HS.
  assert (H : forall u v, 0 <= u < lt_unit L -> 0 <= v < lt_unit L -> (v - u + n * lt_unit L) * (v - u + n * lt_unit L) <= cut2 -> Z.abs n <= R).
  { intros u v Hu Hv H. assert (HA : Z.abs (v - u + n * lt_unit L) <= R * lt_unit L) by (apply Z.square_le_simpl_nonneg; [nia|]; rewrite Z.abs_square || rewrite <- Z.abs_mul, Z.abs_eq by apply Z.square_nonneg; lia). nia. }
  split; [|split]; apply H; assumption.
Qed.
(** ... and always on a lattice with one site per cell *)
Theorem C59_covered_one_point ranks L basis cf it spec i p beta : userInput ranks L cf it spec -> zget (in_procs it) i = Some p -> pr_custom p = true -> basis = [beta] ->
  coversCut L basis (maxRange it) (pr_cut2 p).
Proof.
  intros UI Ep HC ->. pose proof (wfl_unit _ (wi_lat _ _ _ _ (ui_wf _ _ _ _ _ UI))) as HS. pose proof (maxRange_ge it p (zget_In _ _ _ Ep)) as HM.
  assert (HR : pr_range p = Z.sqrt (pr_cut2 p) / lt_unit L).
  { pose proof (ui_procs _ _ _ _ _ UI i p Ep) as B. assert (X : forall first second rate bs origins vectors number, mkProcess (lt_unit L) first second rate bs origins vectors number = Some p -> False).
    { intros f s rt bs o v n E. unfold mkProcess in E. ob E as acc Ea. ob E as l El. inversion E; subst p. discriminate. }
    assert (Y : forall first second rate bs cut origins vectors number cache, mkCustomProcess (lt_unit L) first second rate bs cut origins vectors number cache = Some p -> pr_range p = Z.sqrt (pr_cut2 p) / lt_unit L).
    { intros f s rt bs cut o v n c E. unfold mkCustomProcess in E. ob E as p0 E0. inversion E; subst p. reflexivity. }
    destruct (spec i) as [rows|rows]; cbn [builtFrom] in B.
    - destruct B as (_ & bs & f & s & o & v & rt & n & _ & _ & _ & [B|(cut & ca & B)]); [destruct (X _ _ _ _ _ _ _ B)|eauto].
    - destruct B as (_ & bs & f & rt & n & _ & [B|(cut & ca & B)]); [destruct (X _ _ _ _ _ _ _ B)|eauto]. }
  assert (H : forall u n, (u - u + n * lt_unit L) * (u - u + n * lt_unit L) <= pr_cut2 p -> Z.abs n <= maxRange it).
  { intros u n H. rewrite Z.sub_diag, Z.add_0_l in H. apply Z.le_trans with (pr_range p); [|exact HM]. rewrite HR. apply Z.div_le_lower_bound; [exact HS|].
    pose proof (Z.abs_nonneg n). assert (Hq : lt_unit L * Z.abs n * (lt_unit L * Z.abs n) <= pr_cut2 p) by (destruct (Z.abs_spec n) as [[_ ->]|[_ ->]]; lia).
    apply Z.sqrt_le_square; [|nia|exact Hq]. apply Z.le_trans with (2 := Hq). apply Z.square_nonneg. }
  intros a b n [<-|[]] [<-|[]]. split; [|split]; apply H.
Qed.

(** ** Examples *)
(** the calculators of the examples: plain processes count the particles A before and after, bucket processes all the particles *)
Definition countA (l : list string) : Z := zlen (filter (String.eqb "A") l).
Definition rateS1 : list coord -> list string -> list string -> Z -> Z -> coord -> Z := fun geo before after r n g => r + 2 * countA before + countA after + zlen geo + cx g.
Definition rateB1 : list coord -> list (list (Z * string)) -> list (list (Z * string)) -> Z -> Z -> coord -> Z :=
  fun geo before after r n g => r + 2 * zsum (map fst (concat before)) + zsum (map fst (concat after)) + zlen geo.
Definition custom1 (sp : pspec) (b rate cut : Z) : xspec := mkXS sp [b] rate (Some (cut, false)).
Definition x59Check els specs := userCheck 2 xhash x1L x1sites els x1pt specs true true (pyCalculator rateS1 rateB1) [] (dev 1 100) (dev 1 2).
Strategy expand [x59Check].
Definition xdSpecs : list xspec := [ custom1 (Plain hopRows) 0 3 12; custom1 (Plain upRows) 0 5 12 ].
(** several particles per site *)
Definition xfEls : list (list string) := [["A"; "B"]; ["B"]; ["A"; "A"];  ["B"]; ["A"]; ["B"; "B"; "A"];  ["B"]; ["A"; "B"]; ["B"];  ["A"]; ["A"]; ["B"]].
Definition xfSpecs : list xspec := [ custom1 (Bucket [mkBRow czero ["A"] [("A", -1); ("B", 1)]; mkBRow (xcell 1 0 0) ["B"] [("A", 1)]]) 0 7 13 ].
Definition noneCachedb (it : interactions) : bool := forallb (fun p => negb (pr_cache p)) (in_procs it).
Lemma noneCachedb_sound it : noneCachedb it = true -> noneCached it.
Proof. intros H i p E. unfold noneCachedb in H. rewrite forallb_forall in H. specialize (H p (zget_In _ _ _ E)). apply negb_true_iff in H. exact H. Qed.
Lemma oneBasis p b : list_eqb (pr_basis p) [b] = true -> pr_basis p = [b].
Proof. apply list_eqb_eq. Qed.
Definition c59b (i : Z) (xs : list xspec) (cf : config) (it : interactions) (md : model) : bool :=
  geoInputb x1L x1basis (maxRange it) (zlen (cf_ptypes cf)) cf && in_wild it && in_custom it && noneCachedb it &&
  somewhere (zget (in_procs it) i) (fun p => list_eqb (pr_basis p) [0] && pr_custom p && placedb x1L x1basis (pr_custom p) 0 (positions (specOf xs i))) &&
  somewhere (zget (in_procs (md_in md)) i) (fun p => 1 <? zlen (events p)).
Lemma c59_example els xs i : x59Check els xs (fun cf it md _ => c59b i xs cf it md) = true ->
  exists cf it md p x r, userInput 2 x1L cf it (specOf xs) /\ geoInput x1L x1basis (maxRange it) (zlen (cf_ptypes cf)) cf /\ in_wild it = true /\
    in_custom it = true /\ in_rc it = pyCalculator rateS1 rateB1 /\ noneCached it /\ reachable 2 xhash x1L cf it md /\
    zget (in_procs it) i = Some p /\ pr_basis p = [0] /\ placed x1L x1basis (pr_custom p) 0 (positions (specOf xs i)) /\
    coversCut x1L x1basis (maxRange it) (pr_cut2 p) /\ evt (md_in md) i x r.
Proof.
  intros H. unfold x59Check in H. apply userCheck_sound in H. destruct H as (cf & it & md & md' & US & H). unfold c59b in H. rewrite !andb_true_iff in H. destruct H as (((((H1 & H2) & H3) & H4) & H5) & H6).
  apply somewhere_Some in H5. destruct H5 as (p & Ep & H5). rewrite !andb_true_iff in H5. destruct H5 as ((H5 & H7) & H8). apply somewhere_Some in H6. destruct H6 as (p' & Ep' & H6).
  destruct (events p') as [|[x r] l] eqn:Ev; [discriminate|]. destruct (us_it _ _ _ _ _ _ _ _ _ _ _ _ _ _ _ _ _ US) as (ps & _ & Eit).
  assert (UI : userInput 2 x1L cf it (specOf xs)) by inputOf US.
  exists cf, it, md, p, x, r. split; [exact UI|]. split; [apply geoInputb_sound; exact H1|]. split; [exact H2|]. split; [exact H3|]. split; [rewrite Eit; reflexivity|]. split; [apply noneCachedb_sound; exact H4|].
  split; [reached US|]. split; [exact Ep|]. split; [apply oneBasis; exact H5|]. split; [apply placedb_sound; exact H8|].
  split; [eapply C59_covered_one_point; eauto; reflexivity|]. exists p'. split; [exact Ep'|]. rewrite Ev. left. reflexivity.
Qed.
Definition c59Case (xs : list xspec) (i : Z) : Prop :=
  exists cf it md p x r, userInput 2 x1L cf it (specOf xs) /\ geoInput x1L x1basis (maxRange it) (zlen (cf_ptypes cf)) cf /\ in_wild it = true /\
    in_custom it = true /\ in_rc it = pyCalculator rateS1 rateB1 /\ noneCached it /\ reachable 2 xhash x1L cf it md /\
    zget (in_procs it) i = Some p /\ pr_basis p = [0] /\ placed x1L x1basis (pr_custom p) 0 (positions (specOf xs i)) /\
    coversCut x1L x1basis (maxRange it) (pr_cut2 p) /\ evt (md_in md) i x r.
Example C59_example_plain : c59Case xdSpecs 1.
Proof. apply (c59_example (one xaTypes)). vm_compute. reflexivity. Qed.
Example C59_example_bucket : c59Case xfSpecs 0.
Proof. apply (c59_example xfEls). vm_compute. reflexivity. Qed.

(** Without the covering the claim fails: two sites per cell at 0 and 1/2, cutoff 3/2 cells, so the matching looks one cell around.  The
    site at -3/2 is two cells away; the calculator, which answers 7 when it is told about a site there and 3 otherwise, answers 3. *)
Definition seen (d : coord) (geo : list coord) : Z := if existsb (ceqb d) geo then 7 else 3.
Definition xeL : lattice := mkLat 2 5 3 1 true true false xS.
Definition xebasis : list coord := [czero; mkC 5 0 0].
Definition xeTypes : list string := repeat "A" 30.
Definition xeSpecs : list xspec := [custom1 (Plain [mkRow czero "A" "B" None]) 0 1 15].
Definition xeCheck := userCheck 2 xhash xeL (generateLatticeSites xeL xebasis) (one xeTypes) x1pt xeSpecs true true
  (pyCalculator (fun geo _ _ _ _ _ => seen (mkC (-15) 0 0) geo) (fun geo _ _ _ _ _ => seen (mkC (-15) 0 0) geo)) [] (dev 1 2) (dev 1 2).
Strategy expand [xeCheck].
Theorem C59_environment_refuted : exists ranks hash L basis cf it spec md i p b x r rateS rateB y d,
  userInput ranks L cf it spec /\ geoInput L basis (maxRange it) (zlen (cf_ptypes cf)) cf /\ in_wild it = true /\
  in_custom it = true /\ in_rc it = pyCalculator rateS rateB /\ noneCached it /\ reachable ranks hash L cf it md /\
  zget (in_procs it) i = Some p /\ pr_basis p = [b] /\ placed L basis (pr_custom p) b (positions (spec i)) /\ evt (md_in md) i x r /\
  siteAt L (cf_coords (md_cf md)) x d y /\ shortest L d /\ cnorm2 d <= pr_cut2 p /\
  (forall geo before after rate number g, rateS geo before after rate number g = r -> ~ In d geo) /\
  (forall geo before after rate number g, rateB geo before after rate number g = r -> ~ In d geo).
Proof.
  assert (H : xeCheck (fun cf it md _ => geoInputb xeL xebasis (maxRange it) (zlen (cf_ptypes cf)) cf && in_wild it && in_custom it && noneCachedb it &&
    somewhere (zget (in_procs it) 0) (fun p => list_eqb (pr_basis p) [0] && placedb xeL xebasis (pr_custom p) 0 (positions (specOf xeSpecs 0)) && (225 <=? pr_cut2 p)) &&
    somewhere (zget (in_procs (md_in md)) 0) (fun p => existsb (fun e => (fst e =? 12) && (snd e =? 3)) (events p)) &&
    somewhere (zget (cf_coords (md_cf md)) 12) (fun a => somewhere (zget (cf_coords (md_cf md)) 1) (fun c => ceqb (csub c a) (mkC (-15) 0 0)))) = true) by (vm_compute; reflexivity).
  unfold xeCheck in H. apply userCheck_sound in H. destruct H as (cf & it & md & md' & US & H). rewrite !andb_true_iff in H. destruct H as ((((((H1 & H2) & H3) & H4) & H5) & H6) & H7).
  apply somewhere_Some in H5. destruct H5 as (p & Ep & H5). rewrite !andb_true_iff in H5. destruct H5 as ((H5 & H8) & H9). apply somewhere_Some in H6. destruct H6 as (p' & Ep' & H6).
  apply somewhere_Some in H7. destruct H7 as (a & Ea & H7). apply somewhere_Some in H7. destruct H7 as (c & Ec & H7).
  apply existsb_exists in H6. destruct H6 as ([x r] & Hin & H6). cbn [fst snd] in H6. apply andb_true_iff in H6. destruct H6 as [X1 X2]. apply Z.eqb_eq in X1, X2. subst x r.
  destruct (us_it _ _ _ _ _ _ _ _ _ _ _ _ _ _ _ _ _ US) as (ps & _ & Eit).
  assert (HN : forall geo, seen (mkC (-15) 0 0) geo = 3 -> ~ In (mkC (-15) 0 0) geo).
  { intros geo H Hi. unfold seen in H. replace (existsb (ceqb (mkC (-15) 0 0)) geo) with true in H; [discriminate|]. symmetry. apply existsb_exists. exists (mkC (-15) 0 0). split; [exact Hi|reflexivity]. }
  exists 2, xhash, xeL, xebasis, cf, it, (specOf xeSpecs), md, 0, p, 0, 12, 3, (fun geo _ _ _ _ _ => seen (mkC (-15) 0 0) geo), (fun geo _ _ _ _ _ => seen (mkC (-15) 0 0) geo), 1, (mkC (-15) 0 0).
  split; [inputOf US|]. split; [apply geoInputb_sound; exact H1|]. split; [exact H2|]. split; [exact H3|]. split; [rewrite Eit; reflexivity|]. split; [apply noneCachedb_sound; exact H4|].
  split; [reached US|]. split; [exact Ep|]. split; [apply oneBasis; exact H5|]. split; [apply placedb_sound; exact H8|]. split; [exists p'; auto|].
  split; [exists a, c; split; [exact Ea|]; split; [exact Ec|]; apply ceqb_eq in H7; rewrite H7; split; [exists 0; reflexivity|]; split; [exists 0; reflexivity|reflexivity]|].
  split; [split; [intros _; cbn; lia|]; split; [intros _; cbn; lia|intros X; discriminate]|]. split; [apply Z.leb_le in H9; cbn; lia|].
  split; intros; apply HN; assumption.
Qed.

Print Assumptions C59_environment.
Print Assumptions C59_covered_whole_cells.
Print Assumptions C59_covered_one_point.
Print Assumptions C59_environment_refuted.
