(** C30: caching of custom rates changes nothing. *)
From Verif Require Import PBase SModel SGeo SEvent SBuild SPlain SStep SBucket SPossible SRates SCache MCallback PLattice PProcess PRateTable PMatcher PPerform PStep PGeo PPossible PRun PEffect PRematch PEvent PBuild PPlain PRow PStepInv PBucket PRegular PRates PEnv PCache PCache2 TMatch TStep TPossible TRates XCheck XSystems XRows.
Open Scope string_scope.
Open Scope list_scope.
Open Scope Z_scope.

Lemma plain_same md : sameState md (plainMd md).
Proof.
  constructor; cbn [plainMd md_cf md_in]; [reflexivity| |reflexivity]. intros i x r. unfold evt. split.
  - intros (p & Ep & H). rewrite uncached_get in Ep. destruct (zget (in_procs (md_in md)) i) as [q|]; [|discriminate]. inversion Ep; subst. exists q. auto.
  - intros (p & Ep & H). exists (uncache p). rewrite uncached_get, Ep. auto.
Qed.
Lemma cache_cases D hash cf it : cacheInput D hash cf it -> exists strict, (strict = true -> forall e, In e (cf_elements cf) -> exists s, e = [s]) /\ cacheable strict it.
Proof.
  intros [A B C [E|E]].
  - exists true. split; [auto|]. intros i p Ep Ec. split; [apply C; [eapply zget_In; eauto|exact Ec]|auto].
  - exists false. split; [discriminate|]. intros i p Ep Ec. apply zget_In in Ep. auto.
Qed.

(** ** C30 *)
(** For every history of random numbers, if the different environments that come up in it have different keys, the simulation with caching runs through exactly when the
    simulation without caching does, and the two then show the same configuration, the same available events, and the same rates. *)
Theorem C30_cache_transparent ranks hash L cf it spec us : userInput ranks L cf it spec ->
  (cacheInput (comesUp ranks hash L cf it us) hash cf it ->
   forall a, simulate ranks hash L cf it us = Some a -> exists b, simulate ranks hash L cf (uncached it) us = Some b /\ sameState a b) /\
  (cacheInput (comesUp ranks hash L cf (uncached it) us) hash cf it ->
   forall b, simulate ranks hash L cf (uncached it) us = Some b -> exists a, simulate ranks hash L cf it us = Some a /\ sameState a b).
Proof.
  intros UI. pose proof (user_std _ _ _ _ _ UI) as ST. split; intros CI; destruct (cache_cases _ _ _ _ CI) as (strict & HS & HC); pose proof (ca_keys _ _ _ _ CI) as DK; pose proof (ca_numbered _ _ _ _ CI) as HN;
    pose proof (start_uncached ranks hash L cf it ST strict HN HC) as EU.
  - intros a Ha. unfold simulate in Ha |- *. rewrite EU. ob Ha as md0 E0. rewrite E0. cbn [option_map obind]. destruct (run_fwd ranks hash L cf it ST strict HS _ DK HN HC md0 us E0) with (md := a) as [_ Hb]; [|exact Ha|exists (plainMd a); split; [exact Hb|apply plain_same]].
    intros b c md Eus Emd d Hd. exists b, c, md. split; [exact Eus|]. split; [unfold simulate; rewrite E0; exact Emd|exact Hd].
  - intros b Hb. unfold simulate in Hb |- *. rewrite EU in Hb. destruct (mkLatticeModel ranks hash L cf it) as [md0|] eqn:E0; [|discriminate]. cbn [option_map obind] in *.
    destruct (run_bwd ranks hash L cf it ST strict HS _ DK HN HC md0 us E0) with (mdu := b) as (a & _ & Ha & ->); [|exact Hb|exists a; split; [exact Ha|apply plain_same]].
    intros b' c md Eus Emd d Hd. exists b', c, md. split; [exact Eus|]. split; [unfold simulate; rewrite EU; exact Emd|exact Hd].
Qed.
Lemma cacheInput_sub (D D' : list Z -> Prop) hash cf it : (forall d, D' d -> D d) -> cacheInput D hash cf it -> cacheInput D' hash cf it.
Proof. intros HS [A B C E]. constructor; auto. intros a b Ha Hb. apply A; auto. Qed.

Lemma build_cached S pt sp p : builtFrom S pt sp p -> builtFrom S pt sp (uncache p).
Proof.
  assert (A : forall f s rt bs o v n q, mkProcess S f s rt bs o v n = Some q -> uncache q = q).
  { intros f s rt bs o v n q H. unfold mkProcess in H. ob H as acc E. ob H as l El. inversion H. reflexivity. }
  assert (B : forall f s rt bs cut o v n ca q, mkCustomProcess S f s rt bs cut o v n ca = Some q -> mkCustomProcess S f s rt bs cut o v n false = Some (uncache q)).
  { intros f s rt bs cut o v n ca q H. unfold mkCustomProcess in *. ob H as p0 E0. rewrite E0. cbn [obind]. inversion H. reflexivity. }
  destruct sp as [rows|rows]; cbn [builtFrom].
  - intros (W & bs & f & s & o & v & rt & n & E1 & E2 & E3 & E4). split; [exact W|]. exists bs, f, s, o, v, rt, n. split; [exact E1|]. split; [exact E2|]. split; [exact E3|].
    destruct E4 as [E4|(cut & ca & E4)]; [left; rewrite (A _ _ _ _ _ _ _ _ E4); exact E4|right; eauto].
  - intros (W & bs & f & rt & n & E1 & E4). split; [exact W|]. exists bs, f, rt, n. split; [exact E1|].
    destruct E4 as [E4|(cut & ca & E4)]; [left; rewrite (A _ _ _ _ _ _ _ _ E4); exact E4|right; eauto].
Qed.
Lemma user_uncached ranks L cf it spec : userInput ranks L cf it spec -> userInput ranks L cf (uncached it) spec.
Proof.
  intros UI. pose proof (std_uncached _ _ _ _ (user_std _ _ _ _ _ UI)) as [A B C D E]. destruct UI. constructor; auto.
  intros i p Ep. rewrite uncached_get in Ep. destruct (zget (in_procs it) i) as [q|] eqn:Eq; [|discriminate]. inversion Ep; subst. apply build_cached. apply ui_procs. exact Eq.
Qed.

(** With caching, too, the rate of an event is what the calculator answers for the present surroundings (compare C59_environment). *)
Theorem C30_cached_environment ranks hash L basis cf it spec md i p b x r rateS rateB :
  userInput ranks L cf it spec -> cacheInput (canComeUp ranks hash L cf it) hash cf it -> geoInput L basis (maxRange it) (zlen (cf_ptypes cf)) cf -> in_wild it = true ->
  in_custom it = true -> in_rc it = pyCalculator rateS rateB ->
  reachable ranks hash L cf it md ->
  zget (in_procs it) i = Some p -> pr_basis p = [b] -> placed L basis (pr_custom p) b (positions (spec i)) ->
  coversCut L basis (maxRange it) (pr_cut2 p) ->
  evt (md_in md) i x r ->
  exists ys ds g, surroundings L (cf_coords (md_cf md)) (pr_cut2 p) x ys ds /\ zget (cf_coords (md_cf md)) x = Some g /\
    match spec i with
    | Plain rows => exists before after, toldPlain (md_cf md) rows ys ds before after /\ r = rateS ds before after (pr_rate p) (pr_number p) g
    | Bucket rows => exists before after, toldBucket (md_cf md) rows ys ds before after /\ r = rateB ds before after (pr_rate p) (pr_number p) g
    end.
Proof.
  intros UI CI GI HW HC ERC (md0 & us & E0 & E1) Ep Eb PL CC Hev.
  destruct (C30_cache_transparent ranks hash L cf it spec us UI) as [F _].
  assert (CI' : cacheInput (comesUp ranks hash L cf it us) hash cf it) by (eapply cacheInput_sub; [|exact CI]; intros d Hd; exists us; exact Hd). destruct (F CI' md) as (mdu & Eu & [S1 S2 S3]); [unfold simulate; rewrite E0; exact E1|].
  unfold simulate in Eu. ob Eu as mdu0 Eu0. apply S2 in Hev. rewrite <- S1.
  apply (C59_environment ranks hash L basis cf (uncached it) spec mdu i (uncache p) b x r rateS rateB); auto.
  - apply user_uncached. exact UI.
  - rewrite maxRange_uncached. exact GI.
  - intros j q Eq. eapply uncached_none; eauto.
  - exists mdu0, us. auto.
  - rewrite uncached_get, Ep. reflexivity.
  - rewrite maxRange_uncached. exact CC.
Qed.

(** ** Examples *)
(** a key without collisions *)
Definition zigzag (z : Z) : Z := if 0 <=? z then 2 * z else - 2 * z - 1.
Definition codeOf (l : list Z) : Z := fold_right (fun z acc => 2 ^ zigzag z * (2 * acc + 1)) 0 l.
Lemma zigzag_nonneg z : 0 <= zigzag z. Proof. unfold zigzag. destruct (Z.leb_spec 0 z); lia. Qed.
Lemma zigzag_inj a b : zigzag a = zigzag b -> a = b. Proof. unfold zigzag. destruct (Z.leb_spec 0 a), (Z.leb_spec 0 b); lia. Qed.
Lemma codeOf_nonneg l : 0 <= codeOf l.
Proof. induction l as [|z l IH]; cbn [codeOf fold_right]; [lia|]. fold (codeOf l). pose proof (Z.pow_nonneg 2 (zigzag z)). nia. Qed.
Lemma pow_odd a : 0 <= a -> forall c b d, 0 <= c -> 2 ^ a * (2 * b + 1) = 2 ^ c * (2 * d + 1) -> a = c /\ b = d.
Proof.
  revert a. apply (natlike_ind (fun a => forall c b d, 0 <= c -> 2 ^ a * (2 * b + 1) = 2 ^ c * (2 * d + 1) -> a = c /\ b = d)).
  - intros c b d Hc H. destruct (Z.eq_dec c 0) as [->|Hn]; [rewrite !Z.pow_0_r in H; lia|]. replace c with (Z.succ (c - 1)) in H by lia. rewrite Z.pow_succ_r, Z.pow_0_r in H by lia. exfalso.
    assert (X : 1 * (2 * b + 1) = 2 * (2 ^ (c - 1) * (2 * d + 1))) by (rewrite H; ring). lia.
  - intros a Ha IH c b d Hc H. rewrite Z.pow_succ_r in H by exact Ha. destruct (Z.eq_dec c 0) as [->|Hn].
    + exfalso. rewrite Z.pow_0_r in H. assert (X : 2 * (2 ^ a * (2 * b + 1)) = 1 * (2 * d + 1)) by (rewrite <- H; ring). lia.
    + destruct (IH (c - 1) b d) as [-> ->]; [lia| |split; lia]. replace c with (Z.succ (c - 1)) in H by lia. rewrite Z.pow_succ_r in H by lia.
      assert (X : 2 * (2 ^ a * (2 * b + 1)) = 2 * (2 ^ (c - 1) * (2 * d + 1))) by (rewrite !Z.mul_assoc; exact H). lia.
Qed.
Lemma codeOf_inj a b : codeOf a = codeOf b -> a = b.
Proof.
  revert b. induction a as [|z a IH]; intros [|y b] H; auto.
  - exfalso. cbn [codeOf fold_right] in H. fold (codeOf b) in H. pose proof (codeOf_nonneg b). pose proof (Z.pow_pos_nonneg 2 (zigzag y) ltac:(lia) (zigzag_nonneg y)). nia.
  - exfalso. cbn [codeOf fold_right] in H. fold (codeOf a) in H. pose proof (codeOf_nonneg a). pose proof (Z.pow_pos_nonneg 2 (zigzag z) ltac:(lia) (zigzag_nonneg z)). nia.
  - cbn [codeOf fold_right] in H. fold (codeOf a) in H. fold (codeOf b) in H. apply pow_odd in H; try apply zigzag_nonneg. destruct H as [H1 H2]. f_equal; [apply zigzag_inj; exact H1|apply IH; exact H2].
Qed.
(** the calculators: the numbers of particles before and after *)
Definition rateS2 : list coord -> list string -> list string -> Z -> Z -> coord -> Z := fun geo before after r n g => r + 2 * countA before + countA after.
Definition rateB2 : list coord -> list (list (Z * string)) -> list (list (Z * string)) -> Z -> Z -> coord -> Z :=
  fun geo before after r n g => r + 2 * zsum (map fst (concat before)) + zsum (map fst (concat after)).
Definition cached1 (sp : pspec) (b rate cut : Z) : xspec := mkXS sp [b] rate (Some (cut, true)).
Definition xgSpecs : list xspec := [ cached1 (Plain hopRows) 0 3 12; cached1 (Plain upRows) 0 5 12; custom1 (Plain hopRows) 0 1 12 ].
Definition xhSpecs : list xspec := [ cached1 (Bucket [mkBRow czero ["A"] [("A", -1); ("B", 1)]; mkBRow (xcell 1 0 0) ["B"] [("A", 1)]]) 0 7 13 ].
Definition x30us : list (deviate * deviate) := [(dev 1 3, dev 1 2); (dev 2 3, dev 1 5)].
Definition x30Check els specs := userCheck 2 codeOf x1L x1sites els x1pt specs true true (pyCalculator rateS2 rateB2) x30us (dev 1 100) (dev 1 2).
Strategy expand [x30Check].
Definition numberedb (it : interactions) : bool := forallb (fun ip : Z * process => pr_number (snd ip) =? fst ip) (combine (zrange 0 (zlen (in_procs it) - 1)) (in_procs it)).
Lemma numberedb_sound it : numberedb it = true -> numbered it.
Proof.
  intros H i p Ep. unfold numberedb in H. rewrite forallb_forall in H. specialize (H (i, p)). cbn [fst snd] in H. apply Z.eqb_eq. apply H. apply (zget_In _ i). apply combine_get. apply zget_range in Ep as R. rewrite zget_zrange by lia. split; [f_equal; lia|exact Ep].
Qed.
Definition singlesb (cf : config) : bool := forallb (fun e : list string => match e with [_] => true | _ => false end) (cf_elements cf).
Definition bucketsb (it : interactions) : bool := forallb (fun p => negb (pr_cache p) || pr_bucket p) (in_procs it).
Lemma singlesb_sound cf : singlesb cf = true -> forall e, In e (cf_elements cf) -> exists s, e = [s].
Proof. intros H e He. unfold singlesb in H. rewrite forallb_forall in H. specialize (H e He). destruct e as [|s [|]]; try discriminate. eauto. Qed.
Lemma bucketsb_sound it : bucketsb it = true -> forall p, In p (in_procs it) -> pr_cache p = true -> pr_bucket p = true.
Proof. intros H p Hp Hc. unfold bucketsb in H. rewrite forallb_forall in H. specialize (H p Hp). rewrite Hc in H. exact H. Qed.
Definition storedSome (md : model) : bool := existsb (fun t => negb (zlen (map fst t) =? 0)) (rt_tabs (mt_rt (md_mt md))).
(** the hypotheses hold, the run goes on, a rate is in the table *)
Definition c30Case (xs : list xspec) : Prop :=
  exists cf it md, userInput 2 x1L cf it (specOf xs) /\ cacheInput (canComeUp 2 codeOf x1L cf it) codeOf cf it /\ simulate 2 codeOf x1L cf it x30us = Some md /\ 
    geoInput x1L x1basis (maxRange it) (zlen (cf_ptypes cf)) cf /\ in_wild it = true /\ in_custom it = true /\
    (exists p, zget (in_procs it) 0 = Some p /\ pr_cache p = true /\ pr_basis p = [0] /\ placed x1L x1basis (pr_custom p) 0 (positions (specOf xs 0)) /\
       coversCut x1L x1basis (maxRange it) (pr_cut2 p)) /\
    (exists x r, evt (md_in md) 0 x r) /\ rt_tabs (mt_rt (md_mt md)) <> [].
Definition c30b (xs : list xspec) (cf : config) (it : interactions) (md : model) : bool :=
  geoInputb x1L x1basis (maxRange it) (zlen (cf_ptypes cf)) cf && in_wild it && in_custom it && numberedb it && (singlesb cf || bucketsb it) &&
  somewhere (zget (in_procs it) 0) (fun p => pr_cache p && list_eqb (pr_basis p) [0] && pr_custom p && placedb x1L x1basis (pr_custom p) 0 (positions (specOf xs 0))) &&
  somewhere (zget (in_procs (md_in md)) 0) (fun p => 0 <? zlen (events p)) && storedSome md.
Lemma c30_example els xs : x30Check els xs (fun cf it md _ => c30b xs cf it md) = true -> c30Case xs.
Proof.
  intros H. unfold x30Check in H. apply userCheck_sound in H. destruct H as (cf & it & md & md' & US & H). unfold c30b in H. rewrite !andb_true_iff in H. destruct H as (((((((H1 & H2) & H3) & H4) & H5) & H6) & H7) & H8).
  apply somewhere_Some in H6. destruct H6 as (p & Ep & H6). rewrite !andb_true_iff in H6. destruct H6 as (((A1 & A2) & A3) & A4). apply somewhere_Some in H7. destruct H7 as (p' & Ep' & H7).
  destruct (us_it _ _ _ _ _ _ _ _ _ _ _ _ _ _ _ _ _ US) as (ps & _ & Eit). assert (UI : userInput 2 x1L cf it (specOf xs)) by inputOf US.
  exists cf, it, md. split; [exact UI|]. split.
  { constructor; [intros ? ? _ _; apply codeOf_inj|apply numberedb_sound; exact H4| |].
    - intros q _ _. rewrite Eit. split; intros; reflexivity.
    - apply orb_true_iff in H5. destruct H5 as [H5|H5]; [left; apply singlesb_sound; exact H5|right; apply bucketsb_sound; exact H5]. }
  split; [destruct US as [_ _ (md0 & E0 & E1) _ _]; unfold simulate; rewrite E0; exact E1|].
  split; [apply geoInputb_sound; exact H1|]. split; [exact H2|]. split; [exact H3|]. split.
  { exists p. split; [exact Ep|]. split; [exact A1|]. split; [apply oneBasis; exact A2|]. split; [apply placedb_sound; exact A4|]. eapply C59_covered_one_point; eauto. reflexivity. }
  split. { destruct (events p') as [|[x r] l] eqn:Ev; [discriminate|]. exists x, r, p'. split; [exact Ep'|]. rewrite Ev. left. reflexivity. }
  intros HE. unfold storedSome in H8. rewrite HE in H8. discriminate.
Qed.
Example C30_example_plain : c30Case xgSpecs.
Proof. apply (c30_example (one xaTypes)). vm_compute. reflexivity. Qed.
Example C30_example_bucket : c30Case xhSpecs.
Proof. apply (c30_example xfEls). vm_compute. reflexivity. Qed.

(** ** Where caching changes the rates *)
(** after the same random numbers, [a] with caching shows an event with a rate that it does not have in [b] without caching *)
Definition cacheShows (ranks : Z) (hash : list Z -> Z) (L : lattice) (cf : config) (it : interactions) : Prop :=
  exists us a b i x r, simulate ranks hash L cf it us = Some a /\ simulate ranks hash L cf (uncached it) us = Some b /\ evt (md_in a) i x r /\ ~ evt (md_in b) i x r.
Definition x30one : list (deviate * deviate) := [(dev 1 3, dev 1 2)].
Definition hasEvent (md : model) (i x r : Z) : bool := somewhere (zget (in_procs (md_in md)) i) (fun p => existsb (fun e => (fst e =? x) && (snd e =? r)) (events p)).
Lemma hasEvent_spec md i x r : hasEvent md i x r = true <-> evt (md_in md) i x r.
Proof.
  unfold hasEvent, evt. split.
  - intros H. apply somewhere_Some in H. destruct H as (p & Ep & H). exists p. split; [exact Ep|]. apply existsb_exists in H. destruct H as ([y s] & Hin & H). cbn [fst snd] in H. apply andb_true_iff in H. destruct H as [H1 H2]. apply Z.eqb_eq in H1, H2. subst. exact Hin.
  - intros (p & Ep & H). rewrite Ep. cbn [somewhere]. apply existsb_exists. exists (x, r). split; [exact H|]. cbn [fst snd]. rewrite !Z.eqb_refl. reflexivity.
Qed.
Definition showsAt (i x r : Z) (cf : config) (it : interactions) (md : model) (hash : list Z -> Z) : bool :=
  hasEvent md i x r && somewhere (simulate 2 hash x1L cf (uncached it) x30one) (fun b => negb (hasEvent b i x r)).
Lemma shows_sound hash els xs rc u1 u2 i x r Q : userCheck 2 hash x1L x1sites els x1pt xs true true rc x30one u1 u2 (fun cf it md _ => Q cf it && showsAt i x r cf it md hash) = true ->
  exists cf it, userInput 2 x1L cf it (specOf xs) /\ in_rc it = rc /\ Q cf it = true /\ cacheShows 2 hash x1L cf it.
Proof.
  intros H. apply userCheck_sound in H. destruct H as (cf & it & md & md' & US & H). unfold showsAt in H. rewrite !andb_true_iff in H. destruct H as (H1 & H2 & H3). apply somewhere_Some in H3. destruct H3 as (b & Eb & H3).
  destruct (us_it _ _ _ _ _ _ _ _ _ _ _ _ _ _ _ _ _ US) as (ps & _ & Eit). exists cf, it. split; [inputOf US|]. split; [rewrite Eit; reflexivity|]. split; [exact H1|]. exists x30one, md, b, i, x, r.
  split; [destruct US as [_ _ (md0 & E0 & E1) _ _]; unfold simulate; rewrite E0; exact E1|]. split; [exact Eb|]. split; [apply hasEvent_spec; exact H2|]. intros HE. apply hasEvent_spec in HE. rewrite HE in H3. discriminate.
Qed.
(** positions: the calculator uses the position of the site, the key does not *)
Theorem C30_positions_refuted : exists ranks hash L cf it spec, userInput ranks L cf it spec /\ distinctKeys (fun _ => True) hash /\ numbered it /\ (forall e, In e (cf_elements cf) -> exists s, e = [s]) /\ cacheShows ranks hash L cf it.
Proof.
  assert (H : userCheck 2 codeOf x1L x1sites (one xaTypes) x1pt xgSpecs true true (pyCalculator rateS1 rateB1) x30one (dev 1 100) (dev 1 2) (fun cf it md _ => (numberedb it && singlesb cf) && showsAt 0 4 14 cf it md codeOf) = true) by (vm_compute; reflexivity).
  apply shows_sound in H. destruct H as (cf & it & UI & _ & HQ & HS). apply andb_true_iff in HQ. destruct HQ as [H1 H2]. exists 2, codeOf, x1L, cf, it, (specOf xgSpecs).
  split; [exact UI|]. split; [intros ? ? _ _; apply codeOf_inj|]. split; [apply numberedb_sound; exact H1|]. split; [apply singlesb_sound; exact H2|exact HS].
Qed.
(** names: several particles at a site in different orders have one key, and the calculator of a plain process is told the first name *)
Definition xoEls : list (list string) := [["A"]; ["B"; "A"]; ["A"];  ["A"]; ["A"; "B"]; ["A"];  ["A"]; ["A"]; ["A"];  ["A"]; ["A"]; ["A"]].
Definition xoSpecs : list xspec := [ cached1 (Plain [mkRow czero "B" "A" None]) 0 3 1 ].
Theorem C30_names_refuted : exists ranks hash L cf it spec, userInput ranks L cf it spec /\ distinctKeys (fun _ => True) hash /\ numbered it /\ (forall p, occupationOnly (in_rc it) p) /\ cacheShows ranks hash L cf it.
Proof.
  assert (H : userCheck 2 codeOf x1L x1sites xoEls x1pt xoSpecs true true (pyCalculator rateS2 rateB2) x30one (dev 1 100) (dev 1 2) (fun cf it md _ => (numberedb it && true) && showsAt 0 1 6 cf it md codeOf) = true) by (vm_compute; reflexivity).
  apply shows_sound in H. destruct H as (cf & it & UI & Erc & HQ & HS). apply andb_true_iff in HQ. destruct HQ as [H1 _]. exists 2, codeOf, x1L, cf, it, (specOf xoSpecs).
  split; [exact UI|]. split; [intros ? ? _ _; apply codeOf_inj|]. split; [apply numberedb_sound; exact H1|]. split; [|exact HS]. intros p. rewrite Erc. split; intros; reflexivity.
Qed.
(** keys: equal keys for different environments *)
Theorem C30_collision_refuted : exists ranks hash L cf it spec, userInput ranks L cf it spec /\ numbered it /\ (forall e, In e (cf_elements cf) -> exists s, e = [s]) /\ (forall p, occupationOnly (in_rc it) p) /\ cacheShows ranks hash L cf it.
Proof.
  assert (H : userCheck 2 (fun _ => 0) x1L x1sites (one xaTypes) x1pt xgSpecs true true (pyCalculator rateS2 rateB2) x30one (dev 1 100) (dev 1 2) (fun cf it md _ => (numberedb it && singlesb cf) && showsAt 0 0 11 cf it md (fun _ => 0)) = true) by (vm_compute; reflexivity).
  apply shows_sound in H. destruct H as (cf & it & UI & Erc & HQ & HS). apply andb_true_iff in HQ. destruct HQ as [H1 H2]. exists 2, (fun _ => 0), x1L, cf, it, (specOf xgSpecs).
  split; [exact UI|]. split; [apply numberedb_sound; exact H1|]. split; [apply singlesb_sound; exact H2|]. split; [|exact HS]. intros p. rewrite Erc. split; intros; reflexivity.
Qed.

Print Assumptions C30_cache_transparent.
Print Assumptions C30_cached_environment.
Print Assumptions C30_positions_refuted.
Print Assumptions C30_names_refuted.
Print Assumptions C30_collision_refuted.
