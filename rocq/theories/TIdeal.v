(** C66: a simulation with plain processes is the Markov chain described in SIdeal.v, event by event, with its probabilities and its times. *)
From Coq Require Import Lra.
From Verif Require Import PBase SModel SGeo SEvent SBuild SPlain SStep SBucket SPossible SNoUB PLattice PProcess PMatcher PPerform PStep PRun PEffect PRematch PEvent PStepInv PPlain PIdeal PIdeal2 PSelect MTimer TTimer TStep TSelect TPossible TNoUB XRows XSystems XCheck.
From Verif Require Export SIdeal.
From Coq Require Import ZifyBool.
Open Scope string_scope.
Open Scope list_scope.
Open Scope Z_scope.

Definition lastEvent (md : model) : Z * Z := (cf_lastproc (md_cf md), cf_lastsite (md_cf md)).

(** The simulation can be started, and shows the types given. *)
Theorem C66_start ranks hash L basis cf it prs s : chainInput ranks L basis cf it prs -> shows cf s ->
  exists md, mkLatticeModel ranks hash L cf it = Some md /\ shows (md_cf md) s.
Proof.
  intros CH HS. destruct (start_ideal ranks hash L basis cf it prs CH) as [md0 E]. exists md0. split; [exact E|].
  destruct (mkLatticeModel_inv _ _ _ _ _ _ (ch_wi _ _ _ _ _ _ CH) E) as (_ & _ & cf1 & it2 & it' & mt' & mls & E1 & _ & _ & _ & _ & E6 & _).
  destruct (initMatchLists_fields _ _ _ _ E1) as (ml0 & n & _ & _ & Ecf1). unfold shows in *. rewrite E6, Ecf1. exact HS.
Qed.

(** In every state of every run each site shows one type, and the total rate the clock uses is the total rate of the chain. *)
Theorem C66_total ranks hash L basis cf it prs md : chainInput ranks L basis cf it prs -> reachable ranks hash L cf it md ->
  exists s, shows (md_cf md) s /\ zlen s = nsites L /\ totalRate (md_in md) = Some (total L basis prs s).
Proof.
  intros CH HR. destruct (shows_some _ _ _ _ _ _ _ CH md HR) as (s & HS & Hl). exists s. split; [exact HS|]. split; [exact Hl|]. eapply totalRate_ideal; eauto.
Qed.

(** A step is an event of the chain: whatever the deviates are, as long as something can happen. *)
Theorem C66_step ranks hash L basis cf it prs md s u1 u2 : chainInput ranks L basis cf it prs -> reachable ranks hash L cf it md -> shows (md_cf md) s ->
  0 < total L basis prs s -> unitDeviate u1 -> unitDeviate u2 ->
  exists md' s', singleStep md u1 u2 = Some md' /\ shows (md_cf md') s' /\ idealStep L basis prs s (lastEvent md') s'.
Proof.
  intros CH HR HS HT U1 U2. destruct (step_exists _ _ _ _ _ _ _ CH md s u1 u2 HR HS HT U1 U2) as [md' E].
  destruct (step_ideal _ _ _ _ _ _ _ CH md u1 u2 s HR HS HT U1 U2 md' E) as (s' & HS' & HI). eauto 6.
Qed.

(** Deviates k1 / (m R), k1 = 1 .. m R, and k2 / N, k2 = 1 .. N, with R the total rate and N a multiple of the total rate of every process
    that can happen: of these pairs a fraction of (rate of the event) / R leads to the event. *)
Definition pairs (M N : Z) : list (Z * Z) := list_prod (zrange 1 M) (zrange 1 N).
Definition multipleOfAll L basis (prs : list iproc) (s : state) (N : Z) : Prop :=
  forall pr, In pr prs -> 0 < processTotal L basis pr s -> (processTotal L basis pr s | N).
Definition stepLeadsTo (md : model) (M N : Z) (good : model -> bool) (k : Z * Z) : bool :=
  match singleStep md (mkDev (fst k) M) (mkDev (snd k) N) with Some md' => good md' | None => false end.
Lemma zlen_pairs M N : 0 <= M -> 0 <= N -> zlen (pairs M N) = M * N.
Proof. intros. unfold pairs. rewrite zlen_prod, !zlen_zrange by lia. lia. Qed.
Lemma step_count ranks hash L basis cf it prs md s m N (good : model -> bool) (P : Z -> Z -> bool) : chainInput ranks L basis cf it prs -> reachable ranks hash L cf it md -> shows (md_cf md) s ->
  0 < total L basis prs s -> 0 < m -> 0 < N -> multipleOfAll L basis prs s N ->
  (forall u1 u2 md', singleStep md u1 u2 = Some md' -> good md' = P (cf_lastproc (md_cf md')) (cf_lastsite (md_cf md'))) ->
  zlen (filter (stepLeadsTo md (m * total L basis prs s) N good) (pairs (m * total L basis prs s) N)) =
  m * N * zsum (map (fun i => match zget prs i with Some pr => zsum (map (fun x => if P i x then propensity L basis pr x s else 0) (sites L)) | None => 0 end) (zrange 0 (zlen prs - 1))).
Proof.
  intros CH HR HS HT Hm HN HD HG. rewrite <- (count_events _ _ _ _ _ _ _ CH md s m N P HR HS HT Hm HN HD). fold (pairs (m * total L basis prs s) N). f_equal. apply filter_ext_in. intros [k1 k2] Hk.
  unfold pairs in Hk. apply in_prod_iff in Hk. rewrite !In_zrange in Hk. unfold stepLeadsTo. cbn [fst snd].
  destruct (step_exists _ _ _ _ _ _ _ CH md s (mkDev k1 (m * total L basis prs s)) (mkDev k2 N) HR HS HT) as [md' E]; [unfold unitDeviate; cbn [dv_num dv_den]; lia|unfold unitDeviate; cbn [dv_num dv_den]; lia|].
  rewrite E, (picked_step _ _ _ _ _ _ _ CH _ _ _ _ HR E). cbn [fst snd]. eapply HG; eauto.
Qed.
Theorem C66_probability ranks hash L basis cf it prs md s i pr x m N : chainInput ranks L basis cf it prs -> reachable ranks hash L cf it md -> shows (md_cf md) s ->
  0 < total L basis prs s -> 0 < m -> 0 < N -> multipleOfAll L basis prs s N -> zget prs i = Some pr -> In x (sites L) ->
  let M := m * total L basis prs s in
  zlen (filter (stepLeadsTo md M N (fun md' => (fst (lastEvent md') =? i) && (snd (lastEvent md') =? x))) (pairs M N)) * total L basis prs s =
  propensity L basis pr x s * zlen (pairs M N).
Proof.
  intros CH HR HS HT Hm HN HD Ei Hx M. rewrite (step_count _ _ _ _ _ _ _ md s m N _ (fun j y => (j =? i) && (y =? x)) CH HR HS HT Hm HN HD) by (intros; reflexivity).
  rewrite zlen_pairs by (unfold M; nia). 
  assert (E : zsum (map (fun j => match zget prs j with Some pr => zsum (map (fun y => if (j =? i) && (y =? x) then propensity L basis pr y s else 0) (sites L)) | None => 0 end) (zrange 0 (zlen prs - 1))) = propensity L basis pr x s).
  { assert (E1 : map (fun j => match zget prs j with Some pr => zsum (map (fun y => if (j =? i) && (y =? x) then propensity L basis pr y s else 0) (sites L)) | None => 0 end) (zrange 0 (zlen prs - 1)) =
       map (fun j => if i =? j then propensity L basis pr x s else 0) (zrange 0 (zlen prs - 1))).
    { apply map_ext. intros j. rewrite (Z.eqb_sym i j). destruct (Z.eqb_spec j i) as [->|Hne].
      - rewrite Ei. assert (E2 : map (fun y => if true && (y =? x) then propensity L basis pr y s else 0) (sites L) = map (fun y => if x =? y then propensity L basis pr y s else 0) (sites L)) by (apply map_ext; intros y; cbn [andb]; rewrite (Z.eqb_sym x y); reflexivity).
        rewrite E2, pick_one by apply NoDup_zrange. destruct (in_dec Z.eq_dec x (sites L)); [reflexivity|contradiction].
      - destruct (zget prs j); [|reflexivity]. apply zsum_zero. }
    rewrite E1, (pick_one _ (fun _ => propensity L basis pr x s)) by apply NoDup_zrange. destruct (in_dec Z.eq_dec i (zrange 0 (zlen prs - 1))) as [|Hn]; [reflexivity|].
    exfalso. apply Hn. apply In_zrange. apply zget_range in Ei. lia. }
  rewrite E. unfold M. ring.
Qed.
(** The same for states: of the pairs, a fraction of (rate from s to s') / R leads to s'. *)
Theorem C66_next_state ranks hash L basis cf it prs md s s' m N : chainInput ranks L basis cf it prs -> reachable ranks hash L cf it md -> shows (md_cf md) s ->
  0 < total L basis prs s -> 0 < m -> 0 < N -> multipleOfAll L basis prs s N ->
  let M := m * total L basis prs s in
  zlen (filter (stepLeadsTo md M N (fun md' => if list_eq_dec (list_eq_dec string_dec) (cf_elements (md_cf md')) (map (fun t => [t]) s') then true else false)) (pairs M N)) * total L basis prs s =
  flow L basis prs s s' * zlen (pairs M N).
Proof.
  intros CH HR HS HT Hm HN HD M. rewrite (step_count _ _ _ _ _ _ _ md s m N _ (fun j y => match zget prs j with Some pr => sameState (fire L basis pr y s) s' | None => false end) CH HR HS HT Hm HN HD).
  2:{ intros u1 u2 md' E. destruct (step_fire _ _ _ _ _ _ _ CH md u1 u2 md' s HR E HS) as (i & pr & x & Ei & Hx & _ & A1 & A2 & HS'). rewrite A1, A2, Ei. unfold sameState.
      destruct (list_eq_dec _ _ _) as [Y|Y]; destruct (list_eq_dec _ (fire _ _ _ _ _) _) as [Y'|Y']; try reflexivity; exfalso.
      - apply Y'. eapply shows_unique; eauto.
      - apply Y. rewrite <- Y'. exact HS'. }
  rewrite zlen_pairs by (unfold M; nia). 
  assert (E : zsum (map (fun i => match zget prs i with Some pr => zsum (map (fun x => if match zget prs i with Some pr0 => sameState (fire L basis pr0 x s) s' | None => false end then propensity L basis pr x s else 0) (sites L)) | None => 0 end) (zrange 0 (zlen prs - 1))) = flow L basis prs s s').
  { unfold flow. f_equal. apply zget_ext. intros i. rewrite !zget_map. destruct (zget prs i) as [pr|] eqn:Ei.
    - pose proof (zget_range _ _ _ Ei). rewrite zget_zrange by lia. cbn [option_map]. rewrite Z.add_0_l. rewrite Ei. reflexivity.
    - destruct (zget (zrange 0 (zlen prs - 1)) i) as [j|] eqn:Ej; [|reflexivity]. exfalso. pose proof (zget_range _ _ _ Ej) as H. rewrite zlen_zrange in H by (pose proof (zlen_nonneg prs); lia). destruct (zget_lt prs i ltac:(lia)) as [a E]. congruence. }
  rewrite E. unfold M. ring.
Qed.
(** such N exist *)
Theorem C66_multiple_exists L basis prs s : exists N, 0 < N /\ multipleOfAll L basis prs s N.
Proof.
  induction prs as [|pr prs (N & HN & HD)]; [exists 1; split; [lia|intros pr []]|]. destruct (Z_lt_dec 0 (processTotal L basis pr s)) as [H|H].
  - exists (processTotal L basis pr s * N). split; [nia|]. intros pr' [<-|Hp] H'; [apply Z.divide_factor_l|apply Z.divide_mul_r; apply HD; assumption].
  - exists N. split; [exact HN|]. intros pr' [<-|Hp] H'; [lia|apply HD; assumption].
Qed.

(** A run with the clock is a history of the chain: the events are those of the run, the times are its times.  The numbers the clock draws are
    those of the history, apart from zeros, which are passed over. *)
Definition eventsOf (md : model) (us : list (deviate * deviate)) (es : list (Z * Z * R)) : Prop :=
  zlen es = zlen us /\ forall k e v, zget es k = Some (e, v) -> exists mdk, runSteps md (firstn (Z.to_nat (k + 1)) us) = Some mdk /\ lastEvent mdk = e.
Lemma runSteps_next md u us : runSteps md (u :: us) = obind (singleStep md (fst u) (snd u)) (fun md1 => runSteps md1 us).
Proof. reflexivity. Qed.
Lemma eventsOf_cons md md1 u us e v es : singleStep md (fst u) (snd u) = Some md1 -> lastEvent md1 = e -> eventsOf md1 us es -> eventsOf md (u :: us) ((e, v) :: es).
Proof.
  destruct u as [u1 u2]. cbn [fst snd]. intros ES EE [Hl HE]. split; [rewrite !zlen_cons; lia|]. intros k e' v' Hk. pose proof (zget_range _ _ _ Hk) as Hr.
  destruct (Z.eq_dec k 0) as [->|Hk0].
  - rewrite zget_cons in Hk. cbn in Hk. injection Hk as <- <-. exists md1. change (Z.to_nat (0 + 1)) with 1%nat. cbn [firstn]. rewrite runSteps_next. cbn [fst snd]. rewrite ES. cbn [obind]. auto.
  - replace (Z.to_nat (k + 1)) with (S (Z.to_nat ((k - 1) + 1))) by lia. cbn [firstn]. rewrite runSteps_next. cbn [fst snd]. rewrite ES. cbn [obind]. eapply HE. rewrite zget_cons in Hk. destruct (Z.eqb_spec k 0); [lia|]. exact Hk.
Qed.
Theorem C66_history ranks hash L basis cf it prs us : chainInput ranks L basis cf it prs -> Forall (fun u => unitDeviate (fst u) /\ unitDeviate (snd u)) us ->
  forall md s t vs md' t' rest, reachable ranks hash L cf it md -> shows (md_cf md) s -> (forall v, In v vs -> 0 <= v < 1)%R ->
  timedRun md (DFin t) us vs = Some (md', t', rest) ->
  exists es s' T, idealHistory L basis prs s t es s' T /\ shows (md_cf md') s' /\ t' = DFin T /\ eventsOf md us es /\
    exists used, vs = used ++ rest /\ filter (fun v => if Req_EM_T v 0 then false else true) used = map snd es.
Proof.
  intros CH. induction us as [|u us IH]; intros HU md s t vs md' t' rest HR HS HV H.
  - cbn in H. injection H as <- <- <-. exists [], s, t. split; [constructor|]. split; [exact HS|]. split; [reflexivity|]. split; [split; [reflexivity|intros k e v E; rewrite zget_nil in E; discriminate]|]. exists []. auto.
  - inversion HU as [|? ? [U1 U2] HU']; subst. cbn [timedRun] in H. rewrite (totalRate_ideal _ _ _ _ _ _ _ CH md s HR HS) in H. cbn [obind] in H.
    destruct (propagateTime (IZR (total L basis prs s)) (DFin t) vs) as [[t1 vs1]|] eqn:EP; [|discriminate]. cbn [obind fst snd] in H.
    destruct (singleStep md (fst u) (snd u)) as [md1|] eqn:ES; [|discriminate]. cbn [obind] in H.
    assert (NN : 0 <= total L basis prs s).
    { apply zsum_nonneg. intros a Ha. apply in_map_iff in Ha. destruct Ha as (pr & <- & Hp). apply In_zget in Hp. destruct Hp as [i Ei]. apply zsum_nonneg. intros b Hb. apply in_map_iff in Hb. destruct Hb as (x & <- & _). eapply propensity_nonneg; eauto. }
    destruct (propagateTime_inv _ _ _ _ _ (IZR_le _ _ NN) HV EP) as (HT & zeros & v & -> & HZ & Hv & ->). apply lt_IZR in HT.
    destruct (step_ideal _ _ _ _ _ _ _ CH md (fst u) (snd u) s HR HS HT U1 U2 md1 ES) as (s1 & HS1 & HI). pose proof (reach_step _ _ _ _ _ _ _ _ _ HR ES) as HR1.
    assert (HV1 : forall v', In v' vs1 -> (0 <= v' < 1)%R) by (intros v' Hv'; apply HV; apply in_or_app; right; right; exact Hv').
    destruct (IH HU' md1 s1 _ vs1 md' t' rest HR1 HS1 HV1 H) as (es & s' & T & HH & HS' & -> & HE & used & -> & HF).
    exists ((lastEvent md1, v) :: es), s', T. split; [econstructor; eauto|]. split; [exact HS'|]. split; [reflexivity|]. split; [eapply eventsOf_cons; eauto|].
    exists (zeros ++ v :: used). split; [rewrite <- app_assoc; reflexivity|]. rewrite filter_app. cbn [filter]. destruct (Req_EM_T v 0) as [->|_]; [lra|]. cbn [map snd]. rewrite HF.
    assert (FZ : filter (fun v => if Req_EM_T v 0 then false else true) zeros = []). { clear - HZ. induction zeros as [|z zeros IHz]; [reflexivity|]. cbn [filter]. rewrite (HZ z (or_introl eq_refl)). destruct (Req_EM_T 0 0) as [_|N]; [apply IHz; intros y Hy; apply HZ; right; exact Hy|exfalso; apply N; reflexivity]. }
    rewrite FZ. reflexivity.
Qed.
(** Every history of the chain is a run of the program, for suitable deviates, with the numbers of the history drawn by the clock. *)
Theorem C66_every_history ranks hash L basis cf it prs es : chainInput ranks L basis cf it prs ->
  forall md s t s' T, reachable ranks hash L cf it md -> shows (md_cf md) s -> idealHistory L basis prs s t es s' T ->
  exists us md', Forall (fun u => unitDeviate (fst u) /\ unitDeviate (snd u)) us /\ timedRun md (DFin t) us (map snd es) = Some (md', DFin T, []) /\ shows (md_cf md') s' /\ eventsOf md us es.
Proof.
  intros CH. induction es as [|[e v] es IH]; intros md s t s' T HR HS H; inversion H; subst.
  - exists [], md. split; [constructor|]. split; [reflexivity|]. split; [exact HS|]. split; [reflexivity|intros k e v E; rewrite zget_nil in E; discriminate].
  - match goal with H : idealStep _ _ _ _ _ _ |- _ => rename H into HI end. match goal with H : idealHistory _ _ _ s1 _ _ _ _ |- _ => rename H into HH end.
    pose proof (positive_total _ _ _ _ _ _ CH _ _ _ HI) as HT.
    destruct (step_follows _ _ _ _ _ _ _ CH md s e s1 HR HS HI) as (u1 & u2 & md1 & U1 & U2 & ES & EE & HS1). pose proof (reach_step _ _ _ _ _ _ _ _ _ HR ES) as HR1.
    destruct (IH md1 s1 _ s' T HR1 HS1 HH) as (us & md' & HU & HRn & HS' & HE). exists ((u1, u2) :: us), md'. split; [constructor; [split; assumption|exact HU]|]. split; [|split; [exact HS'|eapply eventsOf_cons; eauto]].
    cbn [map snd timedRun fst]. rewrite (totalRate_ideal _ _ _ _ _ _ _ CH md s HR HS). cbn [obind propagateTime]. unfold dlog. destruct (Req_EM_T v 0) as [E|_]; [lra|]. destruct (Rlt_dec v 0) as [E|_]; [lra|]. cbn [dneg ddiv].
    apply IZR_lt in HT. destruct (Req_EM_T (IZR (total L basis prs s)) 0) as [E|_]; [lra|]. cbn [isinf obind fst snd dplus]. rewrite ES. cbn [obind]. exact HRn.
Qed.

(** ** Example: system A, whose four processes compete on a periodic lattice *)
Definition specsOf (prs : list iproc) : list xspec := map (fun pr => mkXS (Plain (ip_rows pr)) [ip_basis pr] (ip_rate pr) None) prs.
Definition xaIdeal : list iproc :=
  [ mkIP 3 0 hopRows; mkIP 5 0 upRows; mkIP 1 0 [mkRow (xcell 0 0 0) "A" "B" None; mkRow (xcell (-1) 0 0) "*" "*" None]; mkIP 2 0 [mkRow (xcell 0 0 0) "B" "A" None] ].
Definition chainInputb (L : lattice) (basis : list coord) (cf : config) (it : interactions) (prs : list iproc) : bool :=
  geoInputb L basis (maxRange it) (zlen (cf_ptypes cf)) cf && in_wild it && negb (in_custom it) && match prs with [] => false | _ => true end && (zlen prs =? zlen (in_procs it)) &&
  forallb (fun i => match zget prs i, zget (in_procs it) i with
    | Some pr, Some p => (pr_rate p =? ip_rate pr) && match pr_basis p with [b] => b =? ip_basis pr | _ => false end && (pr_number p =? i) && (0 <=? ip_rate pr) && placedb L basis (pr_custom p) (ip_basis pr) (map rw_c (ip_rows pr))
    | _, _ => false end) (zrange 0 (zlen prs - 1)).
Lemma plainUser_ext ranks L cf it f g : (forall i, f i = g i) -> plainUser ranks L cf it f -> plainUser ranks L cf it g.
Proof.
  intros E [UI PS]. constructor; [|exact PS]. constructor; try apply UI. intros i p Ep. rewrite <- E. apply (ui_procs _ _ _ _ _ UI i p Ep).
Qed.
Lemma chainInputb_sound ranks L basis cf it prs : plainUser ranks L cf it (rowsIn (specsOf prs)) -> chainInputb L basis cf it prs = true -> chainInput ranks L basis cf it prs.
Proof.
  intros PU H. unfold chainInputb in H. rewrite !andb_true_iff in H. destruct H as (((((H1 & H2) & H3) & H4) & H5) & H6). constructor.
  - eapply plainUser_ext; [|exact PU]. intros i. unfold rowsIn, rowsOfProc, specOf, specsOf. rewrite zget_map. destruct (zget prs i); reflexivity.
  - apply geoInputb_sound; exact H1.
  - exact H2.
  - apply negb_true_iff; exact H3.
  - destruct prs; [discriminate|congruence].
  - apply Z.eqb_eq; exact H5.
  - intros i pr p Ei Ep. rewrite forallb_forall in H6. specialize (H6 i). rewrite Ei, Ep in H6. assert (Hi : In i (zrange 0 (zlen prs - 1))) by (apply In_zrange; apply zget_range in Ei; lia). specialize (H6 Hi).
    rewrite !andb_true_iff in H6. destruct H6 as ((((A & B) & C) & D) & F). apply Z.eqb_eq in A, C. apply Z.leb_le in D. destruct (pr_basis p) as [|b [|]]; try discriminate. apply Z.eqb_eq in B. subst b.
    split; [exact A|]. split; [reflexivity|]. split; [exact C|]. split; [exact D|]. apply placedb_sound; exact F.
Qed.
Definition namesOf (cf : config) : state := map (fun l => match l with [t] => t | _ => "" end) (cf_elements cf).
Definition c66Check : bool :=
  userCheck 2 xhash x1L x1sites (one xaTypes) x1pt (specsOf xaIdeal) true false norc x1us (dev 1 100) (dev 1 2) (fun cf it md md' =>
    chainInputb x1L x1basis cf it xaIdeal && (0 <? total x1L x1basis xaIdeal (namesOf (md_cf md))) && negb (sameState (namesOf (md_cf md)) (namesOf cf)) &&
    existsb (fun x => existsb (fun pr => (0 <? propensity x1L x1basis pr x (namesOf (md_cf md))) && (propensity x1L x1basis pr x (namesOf (md_cf md)) <? total x1L x1basis xaIdeal (namesOf (md_cf md)))) xaIdeal) (sites x1L) &&
    (if list_eq_dec (list_eq_dec string_dec) (cf_elements cf) (one xaTypes) then true else false) && (if list_eq_dec (list_eq_dec string_dec) (cf_elements (md_cf md)) (one (namesOf (md_cf md))) then true else false)).
Lemma c66_ok : c66Check = true. Proof. vm_compute. reflexivity. Qed.
Strategy expand [c66Check].
Example C66_example : exists cf it md s, chainInput 2 x1L x1basis cf it xaIdeal /\ shows cf xaTypes /\ reachable 2 xhash x1L cf it md /\ shows (md_cf md) s /\ s <> xaTypes /\ 0 < total x1L x1basis xaIdeal s /\
  exists i pr x, zget xaIdeal i = Some pr /\ In x (sites x1L) /\ 0 < propensity x1L x1basis pr x s < total x1L x1basis xaIdeal s.
Proof.
  pose proof c66_ok as H. unfold c66Check in H. apply userCheck_sound in H. destruct H as (cf & it & md & md' & US & H). rewrite !andb_true_iff in H. destruct H as (((((H1 & H2) & H3) & H4) & H5) & H6).
  destruct (list_eq_dec _ (cf_elements cf) _) as [E|] in H5; [|discriminate]. destruct (list_eq_dec _ _ _) as [E'|] in H6; [|discriminate].
  exists cf, it, md, (namesOf (md_cf md)). split; [apply chainInputb_sound; [eapply userSystem_plain; [reflexivity|exact US]|exact H1]|]. split; [exact E|]. split; [reached US|]. split; [exact E'|].
  split; [|split; [apply Z.ltb_lt; exact H2|]].
  - intros X. apply negb_true_iff in H3. unfold sameState in H3. destruct (list_eq_dec string_dec _ _) as [|N] in H3; [discriminate|]. apply N. rewrite X. unfold namesOf. rewrite E. reflexivity.
  - apply existsb_exists in H4. destruct H4 as (x & Hx & H4). apply existsb_exists in H4. destruct H4 as (pr & Hp & H4). apply andb_true_iff in H4. destruct H4 as [A B]. apply Z.ltb_lt in A, B. apply In_zget in Hp. destruct Hp as [i Ei]. exists i, pr, x. auto.
Qed.

Print Assumptions C66_start.
Print Assumptions C66_total.
Print Assumptions C66_step.
Print Assumptions C66_probability.
Print Assumptions C66_next_state.
Print Assumptions C66_multiple_exists.
Print Assumptions C66_history.
Print Assumptions C66_every_history.
Print Assumptions C66_example.
