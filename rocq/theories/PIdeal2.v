(** Proofs about the ideal chain: how many pairs of deviates select an event, and deviates that select a given event. *)
From Verif Require Import PBase SModel SGeo SEvent SBuild SPlain SStep SBucket SPossible SNoUB PLattice PProcess PMatcher PPerform PStep PGeo PPossible PRun PEffect PRematch PEvent PBuild PPlain PRow PStepInv PBucket PRegular PSelect TMatch TStep TSelect TPossible TNoUB PIdeal.
From Coq Require Import ZifyBool.
Open Scope string_scope.
Open Scope list_scope.
Open Scope Z_scope.

(** ** Sums over classes *)
Lemma zsum_cons a l : zsum (a :: l) = a + zsum l. Proof. reflexivity. Qed.
Lemma pick_one (ks : list Z) (g : Z -> Z) b : NoDup ks -> zsum (map (fun a => if b =? a then g a else 0) ks) = if in_dec Z.eq_dec b ks then g b else 0.
Proof.
  induction ks as [|a ks IH]; intros ND; [reflexivity|]. inversion ND as [|? ? Hn ND']; subst. cbn [map]. rewrite zsum_cons, (IH ND').
  destruct (Z.eqb_spec b a) as [->|Hne].
  - destruct (in_dec Z.eq_dec a ks); [contradiction|]. destruct (in_dec Z.eq_dec a (a :: ks)) as [|N]; [lia|exfalso; apply N; left; reflexivity].
  - destruct (in_dec Z.eq_dec b ks) as [i|i]; destruct (in_dec Z.eq_dec b (a :: ks)) as [j|j]; try lia; exfalso; [apply j; right; exact i|destruct j as [j|j]; [congruence|contradiction]].
Qed.
Lemma zsum_zero {A} (l : list A) : zsum (map (fun _ => 0) l) = 0.
Proof. induction l as [|a l IH]; [reflexivity|]. cbn [map]. rewrite zsum_cons, IH. reflexivity. Qed.
(** a sum over k of a quantity that depends only on what k selects *)
Lemma fibre (l ks : list Z) (sel : Z -> option Z) (g : Z -> Z) : NoDup ks -> (forall k a, In k l -> sel k = Some a -> In a ks) ->
  zsum (map (fun k => match sel k with Some a => g a | None => 0 end) l) =
  zsum (map (fun a => zlen (filter (fun k => match sel k with Some b => b =? a | None => false end) l) * g a) ks).
Proof.
  intros ND. induction l as [|k l IH]; intros HI; cbn [map filter].
  - symmetry. apply (zsum_zero ks).
  - rewrite zsum_cons, IH by (intros; eapply HI; [right|]; eauto). destruct (sel k) as [b|] eqn:Es.
    + replace (g b) with (zsum (map (fun a => if b =? a then g a else 0) ks)).
      2:{ rewrite pick_one by exact ND. destruct (in_dec Z.eq_dec b ks) as [|N]; [reflexivity|exfalso; apply N; eapply HI; [left; reflexivity|exact Es]]. }
      rewrite <- zsum_map_add. f_equal. apply map_ext. intros a. destruct (b =? a); [rewrite zlen_cons|]; lia.
    + lia.
Qed.
Lemma zlen_filter_sum {A} (f : A -> bool) l : zlen (filter f l) = zsum (map (fun a => if f a then 1 else 0) l).
Proof. induction l as [|a l IH]; [reflexivity|]. cbn [filter map]. rewrite zsum_cons, <- IH. destruct (f a); [rewrite zlen_cons|]; lia. Qed.
Lemma zsum_app_map {A} (f : A -> Z) l l' : zsum (map f (l ++ l')) = zsum (map f l) + zsum (map f l').
Proof. induction l as [|a l IH]; [reflexivity|]. cbn [app map]. rewrite !zsum_cons, IH. lia. Qed.
Lemma zlen_filter_prod {A B} (f : A * B -> bool) l l' : zlen (filter f (list_prod l l')) = zsum (map (fun a => zlen (filter (fun b => f (a, b)) l')) l).
Proof.
  rewrite zlen_filter_sum. induction l as [|a l IH]; [reflexivity|]. cbn [list_prod map]. rewrite zsum_cons, zsum_app_map, IH. f_equal.
  rewrite map_map, zlen_filter_sum. reflexivity.
Qed.
Lemma zlen_prod {A B} (l : list A) (l' : list B) : zlen (list_prod l l') = zlen l * zlen l'.
Proof. unfold zlen. rewrite prod_length. lia. Qed.

(** a deviate that selects the i-th of some rates *)
Lemma chosen_exists rs i r : (forall a, In a rs -> 0 <= a) -> zget rs i = Some r -> 0 < r -> exists u, unitDeviate u /\ chosen rs u i.
Proof.
  intros Hn Er Hr. pose proof (zget_range _ _ _ Er) as Hi. set (a := zsum (firstn (Z.to_nat i) rs)). set (b := zsum (firstn (Z.to_nat (i + 1)) rs)). set (T := zsum rs).
  assert (Hb : b = a + r) by (apply zsum_firstn_S; exact Er).
  assert (Ha0 : 0 <= a). { apply zsum_nonneg. intros y Hy. apply Hn. apply (In_firstn _ _ _ Hy). }
  assert (HbT : b <= T). { unfold b, T. rewrite <- (firstn_zlen_all rs (Z.to_nat (zlen rs))) at 2 by (unfold zlen; lia). apply zsum_firstn_mono; auto. lia. }
  exists (mkDev b T). split; [unfold unitDeviate; cbn [dv_num dv_den]; lia|]. unfold chosen. cbn [dv_num dv_den]. fold a b T. nia.
Qed.

Section Chain.
Context (ranks : Z) (hash : list Z -> Z) (L : lattice) (basis : list coord) (cf : config) (it : interactions) (prs : list iproc)
        (CH : chainInput ranks L basis cf it prs).
Local Notation sites := (sites L).
Local Notation enabled := (enabled L basis).
Local Notation fire := (fire L basis).
Local Notation propensity := (propensity L basis).
Local Notation processTotal := (processTotal L basis).
Local Notation total := (total L basis).
Local Notation idealStep := (idealStep L basis).

Lemma start_ideal : exists md0, mkLatticeModel ranks hash L cf it = Some md0.
Proof using CH.
  pose proof (ch_ui _ _ _ _ _ _ CH) as UI. destruct (mkLatticeModel ranks hash L cf it) as [md0|] eqn:E; [eauto|]. exfalso. revert E. apply (C50_start _ _ _ _ _ _ UI).
  - intros _. exists basis. split; [apply CH|]. intros i p b Ep Eb. destruct (proc_back _ _ _ _ _ _ CH i p Ep) as [pr Ei]. destruct (ch_proc _ _ _ _ _ _ CH i pr p Ei Ep) as (_ & Eb' & _ & _ & PL).
    unfold positions. rewrite (rows_of _ _ _ Ei). assert (b = ip_basis pr) by congruence. subst b. exact PL.
  - intros X. rewrite (ch_custom _ _ _ _ _ _ CH) in X. discriminate.
Qed.
Lemma step_exists md s u1 u2 : reachable ranks hash L cf it md -> shows (md_cf md) s -> 0 < total prs s -> unitDeviate u1 -> unitDeviate u2 -> exists md', singleStep md u1 u2 = Some md'.
Proof using CH.
  intros HR HS HT U1 U2. pose proof (ch_ui _ _ _ _ _ _ CH) as UI. destruct (ratesOK_ideal _ _ _ _ _ _ _ CH md s HR HS HT) as [O1 O2].
  destruct (singleStep md u1 u2) as [md'|] eqn:E; [eauto|]. exfalso. revert E. apply (C50_step ranks hash _ _ _ _ _ _ _ UI); auto.
  - intros X. rewrite (ch_custom _ _ _ _ _ _ CH) in X. discriminate.
  - intros i p _. exact I.
Qed.

(** ** Counting *)
Definition siteSelected (q : process) (k N : Z) : option Z := pickSite q (mkDev k N).
Lemma inner_count md s i p q pr (P : Z -> bool) N : reachable ranks hash L cf it md -> shows (md_cf md) s -> zget (in_procs (md_in md)) i = Some p -> zget prs i = Some pr -> updateRateTable p = Some q ->
  0 < processTotal pr s -> 0 < N -> (processTotal pr s | N) ->
  zlen (filter (fun k => match pickSite q (mkDev k N) with Some x => P x | None => false end) (zrange 1 N)) * processTotal pr s =
  N * zsum (map (fun x => if P x then propensity pr x s else 0) sites).
Proof using CH.
  intros HR HS Ep Ei Eq HT HN [n ->]. pose proof (ch_wi _ _ _ _ _ _ CH) as WI. assert (Hn : 0 < n) by nia. clear HN.
  pose proof (processRate_ideal _ _ _ _ _ _ _ CH md s i p pr HR HS Ep Ei) as RT.
  assert (NN : forall y r, In (y, r) (events p) -> 0 <= r).
  { intros y r Hy. assert (Hr : evt (md_in md) i y r) by (exists p; auto). apply (evt_spec _ _ _ _ _ _ _ CH md s i y r HR HS) in Hr. destruct Hr as (pr' & Ei' & _ & _ & ->). eapply rate_nonneg; eauto. }
  assert (E1 : zlen (filter (fun k => match pickSite q (mkDev k (n * processTotal pr s)) with Some x => P x | None => false end) (zrange 1 (n * processTotal pr s))) =
    zsum (map (fun k => match pickSite q (mkDev k (n * processTotal pr s)) with Some x => if P x then 1 else 0 | None => 0 end) (zrange 1 (n * processTotal pr s)))).
  { rewrite zlen_filter_sum. f_equal. apply map_ext. intros k. destruct (pickSite q (mkDev k (n * processTotal pr s))); reflexivity. }
  rewrite E1, <- RT. rewrite <- RT in HT. rewrite (fibre _ (map fst (events p)) (fun k => pickSite q (mkDev k (n * processRate p))) (fun x => if P x then 1 else 0)).
  - rewrite map_map. 
    assert (E2 : map (fun e : Z * Z => zlen (filter (fun k => match pickSite q (mkDev k (n * processRate p)) with Some b => b =? fst e | None => false end) (zrange 1 (n * processRate p))) * (if P (fst e) then 1 else 0)) (events p)
               = map (fun e => n * ((if P (fst e) then 1 else 0) * snd e)) (events p)).
    { apply map_ext_in. intros [x r] Hx. cbn [fst snd]. rewrite (C15_proportional _ _ _ _ _ _ _ _ _ x r n WI HR Ep Eq NN HT Hn Hx). lia. }
    rewrite E2, zsum_map_mul, (events_sum _ _ _ _ _ _ _ CH md s i p pr (fun x => if P x then 1 else 0) HR HS Ep Ei).
    assert (E3 : map (fun x => (if P x then 1 else 0) * propensity pr x s) sites = map (fun x => if P x then propensity pr x s else 0) sites) by (apply map_ext; intros x; destruct (P x); lia).
    rewrite E3. ring.
  - eapply events_nodup; eauto.
  - intros k a Hk Ha. apply In_zrange in Hk. apply (C15_site_selection _ _ _ _ _ _ _ _ _ _ _ WI HR Ep Eq NN HT) in Ha; [|cbn; lia]. destruct Ha as (m & r & E & _). apply in_map_iff. exists (a, r). split; [reflexivity|eapply zget_In; eauto].
Qed.

Lemma count_events md s m N (P : Z -> Z -> bool) : reachable ranks hash L cf it md -> shows (md_cf md) s -> 0 < total prs s -> 0 < m -> 0 < N ->
  (forall pr, In pr prs -> 0 < processTotal pr s -> (processTotal pr s | N)) ->
  zlen (filter (fun k => match pickedEvent md (mkDev (fst k) (m * total prs s)) (mkDev (snd k) N) with Some e => P (fst e) (snd e) | None => false end)
               (list_prod (zrange 1 (m * total prs s)) (zrange 1 N))) =
  m * N * zsum (map (fun i => match zget prs i with Some pr => zsum (map (fun x => if P i x then propensity pr x s else 0) sites) | None => 0 end) (zrange 0 (zlen prs - 1))).
Proof using CH.
  intros HR HS HT Hm HN HD. pose proof (ch_wi _ _ _ _ _ _ CH) as WI. pose proof (ratesOK_ideal _ _ _ _ _ _ _ CH md s HR HS HT) as OK.
  pose proof (processRates_ideal _ _ _ _ _ _ _ CH md s HR HS) as RS. pose proof (procs_len _ _ _ _ _ _ _ CH md HR) as PL.
  destruct (reachable_info _ _ _ _ _ _ WI HR) as (cf1 & it2 & RI). pose proof (ri_inv _ _ _ _ _ _ _ _ RI) as IV.
  set (R := total prs s) in *.
  assert (ER : R = zsum (map processRate (in_procs (md_in md)))) by (rewrite RS; reflexivity).
  set (inner := fun i => match zget (in_procs (md_in md)) i with Some p => match updateRateTable p with Some q =>
     zlen (filter (fun k => match pickSite q (mkDev k N) with Some x => P i x | None => false end) (zrange 1 N)) | None => 0 end | None => 0 end).
  rewrite zlen_filter_prod.
  assert (E1 : map (fun a => zlen (filter (fun b => match pickedEvent md (mkDev (fst (a, b)) (m * R)) (mkDev (snd (a, b)) N) with Some e => P (fst e) (snd e) | None => false end) (zrange 1 N))) (zrange 1 (m * R))
             = map (fun k => match pickProcessIndex (md_in md) (mkDev k (m * R)) with Some i => inner i | None => 0 end) (zrange 1 (m * R))).
  { apply map_ext. intros k. cbn [fst snd]. unfold pickedEvent, inner. destruct (pickProcessIndex (md_in md) (mkDev k (m * R))) as [i|]; cbn [obind].
    - destruct (zget (in_procs (md_in md)) i) as [p|]; cbn [obind]; [destruct (updateRateTable p) as [q|]; cbn [obind]|].
      + f_equal. apply filter_ext. intros b. destruct (pickSite q (mkDev b N)); reflexivity.
      + rewrite zlen_filter_sum. apply zsum_zero.
      + rewrite zlen_filter_sum. apply zsum_zero.
    - rewrite zlen_filter_sum. apply zsum_zero. }
  rewrite E1, (fibre _ (zrange 0 (zlen prs - 1))); [|apply NoDup_zrange|].
  - rewrite <- zsum_map_mul. f_equal. apply map_ext_in. intros i Hi. apply In_zrange in Hi.
    destruct (zget_lt prs i ltac:(lia)) as [pr Ei]. rewrite Ei. destruct (zget_lt (in_procs (md_in md)) i ltac:(lia)) as [p Ep].
    pose proof (C13_proportional _ _ _ _ _ _ i p m WI HR OK Hm Ep) as C13. cbv zeta in C13. rewrite <- ER in C13. rewrite C13.
    rewrite (processRate_ideal _ _ _ _ _ _ _ CH md s i p pr HR HS Ep Ei). unfold inner. rewrite Ep.
    pose proof (bi_proc _ _ (iv_binv _ IV) i p Ep) as PI.
    assert (NNP : forall x, 0 <= propensity pr x s) by (intros x; eapply propensity_nonneg; eauto).
    assert (NN : 0 <= processTotal pr s) by (apply zsum_nonneg; intros a Ha; apply in_map_iff in Ha; destruct Ha as (x & <- & _); apply NNP).
    destruct (Z.eq_dec (processTotal pr s) 0) as [Z0|Z0].
    + rewrite Z0. replace (zsum (map (fun x => if P i x then propensity pr x s else 0) sites)) with 0; [ring|].
      assert (LE : forall l, (forall x, In x l -> In x sites) -> 0 <= zsum (map (fun x => if P i x then propensity pr x s else 0) l) <= zsum (map (fun x => propensity pr x s) l)).
      { induction l as [|a l IH]; intros HI; [cbn; lia|]. cbn [map]. rewrite !zsum_cons. specialize (NNP a). specialize (IH (fun x Hx => HI x (or_intror Hx))). destruct (P i a); lia. }
      specialize (LE sites (fun x Hx => Hx)). unfold SIdeal.processTotal in Z0. lia.
    + destruct (updateRateTable p) as [q|] eqn:Eq.
      * rewrite <- Z.mul_assoc, (Z.mul_comm (processTotal pr s)).
        rewrite (inner_count md s i p q pr (P i) N HR HS Ep Ei Eq ltac:(lia) HN); [ring|]. apply HD; [eapply zget_In; eauto|lia].
      * exfalso. unfold updateRateTable in Eq. rewrite siteRates_prates in Eq by exact PI. discriminate.
  - intros k a Hk Ha. apply In_zrange in Hk. rewrite In_zrange. 
    assert (U : 0 < dv_num (mkDev k (m * R)) <= dv_den (mkDev k (m * R))) by (cbn; lia).
    destruct (C13_partition _ _ _ _ _ _ _ WI HR OK U) as (j & Hj & HC & _). apply (C13_process_selection _ _ _ _ _ _ _ _ WI HR OK U (proj1 Hj)) in HC. assert (j = a) by congruence. lia.
Qed.

(** ** Every event can be selected *)
Lemma event_deviates md s i pr x : reachable ranks hash L cf it md -> shows (md_cf md) s -> zget prs i = Some pr -> In x sites -> 0 < propensity pr x s ->
  exists u1 u2, unitDeviate u1 /\ unitDeviate u2 /\ pickedEvent md u1 u2 = Some (i, x).
Proof using CH.
  intros HR HS Ei Hx HP. pose proof (ch_wi _ _ _ _ _ _ CH) as WI.
  assert (He : enabled pr x s = true) by (unfold SIdeal.propensity in HP; destruct (enabled pr x s); [reflexivity|lia]).
  assert (Hr : 0 < ip_rate pr) by (unfold SIdeal.propensity in HP; rewrite He in HP; exact HP).
  assert (EV : evt (md_in md) i x (ip_rate pr)) by (apply (evt_spec _ _ _ _ _ _ _ CH md s i x _ HR HS); eauto).
  assert (NNE : forall j y r, evt (md_in md) j y r -> 0 <= r).
  { intros j y r Hy. apply (evt_spec _ _ _ _ _ _ _ CH md s j y r HR HS) in Hy. destruct Hy as (pr' & Ei' & _ & _ & ->). eapply rate_nonneg; eauto. }
  assert (OK : ratesOK md) by (split; [exact NNE|eauto 6]).
  destruct (reachable_info _ _ _ _ _ _ WI HR) as (cf1 & it2 & RI). pose proof (ri_inv _ _ _ _ _ _ _ _ RI) as IV. destruct (rates_facts md IV OK) as (_ & HN & _).
  destruct EV as (p & Ep & Hin). pose proof (bi_proc _ _ (iv_binv _ IV) i p Ep) as PI.
  assert (NN : forall y r, In (y, r) (events p) -> 0 <= r) by (intros y r Hy; apply (NNE i y r); exists p; auto).
  assert (PP : 0 < processRate p). { apply zsum_pos_of; [intros a Ha; apply in_map_iff in Ha; destruct Ha as ([y r] & <- & Hy); eauto|]. exists (ip_rate pr). split; [apply in_map_iff; exists (x, ip_rate pr); auto|exact Hr]. }
  destruct (chosen_exists (map processRate (in_procs (md_in md))) i (processRate p)) as (u1 & U1 & C1); [intros a Ha; apply in_map_iff in Ha; destruct Ha as (q & <- & Hq); auto|rewrite zget_map, Ep; reflexivity|exact PP|].
  destruct (In_zget _ _ Hin) as [n En].
  destruct (chosen_exists (map snd (events p)) n (ip_rate pr)) as (u2 & U2 & C2); [intros a Ha; apply in_map_iff in Ha; destruct Ha as ([y r] & <- & Hy); cbn; eauto|rewrite zget_map, En; reflexivity|exact Hr|].
  exists u1, u2. split; [exact U1|]. split; [exact U2|]. pose proof (zget_range _ _ _ Ep) as Hi.
  apply (C13_process_selection _ _ _ _ _ _ _ _ WI HR OK U1 (proj1 Hi)) in C1. unfold pickedEvent. rewrite C1. cbn [obind]. rewrite Ep. cbn [obind].
  assert (Eq : updateRateTable p = Some (set_inc p (incTable 0 (prates p)))) by (unfold updateRateTable; rewrite siteRates_prates by exact PI; reflexivity).
  rewrite Eq. cbn [obind]. rewrite (proj2 (C15_site_selection _ _ _ _ _ _ _ _ _ u2 x WI HR Ep Eq NN PP U2)); [reflexivity|]. eauto.
Qed.
Lemma positive_total s e s' : idealStep prs s e s' -> 0 < total prs s.
Proof using CH.
  intros H. inversion H as [i pr x Ei Hx HP E1 E2]. 
  assert (NNP : forall pr' y, In pr' prs -> 0 <= propensity pr' y s) by (intros pr' y Hp; apply In_zget in Hp; destruct Hp as [j Ej]; eapply propensity_nonneg; eauto).
  apply zsum_pos_of.
  - intros a Ha. apply in_map_iff in Ha. destruct Ha as (pr' & <- & Hp). apply zsum_nonneg. intros b Hb. apply in_map_iff in Hb. destruct Hb as (y & <- & _). apply NNP; exact Hp.
  - exists (processTotal pr s). split; [apply in_map_iff; exists pr; split; [reflexivity|eapply zget_In; eauto]|]. apply zsum_pos_of.
    + intros b Hb. apply in_map_iff in Hb. destruct Hb as (y & <- & _). apply NNP. eapply zget_In; eauto.
    + exists (propensity pr x s). split; [apply in_map_iff; exists x; auto|exact HP].
Qed.
(** a step that follows a given event of the chain *)
Lemma step_follows md s e s' : reachable ranks hash L cf it md -> shows (md_cf md) s -> idealStep prs s e s' ->
  exists u1 u2 md', unitDeviate u1 /\ unitDeviate u2 /\ singleStep md u1 u2 = Some md' /\ (cf_lastproc (md_cf md'), cf_lastsite (md_cf md')) = e /\ shows (md_cf md') s'.
Proof using CH.
  intros HR HS H. pose proof (positive_total _ _ _ H) as HT. destruct H as [i pr x Ei Hx HP].
  destruct (event_deviates md s i pr x HR HS Ei Hx HP) as (u1 & u2 & U1 & U2 & EP). destruct (step_exists md s u1 u2 HR HS HT U1 U2) as [md' E].
  exists u1, u2, md'. pose proof (picked_step _ _ _ _ _ _ _ CH md u1 u2 md' HR E) as PS.
  destruct (step_fire _ _ _ _ _ _ _ CH md u1 u2 md' s HR E HS) as (i' & pr' & x' & Ei' & _ & _ & A1 & A2 & HS'). rewrite A1, A2 in PS.
  assert (i' = i /\ x' = x) as [-> ->] by (split; congruence). assert (pr' = pr) by congruence. subst pr'. rewrite A1, A2. auto 6.
Qed.
End Chain.
