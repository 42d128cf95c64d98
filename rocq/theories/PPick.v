(** Which event is picked, for any description of the listed events by conditions and rates. *)
From Verif Require Import PBase SModel SGeo SEvent SBuild SPlain SStep SBucket SPossible SNoUB PLattice PProcess PMatcher PPerform PStep PGeo PPossible PRun PEffect PRematch PEvent PBuild PPlain PRow PStepInv PBucket PRegular PSelect TMatch TStep TSelect TPossible TNoUB PIdeal PIdeal2.
From Coq Require Import ZifyBool.
Open Scope string_scope.
Open Scope list_scope.
Open Scope Z_scope.

Lemma listed_sum2 (l : list (Z * Z)) (S : list Z) (f : Z -> bool) (c g : Z -> Z) : NoDup (map fst l) -> NoDup S ->
  (forall x r, In (x, r) l <-> In x S /\ f x = true /\ r = c x) ->
  zsum (map (fun e => g (fst e) * snd e) l) = zsum (map (fun x => g x * (if f x then c x else 0)) S).
Proof.
  intros N1 N2 H. assert (P : Permutation l (map (fun x => (x, c x)) (filter f S))).
  { apply NoDup_Permutation.
    - eapply NoDup_map_inv; exact N1.
    - apply (NoDup_map_inv fst). rewrite map_map. cbn [fst]. rewrite map_id. apply NoDup_filter. exact N2.
    - intros [x r]. rewrite H, in_map_iff. split.
      + intros (A & B & ->). exists x. rewrite filter_In. auto.
      + intros (y & E & Hy). injection E as <- <-. apply filter_In in Hy. tauto. }
  rewrite (zsum_perm _ _ (Permutation_map (fun e => g (fst e) * snd e) P)). rewrite map_map. cbn [fst snd]. clear.
  induction S as [|x S IH]; [reflexivity|]. cbn [filter map]. rewrite PBase.zsum_cons. destruct (f x); cbn [map]; rewrite ?PBase.zsum_cons, IH; lia.
Qed.
Lemma zsum_pos_ex (l : list Z) : 0 < zsum l -> exists a, In a l /\ 0 < a.
Proof.
  induction l as [|a l IH]; intros H; [cbn in H; lia|]. rewrite PBase.zsum_cons in H. destruct (Z_lt_dec 0 a) as [Ha|Ha]; [exists a; split; [left; reflexivity|exact Ha]|].
  destruct IH as (b & Hb & Hp); [lia|]. exists b. split; [right; exact Hb|exact Hp].
Qed.
(** sums over the numbers of a list are sums over the list *)
Lemma zsum_numbers {A} (l : list A) (f : Z -> A -> Z) (g : A -> Z) : (forall i a, zget l i = Some a -> f i a = g a) ->
  zsum (map (fun i => match zget l i with Some a => f i a | None => 0 end) (zrange 0 (zlen l - 1))) = zsum (map g l).
Proof.
  intros H. f_equal. apply zget_ext. intros i. rewrite !zget_map. destruct (zget l i) as [a|] eqn:E.
  - pose proof (zget_range _ _ _ E). rewrite zget_zrange by lia. cbn [option_map]. rewrite Z.add_0_l, E, (H i a E). reflexivity.
  - destruct (zget (zrange 0 (zlen l - 1)) i) as [j|] eqn:Ej; [|reflexivity]. exfalso. pose proof (zget_range _ _ _ Ej) as Hr. rewrite zlen_zrange in Hr by (pose proof (zlen_nonneg l); lia). destruct (zget_lt l i ltac:(lia)) as [a Ea]. congruence.
Qed.

Section Pick.
Context (ranks : Z) (hash : list Z -> Z) (L : lattice) (cf : config) (it : interactions) (WI : wfInput ranks L cf it).
Notation sites := (sites L).
Notation n := (zlen (in_procs it)).
Context (md : model) (HR : reachable ranks hash L cf it md) (av : Z -> Z -> bool) (rate : Z -> Z -> Z).
Context (EV : forall i x r, evt (md_in md) i x r <-> 0 <= i < n /\ In x sites /\ av i x = true /\ r = rate i x).
Context (NN : forall i x, 0 <= i < n -> In x sites -> 0 <= rate i x).

Definition pointRate (i x : Z) : Z := if av i x then rate i x else 0.
Definition procTotal (i : Z) : Z := zsum (map (pointRate i) sites).
Definition grandTotal : Z := zsum (map procTotal (zrange 0 (n - 1))).

Lemma pick_procs_len : zlen (in_procs (md_in md)) = n.
Proof using WI HR.
  destruct (reachable_info _ _ _ _ _ _ WI HR) as (cf1 & it2 & RI). rewrite (sameP_len _ _ (ri_same _ _ _ _ _ _ _ _ RI)).
  destruct (updateML_get _ _ _ _ (ri_expand _ _ _ _ _ _ _ _ RI)) as (Hl & _). rewrite Hl. unfold clearMatching. cbn [set_procs in_procs]. apply zlen_map.
Qed.
Lemma pick_nodup i p' : zget (in_procs (md_in md)) i = Some p' -> NoDup (map fst (events p')).
Proof using WI HR.
  intros Ep. destruct (reachable_info _ _ _ _ _ _ WI HR) as (cf1 & it2 & RI). pose proof (bi_proc _ _ (iv_binv _ (ri_inv _ _ _ _ _ _ _ _ RI)) i p' Ep) as PI.
  rewrite (events_fst p') by apply PI. apply PI.
Qed.
Lemma pick_sum i p' g : zget (in_procs (md_in md)) i = Some p' ->
  zsum (map (fun e => g (fst e) * snd e) (events p')) = zsum (map (fun x => g x * pointRate i x) sites).
Proof using WI HR EV.
  intros Ep. unfold pointRate. apply (listed_sum2 _ _ (av i)); [eapply pick_nodup; eauto|apply NoDup_zrange|].
  intros x r. transitivity (evt (md_in md) i x r).
  - split; [intros H; exists p'; auto|]. intros (p1 & E1 & H). congruence.
  - rewrite EV. pose proof (zget_range _ _ _ Ep). rewrite pick_procs_len in *. tauto.
Qed.
Lemma pick_processRate i p' : zget (in_procs (md_in md)) i = Some p' -> processRate p' = procTotal i.
Proof using WI HR EV.
  intros Ep. pose proof (pick_sum i p' (fun _ => 1) Ep) as H. unfold processRate, procTotal.
  assert (E1 : map snd (events p') = map (fun e => 1 * snd e) (events p')) by (apply map_ext; intros; lia).
  assert (E2 : map (pointRate i) sites = map (fun x => 1 * pointRate i x) sites) by (apply map_ext; intros; lia).
  rewrite E1, E2. exact H.
Qed.
Lemma pick_rates : map processRate (in_procs (md_in md)) = map procTotal (zrange 0 (n - 1)).
Proof using WI HR EV.
  pose proof pick_procs_len as EL. pose proof (zlen_nonneg (in_procs it)). apply zget_ext. intros i. rewrite !zget_map.
  destruct (zget (in_procs (md_in md)) i) as [p'|] eqn:Ep.
  - pose proof (zget_range _ _ _ Ep). rewrite zget_zrange by lia. cbn [option_map]. f_equal. rewrite Z.add_0_l. apply pick_processRate. exact Ep.
  - destruct (zget (zrange 0 (n - 1)) i) as [j|] eqn:Ej; [|reflexivity]. exfalso. pose proof (zget_range _ _ _ Ej) as Hj. rewrite zlen_zrange in Hj by lia.
    destruct (zget_lt (in_procs (md_in md)) i) as [p Ep']; [lia|congruence].
Qed.
Lemma pick_total : in_procs it <> [] -> totalRate (md_in md) = Some grandTotal.
Proof using WI HR EV. intros N. destruct (C10_total_rate _ _ _ _ _ _ WI HR N) as [-> _]. rewrite pick_rates. reflexivity. Qed.
Lemma pointRate_nonneg i x : 0 <= i < n -> In x sites -> 0 <= pointRate i x.
Proof using NN. intros Hi Hx. unfold pointRate. specialize (NN i x Hi Hx). destruct (av i x); lia. Qed.
Lemma procTotal_nonneg i : 0 <= i < n -> 0 <= procTotal i.
Proof using NN. intros Hi. apply zsum_nonneg. intros a Ha. apply in_map_iff in Ha. destruct Ha as (x & <- & Hx). apply pointRate_nonneg; assumption. Qed.
Lemma grandTotal_nonneg : 0 <= grandTotal.
Proof using NN. apply zsum_nonneg. intros a Ha. apply in_map_iff in Ha. destruct Ha as (i & <- & Hi). apply In_zrange in Hi. apply procTotal_nonneg. lia. Qed.
Lemma grandTotal_pos i x : 0 <= i < n -> In x sites -> 0 < pointRate i x -> 0 < grandTotal.
Proof using NN.
  intros Hi Hx HP. apply zsum_pos_of.
  - intros a Ha. apply in_map_iff in Ha. destruct Ha as (j & <- & Hj). apply In_zrange in Hj. apply procTotal_nonneg. lia.
  - exists (procTotal i). split; [apply in_map_iff; exists i; split; [reflexivity|apply In_zrange; lia]|]. apply zsum_pos_of.
    + intros b Hb. apply in_map_iff in Hb. destruct Hb as (y & <- & Hy). apply pointRate_nonneg; assumption.
    + exists (pointRate i x). split; [apply in_map; exact Hx|exact HP].
Qed.
Lemma pick_ok : 0 < grandTotal -> ratesOK md.
Proof using NN EV.
  intros HT. split.
  - intros i x r H. apply EV in H. destruct H as (Hi & Hx & _ & ->). apply NN; assumption.
  - apply zsum_pos_ex in HT. destruct HT as (a & Ha & Pa). apply in_map_iff in Ha. destruct Ha as (i & <- & Hi). apply In_zrange in Hi. apply zsum_pos_ex in Pa. destruct Pa as (b & Hb & Pb).
    apply in_map_iff in Hb. destruct Hb as (x & <- & Hx). exists i, x, (rate i x). unfold pointRate in Pb. destruct (av i x) eqn:Ea; [|lia]. split; [|exact Pb]. apply EV. split; [lia|]. auto.
Qed.
Lemma pick_inner i p q (P : Z -> bool) N : zget (in_procs (md_in md)) i = Some p -> updateRateTable p = Some q ->
  0 < procTotal i -> 0 < N -> (procTotal i | N) ->
  zlen (filter (fun k => match pickSite q (mkDev k N) with Some x => P x | None => false end) (zrange 1 N)) * procTotal i =
  N * zsum (map (fun x => if P x then pointRate i x else 0) sites).
Proof using WI HR EV NN.
  intros Ep Eq HT HN [m ->]. assert (Hm : 0 < m) by nia. clear HN. pose proof (pick_processRate i p Ep) as RT. pose proof (zget_range _ _ _ Ep) as Hi. rewrite pick_procs_len in Hi.
  assert (N1 : forall y r, In (y, r) (events p) -> 0 <= r).
  { intros y r Hy. assert (Hr : evt (md_in md) i y r) by (exists p; auto). apply EV in Hr. destruct Hr as (_ & Hx & _ & ->). apply NN; assumption. }
  assert (E1 : zlen (filter (fun k => match pickSite q (mkDev k (m * procTotal i)) with Some x => P x | None => false end) (zrange 1 (m * procTotal i))) =
    zsum (map (fun k => match pickSite q (mkDev k (m * procTotal i)) with Some x => if P x then 1 else 0 | None => 0 end) (zrange 1 (m * procTotal i)))).
  { rewrite zlen_filter_sum. f_equal. apply map_ext. intros k. destruct (pickSite q (mkDev k (m * procTotal i))); reflexivity. }
  rewrite E1, <- RT. rewrite <- RT in HT. rewrite (fibre _ (map fst (events p)) (fun k => pickSite q (mkDev k (m * processRate p))) (fun x => if P x then 1 else 0)).
  - rewrite map_map. 
    assert (E2 : map (fun e : Z * Z => zlen (filter (fun k => match pickSite q (mkDev k (m * processRate p)) with Some b => b =? fst e | None => false end) (zrange 1 (m * processRate p))) * (if P (fst e) then 1 else 0)) (events p)
               = map (fun e => m * ((if P (fst e) then 1 else 0) * snd e)) (events p)).
    { apply map_ext_in. intros [x r] Hx. cbn [fst snd]. rewrite (C15_proportional _ _ _ _ _ _ _ _ _ x r m WI HR Ep Eq N1 HT Hm Hx). lia. }
    rewrite E2, zsum_map_mul, (pick_sum i p (fun x => if P x then 1 else 0) Ep).
    assert (E3 : map (fun x => (if P x then 1 else 0) * pointRate i x) sites = map (fun x => if P x then pointRate i x else 0) sites) by (apply map_ext; intros x; destruct (P x); lia).
    rewrite E3. ring.
  - eapply pick_nodup; eauto.
  - intros k a Hk Ha. apply In_zrange in Hk. apply (C15_site_selection _ _ _ _ _ _ _ _ _ _ _ WI HR Ep Eq N1 HT) in Ha; [|cbn; lia]. destruct Ha as (j & r & E & _). apply in_map_iff. exists (a, r). split; [reflexivity|eapply zget_In; eauto].
Qed.
Lemma pick_count m N (P : Z -> Z -> bool) : 0 < grandTotal -> 0 < m -> 0 < N -> (forall i, 0 <= i < n -> 0 < procTotal i -> (procTotal i | N)) ->
  zlen (filter (fun k => match pickedEvent md (mkDev (fst k) (m * grandTotal)) (mkDev (snd k) N) with Some e => P (fst e) (snd e) | None => false end)
               (list_prod (zrange 1 (m * grandTotal)) (zrange 1 N))) =
  m * N * zsum (map (fun i => zsum (map (fun x => if P i x then pointRate i x else 0) sites)) (zrange 0 (n - 1))).
Proof using WI HR EV NN.
  intros HT Hm HN HD. pose proof (pick_ok HT) as OK. pose proof pick_rates as RS. pose proof pick_procs_len as PL.
  destruct (reachable_info _ _ _ _ _ _ WI HR) as (cf1 & it2 & RI). pose proof (ri_inv _ _ _ _ _ _ _ _ RI) as IV.
  set (R := grandTotal) in *. assert (ER : R = zsum (map processRate (in_procs (md_in md)))) by (rewrite RS; reflexivity).
  set (inner := fun i => match zget (in_procs (md_in md)) i with Some p => match updateRateTable p with Some q =>
     zlen (filter (fun k => match pickSite q (mkDev k N) with Some x => P i x | None => false end) (zrange 1 N)) | None => 0 end | None => 0 end).
  rewrite zlen_filter_prod.
  assert (E1 : map (fun a => zlen (filter (fun b => match pickedEvent md (mkDev (fst (a, b)) (m * R)) (mkDev (snd (a, b)) N) with Some e => P (fst e) (snd e) | None => false end) (zrange 1 N))) (zrange 1 (m * R))
             = map (fun k => match pickProcessIndex (md_in md) (mkDev k (m * R)) with Some i => inner i | None => 0 end) (zrange 1 (m * R))).
  { apply map_ext. intros k. cbn [fst snd]. unfold pickedEvent, inner. destruct (pickProcessIndex (md_in md) (mkDev k (m * R))) as [i|]; cbn [obind].
    - destruct (zget (in_procs (md_in md)) i) as [p|]; cbn [obind]; [destruct (updateRateTable p) as [q|]; cbn [obind]|].
      + f_equal. apply filter_ext. intros b. destruct (pickSite q (mkDev b N)); reflexivity.
      + rewrite zlen_filter_sum. apply zsum_zero.
      + rewrite zlen_filter_sum. apply zsum_zero.
    - rewrite zlen_filter_sum. apply zsum_zero. }
  rewrite E1, (fibre _ (zrange 0 (n - 1))); [|apply NoDup_zrange|].
  - rewrite <- zsum_map_mul. f_equal. apply map_ext_in. intros i Hi. apply In_zrange in Hi. destruct (zget_lt (in_procs (md_in md)) i ltac:(lia)) as [p Ep].
    pose proof (C13_proportional _ _ _ _ _ _ i p m WI HR OK Hm Ep) as C13. cbv zeta in C13. rewrite <- ER in C13. rewrite C13.
    rewrite (pick_processRate i p Ep). unfold inner. rewrite Ep. pose proof (bi_proc _ _ (iv_binv _ IV) i p Ep) as PI.
    assert (NNP : forall x, In x sites -> 0 <= pointRate i x) by (intros x Hx; apply pointRate_nonneg; [lia|exact Hx]).
    pose proof (procTotal_nonneg i ltac:(lia)) as NT. destruct (Z.eq_dec (procTotal i) 0) as [Z0|Z0].
    + rewrite Z0. replace (zsum (map (fun x => if P i x then pointRate i x else 0) sites)) with 0; [ring|].
      assert (LE : forall l, (forall x, In x l -> In x sites) -> 0 <= zsum (map (fun x => if P i x then pointRate i x else 0) l) <= zsum (map (pointRate i) l)).
      { induction l as [|a l IH]; intros HI; [cbn; lia|]. cbn [map]. rewrite !PBase.zsum_cons. specialize (NNP a (HI a (or_introl eq_refl))). specialize (IH (fun x Hx => HI x (or_intror Hx))). destruct (P i a); lia. }
      specialize (LE sites (fun x Hx => Hx)). unfold procTotal in Z0. lia.
    + destruct (updateRateTable p) as [q|] eqn:Eq.
      * rewrite <- Z.mul_assoc, (Z.mul_comm (procTotal i)).
        rewrite (pick_inner i p q (P i) N Ep Eq ltac:(lia) HN); [ring|]. apply HD; lia.
      * exfalso. unfold updateRateTable in Eq. rewrite siteRates_prates in Eq by exact PI. discriminate.
  - intros k a Hk Ha. apply In_zrange in Hk. rewrite In_zrange. 
    assert (U : 0 < dv_num (mkDev k (m * R)) <= dv_den (mkDev k (m * R))) by (cbn; lia).
    destruct (C13_partition _ _ _ _ _ _ _ WI HR OK U) as (j & Hj & HC & _). apply (C13_process_selection _ _ _ _ _ _ _ _ WI HR OK U (proj1 Hj)) in HC. assert (j = a) by congruence. lia.
Qed.
Lemma pick_deviates i x : 0 <= i < n -> In x sites -> 0 < pointRate i x ->
  exists u1 u2, unitDeviate u1 /\ unitDeviate u2 /\ pickedEvent md u1 u2 = Some (i, x).
Proof using WI HR EV NN.
  intros Hi Hx HP. assert (He : av i x = true) by (unfold pointRate in HP; destruct (av i x); [reflexivity|lia]).
  assert (Hr : 0 < rate i x) by (unfold pointRate in HP; rewrite He in HP; exact HP).
  assert (EVT : evt (md_in md) i x (rate i x)) by (apply EV; auto).
  assert (NNE : forall j y r, evt (md_in md) j y r -> 0 <= r) by (intros j y r Hy; apply EV in Hy; destruct Hy as (A & B & _ & ->); apply NN; assumption).
  assert (OK : ratesOK md) by (split; [exact NNE|eauto 6]).
  destruct (reachable_info _ _ _ _ _ _ WI HR) as (cf1 & it2 & RI). pose proof (ri_inv _ _ _ _ _ _ _ _ RI) as IV. destruct (rates_facts md IV OK) as (_ & HN & _).
  destruct EVT as (p & Ep & Hin). pose proof (bi_proc _ _ (iv_binv _ IV) i p Ep) as PI.
  assert (N1 : forall y r, In (y, r) (events p) -> 0 <= r) by (intros y r Hy; apply (NNE i y r); exists p; auto).
  assert (PP : 0 < processRate p). { apply zsum_pos_of; [intros a Ha; apply in_map_iff in Ha; destruct Ha as ([y r] & <- & Hy); eauto|]. exists (rate i x). split; [apply in_map_iff; exists (x, rate i x); auto|exact Hr]. }
  destruct (chosen_exists (map processRate (in_procs (md_in md))) i (processRate p)) as (u1 & U1 & C1); [intros a Ha; apply in_map_iff in Ha; destruct Ha as (q & <- & Hq); auto|rewrite zget_map, Ep; reflexivity|exact PP|].
  destruct (In_zget _ _ Hin) as [j Ej].
  destruct (chosen_exists (map snd (events p)) j (rate i x)) as (u2 & U2 & C2); [intros a Ha; apply in_map_iff in Ha; destruct Ha as ([y r] & <- & Hy); cbn; eauto|rewrite zget_map, Ej; reflexivity|exact Hr|].
  exists u1, u2. split; [exact U1|]. split; [exact U2|].
  apply (C13_process_selection _ _ _ _ _ _ _ _ WI HR OK U1 (proj1 Hi)) in C1. unfold pickedEvent. rewrite C1. cbn [obind]. rewrite Ep. cbn [obind].
  assert (Eq : updateRateTable p = Some (set_inc p (incTable 0 (prates p)))) by (unfold updateRateTable; rewrite siteRates_prates by exact PI; reflexivity).
  rewrite Eq. cbn [obind]. rewrite (proj2 (C15_site_selection _ _ _ _ _ _ _ _ _ u2 x WI HR Ep Eq N1 PP U2)); [reflexivity|]. eauto.
Qed.
(** the event of a step is the one the deviates select, and its rate is positive *)
Lemma pick_step u1 u2 md' : (forall i p, zget (in_procs it) i = Some p -> pr_number p = i) -> singleStep md u1 u2 = Some md' ->
  pickedEvent md u1 u2 = Some (cf_lastproc (md_cf md'), cf_lastsite (md_cf md')).
Proof using WI HR.
  intros NB H. destruct (reachable_info _ _ _ _ _ _ WI HR) as (cf1 & it2 & RI). destruct (step_of _ _ _ _ _ _ _ _ _ _ _ WI RI H) as (i & p & p' & x & sl & cf2 & cfl & p1 & aff & ups & SO).
  destruct SO. destruct so_site as (q & Eq & Ex). destruct so_last as [-> ->]. unfold pickedEvent. rewrite so_pick. cbn [obind]. rewrite so_proc. cbn [obind]. rewrite Eq. cbn [obind]. rewrite Ex. cbn [obind].
  rewrite (NB i p so_orig). reflexivity.
Qed.
Lemma pick_positive u1 u2 i x : 0 < grandTotal -> unitDeviate u1 -> unitDeviate u2 -> pickedEvent md u1 u2 = Some (i, x) -> 0 <= i < n /\ In x sites /\ 0 < pointRate i x.
Proof using WI HR EV NN.
  intros HT U1 U2 HP. unfold pickedEvent in HP. ob HP as i0 E1. ob HP as p E2. ob HP as q E3. ob HP as x0 E4. injection HP as -> ->.
  pose proof (pick_ok HT) as OK. destruct (zset_lt (in_procs (md_in md)) i q) as [ps Es]; [eapply zget_range; eauto|].
  assert (PP : pickProcess (md_in md) u1 = Some (i, set_procs (md_in md) ps)) by (unfold pickProcess; rewrite E1; cbn [obind]; rewrite E2; cbn [obind]; rewrite E3; cbn [obind]; rewrite Es; reflexivity).
  destruct (C14_selected_is_available _ _ _ _ _ _ _ _ _ _ q x WI HR OK U1 U2 PP) as (r & Hr & Pr); [cbn [set_procs in_procs]; rewrite (zset_get _ _ _ _ _ Es), Z.eqb_refl; reflexivity|exact E4|].
  apply EV in Hr. destruct Hr as (Hi & Hx & Ha & ->). split; [exact Hi|]. split; [exact Hx|]. unfold pointRate. rewrite Ha. exact Pr.
Qed.
End Pick.
