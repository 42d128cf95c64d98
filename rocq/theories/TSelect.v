(** C09, C10, C13, C14, C15: lists of available sites, total rate, selection of the event. *)
From Verif Require Import PBase SModel SGeo PProcess PMatcher PStep PGeo PPossible PRun PEffect PSelect XCheck XSystems.
Open Scope Z_scope.
Open Scope list_scope.

Lemma list_eqb_eq a : forall b, list_eqb a b = true -> a = b.
Proof.
  induction a as [|x a IH]; intros [|y b] H; cbn [list_eqb] in H; try discriminate; [reflexivity|].
  apply andb_true_iff in H. destruct H as [H1 H2]. apply Z.eqb_eq in H1. f_equal; auto.
Qed.
Lemma zlen_zero {A} (l : list A) : zlen l = 0 -> l = [].
Proof. destruct l; [reflexivity|]. rewrite zlen_cons. pose proof (zlen_nonneg l). lia. Qed.

(** ** C09: the list of available sites is a set *)
(** operations on the list of one process and the expected contents (site to rate) *)
Inductive siteOp := OpAdd (x r : Z) | OpRemove (x : Z) | OpUpdate (x r : Z).
Definition upd (m : Z -> option Z) (x : Z) (v : option Z) : Z -> option Z := fun y => if y =? x then v else m y.
(** [rate r]: the rate an event added with r gets - r itself or the rate constant *)
Fixpoint expected (rate : Z -> Z) (ops : list siteOp) (m : Z -> option Z) : Z -> option Z :=
  match ops with
  | [] => m
  | OpAdd x r :: ops' => expected rate ops' (upd m x (Some (rate r)))
  | OpRemove x :: ops' => expected rate ops' (upd m x None)
  | OpUpdate x r :: ops' => expected rate ops' (upd m x (Some (rate r)))
  end.
(** a site is added when it is not in the list, removed or updated when it is *)
Fixpoint legal (rate : Z -> Z) (ops : list siteOp) (m : Z -> option Z) : Prop :=
  match ops with
  | [] => True
  | OpAdd x r :: ops' => m x = None /\ legal rate ops' (upd m x (Some (rate r)))
  | OpRemove x :: ops' => m x <> None /\ legal rate ops' (upd m x None)
  | OpUpdate x r :: ops' => m x <> None /\ legal rate ops' (upd m x (Some (rate r)))
  end.
Definition apply (p : process) (o : siteOp) : option process :=
  match o with
  | OpAdd x r => Some (addSite p x r 1)
  | OpRemove x => removeSite p x
  | OpUpdate x r => p' <- removeSite p x ;; Some (addSite p' x r 1)
  end.
Definition holds (p : process) (m : Z -> option Z) : Prop := pInv p /\ forall x r, In (x, r) (events p) <-> m x = Some r.
Definition rateOf (p : process) (r : Z) : Z := if pr_custom p then r else pr_rate p.

Lemma holds_site p m x : holds p m -> (In x (pr_sites p) <-> m x <> None).
Proof.
  intros [PI H]. split.
  - intros Hin. destruct (sites_in_events p x PI Hin) as [r Hr]. apply H in Hr. congruence.
  - intros Hne. destruct (m x) as [r|] eqn:E; [|congruence]. apply H in E. rewrite <- (events_fst p) by apply PI.
    apply (in_map fst) in E. exact E.
Qed.
Lemma holds_add p m x r : holds p m -> m x = None ->
  holds (addSite p x r 1) (upd m x (Some (rateOf p r))).
Proof.
  intros HH Hx. pose proof (holds_site _ _ x HH) as HS. destruct HH as [PI H]. split.
  - apply addSite_inv; auto. rewrite HS. congruence.
  - intros y s. rewrite addSite_events by apply PI. rewrite in_app_iff. cbn [In]. unfold upd. rewrite H. unfold rateOf. destruct (Z.eqb_spec y x).
    + subst y. rewrite Hx. split; [intros [E|[E|[]]]; [discriminate|congruence]|intros E; right; left; congruence].
    + split; [intros [E|[E|[]]]; congruence|auto].
Qed.
Lemma holds_remove p m x : holds p m -> m x <> None ->
  exists p', removeSite p x = Some p' /\ pr_custom p' = pr_custom p /\ pr_rate p' = pr_rate p /\ holds p' (upd m x None).
Proof.
  intros HH Hx. pose proof (proj2 (holds_site _ _ x HH) Hx) as Hin. destruct HH as [PI H].
  destruct (removeSite_spec p x PI Hin) as (p' & r & E & PI' & Hs & _ & _ & HP). exists p'. split; [exact E|].
  apply pstatic_fields in Hs. destruct Hs as (Ec & _ & _ & _ & Er & _). split; [exact Ec|]. split; [exact Er|].
  split; [exact PI'|]. intros y s. unfold upd. destruct (Z.eqb_spec y x).
  - subst y. split; [|discriminate]. intros Hy. exfalso.
    pose proof (pi_nodup _ PI) as ND. rewrite <- (events_fst p) in ND by apply PI.
    apply (Permutation_map fst) in HP. cbn [map fst] in HP. apply (Permutation_NoDup HP) in ND. inversion ND as [|? ? Hni _]. apply Hni.
    apply (in_map fst) in Hy. exact Hy.
  - rewrite <- H. split; intros Hy.
    + eapply Permutation_in; [apply Permutation_sym; exact HP|right; exact Hy].
    + apply (Permutation_in _ HP) in Hy. destruct Hy as [Hy|Hy]; [congruence|exact Hy].
Qed.
Lemma expected_ext rate ops : forall m m', (forall x, m x = m' x) -> forall x, expected rate ops m x = expected rate ops m' x.
Proof.
  induction ops as [|[x r|x|x r] ops IH]; intros m m' H y; cbn [expected]; auto; apply IH; intros z; unfold upd; destruct (z =? x); auto.
Qed.
Lemma legal_ext rate ops : forall m m', (forall x, m x = m' x) -> legal rate ops m -> legal rate ops m'.
Proof.
  induction ops as [|[x r|x|x r] ops IH]; intros m m' H; cbn [legal]; auto; intros [A B]; rewrite H in A; (split; [exact A|]);
    eapply IH; [|exact B| |exact B| |exact B]; intros z; unfold upd; destruct (z =? x); auto.
Qed.
Lemma ops_holds ops : forall p m, holds p m -> legal (rateOf p) ops m ->
  exists p', ofold apply ops p = Some p' /\ holds p' (expected (rateOf p) ops m).
Proof.
  induction ops as [|o ops IH]; intros p m HH HL; cbn [ofold]; [exists p; auto|].
  assert (HR : forall q, pr_custom q = pr_custom p -> pr_rate q = pr_rate p -> rateOf q = rateOf p) by (intros q A B; unfold rateOf; rewrite A, B; reflexivity).
  assert (HA : forall q x r, pr_custom (addSite q x r 1) = pr_custom q /\ pr_rate (addSite q x r 1) = pr_rate q).
  { intros q x r. pose proof (addSite_static q x r 1) as E. apply pstatic_fields in E. tauto. }
  destruct o as [x r|x|x r]; cbn [legal apply obind expected] in *; destruct HL as [HL1 HL2].
  - destruct (HA p x r) as [A B]. rewrite <- (HR (addSite p x r 1)) in * by assumption. apply IH; [rewrite (HR _ A B); apply holds_add; auto|].
    exact HL2.
  - destruct (holds_remove p m x HH HL1) as (p' & E & A & B & HH'). rewrite E. cbn [obind]. rewrite <- (HR p' A B) in *. apply IH; auto.
  - destruct (holds_remove p m x HH HL1) as (p' & E & A & B & HH'). rewrite E. cbn [obind].
    destruct (HA p' x r) as [A' B']. rewrite <- (HR (addSite p' x r 1)) in * by congruence.
    assert (HE : forall y, upd (upd m x None) x (Some (rateOf (addSite p' x r 1) r)) y = upd m x (Some (rateOf (addSite p' x r 1) r)) y).
    { intros y. unfold upd. destruct (y =? x); reflexivity. }
    destruct (IH (addSite p' x r 1) (upd (upd m x None) x (Some (rateOf (addSite p' x r 1) r)))) as (p2 & E2 & H2).
    + rewrite (HR (addSite p' x r 1)) by congruence. rewrite <- (HR p' A B). apply holds_add; auto. unfold upd. rewrite Z.eqb_refl. reflexivity.
    + eapply legal_ext; [|exact HL2]. intros y. rewrite HE. reflexivity.
    + exists p2. split; [exact E2|]. destruct H2 as [H2 H3]. split; [exact H2|]. intros y s. rewrite H3. rewrite (expected_ext _ _ _ _ HE). tauto.
Qed.
(** Every legal sequence of operations succeeds; afterwards the list holds exactly the expected sites, each once,
    with the expected rates; the tables of rates and multiplicities have one entry per site; the total rate of
    the process is the sum of the listed rates. *)
Theorem C09_operations (p : process) (ops : list siteOp) :
  legal (rateOf p) ops (fun _ => None) ->
  exists p', ofold apply ops (clearSites p) = Some p' /\
    NoDup (pr_sites p') /\
    (forall x, In x (pr_sites p') <-> expected (rateOf p) ops (fun _ => None) x <> None) /\
    (forall x r, In (x, r) (events p') <-> expected (rateOf p) ops (fun _ => None) x = Some r) /\
    length (pr_mult p') = length (pr_sites p') /\ (pr_custom p = true -> length (pr_srates p') = length (pr_sites p')) /\
    pr_total p' = processRate p'.
Proof.
  intros HL. assert (HH : holds (clearSites p) (fun _ => None)).
  { split; [apply clearSites_inv|]. intros x r. unfold events. cbn. split; [intros []|discriminate]. }
  destruct (ops_holds ops (clearSites p) _ HH) as (p' & E & H').
  - exact HL.
  - change (rateOf (clearSites p)) with (rateOf p) in H'. exists p'. split; [exact E|]. pose proof (fun x => holds_site p' _ x H') as HS.
    destruct H' as [PI H']. split; [apply PI|]. split; [exact HS|]. split; [exact H'|]. split; [rewrite (pi_mult _ PI), map_length; reflexivity|].
    split; [|apply PI]. intros Hc. assert (Hc' : pr_custom p' = true).
    { assert (G : forall l a b, ofold apply l a = Some b -> pr_custom b = pr_custom a).
      { induction l as [|o l IHl]; intros a b Hab; cbn [ofold] in Hab; [congruence|]. ob Hab as a1 Ea. rewrite (IHl _ _ Hab).
        assert (HR : forall z w a1, removeSite a z = Some a1 -> w = a1 -> pr_custom w = pr_custom a).
        { intros z w a2 HR <-. unfold removeSite in HR. ob HR as rs R1. destruct (pr_custom a) eqn:Ec.
          - ob HR as rr R2. ob HR as rm R3. inversion HR. exact Ec.
          - ob HR as rm R3. inversion HR. exact Ec. }
        assert (HA : forall q x r, pr_custom (addSite q x r 1) = pr_custom q).
        { intros q x r. pose proof (addSite_static q x r 1) as E0. apply pstatic_fields in E0. tauto. }
        destruct o as [x r|x|x r]; cbn [apply] in Ea.
        - inversion Ea. apply HA.
        - eapply HR; eauto.
        - ob Ea as a2 Ea2. inversion Ea. rewrite HA. eapply HR; eauto. }
      rewrite (G _ _ _ E). exact Hc. }
    pose proof (pi_rates _ PI) as HL'. unfold prates in HL'. rewrite Hc' in HL'. exact HL'.
Qed.
(** Adding a site that is not listed and removing it again restores the set of events. *)
Theorem C09_add_remove p x r : pInv p -> ~ In x (pr_sites p) ->
  exists p', removeSite (addSite p x r 1) x = Some p' /\ Permutation (events p') (events p) /\ pr_total p' = pr_total p.
Proof.
  intros PI Hx. pose proof (addSite_inv p x r PI Hx) as PA.
  destruct (removeSite_spec (addSite p x r 1) x PA) as (p' & s & E & PI' & _ & _ & _ & HP).
  { rewrite addSite_sites. apply in_or_app. right. left. reflexivity. }
  assert (HPP : Permutation (events p) (events p')).
  { rewrite addSite_events in HP by apply PI.
    assert (s = if pr_custom p then r else pr_rate p).
    { assert (In (x, s) (events p ++ [(x, if pr_custom p then r else pr_rate p)])) as Hin
        by (eapply Permutation_in; [apply Permutation_sym; exact HP|left; reflexivity]).
      apply in_app_or in Hin. destruct Hin as [Hin|[Hin|[]]]; [|congruence]. exfalso. apply Hx. rewrite <- (events_fst p) by apply PI.
      apply (in_map fst) in Hin. exact Hin. }
    subst s. eapply Permutation_cons_inv. eapply Permutation_trans; [|exact HP]. apply Permutation_cons_append. }
  exists p'. split; [exact E|]. split; [apply Permutation_sym; exact HPP|].
  rewrite (pi_total _ PI'), (pi_total _ PI). apply (zsum_perm). apply Permutation_map. apply Permutation_sym. exact HPP.
Qed.
(** At every point of every history: no process lists a site twice and the tables are aligned; the number of
    available sites of the model is the number of listed (process, site) pairs. *)
Theorem C09_reachable ranks hash L cf it md : wfInput ranks L cf it -> reachable ranks hash L cf it md ->
  (forall i p, zget (in_procs (md_in md)) i = Some p ->
     NoDup (pr_sites p) /\ length (pr_mult p) = length (pr_sites p) /\ length (events p) = length (pr_sites p) /\
     forall x, listed md i x <-> In x (pr_sites p)) /\
  totalAvailableSites (md_in md) = zsum (map (fun p => zlen (events p)) (in_procs (md_in md))).
Proof.
  intros WI HR. destruct (reachable_info _ _ _ _ _ _ WI HR) as (cf1 & it2 & RI). pose proof (iv_binv _ (ri_inv _ _ _ _ _ _ _ _ RI)) as BI.
  assert (HL : forall p, pInv p -> length (events p) = length (pr_sites p)).
  { intros p PI. rewrite <- (events_fst p) by apply PI. rewrite map_length. reflexivity. }
  split.
  - intros i p Ep. pose proof (bi_proc _ _ BI i p Ep) as PI. split; [apply PI|]. split; [rewrite (pi_mult _ PI), map_length; reflexivity|].
    split; [auto|]. intros x. split.
    + intros (r & p1 & E1 & H1). assert (p1 = p) by congruence. subst p1. rewrite <- (events_fst p) by apply PI. apply (in_map fst) in H1. exact H1.
    + intros Hx. destruct (sites_in_events p x PI Hx) as [r Hr]. exists r, p. auto.
  - unfold totalAvailableSites. f_equal. apply map_ext_in. intros p Hp. apply In_zget in Hp. destruct Hp as [i Ei].
    unfold zlen. rewrite HL; [reflexivity|]. eapply bi_proc; eauto.
Qed.
Example C09_example : legal (fun r => r) [OpAdd 4 7; OpAdd 2 5; OpAdd 9 1; OpRemove 4; OpUpdate 9 3; OpAdd 4 2] (fun _ => None) /\
  expected (fun r => r) [OpAdd 4 7; OpAdd 2 5; OpAdd 9 1; OpRemove 4; OpUpdate 9 3; OpAdd 4 2] (fun _ => None) 9 = Some 3.
Proof. cbn. repeat split; discriminate. Qed.

(** ** C10: the total rate *)
Theorem C10_total_rate ranks hash L cf it md : wfInput ranks L cf it -> reachable ranks hash L cf it md -> in_procs it <> [] ->
  totalRate (md_in md) = Some (zsum (map processRate (in_procs (md_in md)))) /\
  (in_custom it = false -> forall i x r, evt (md_in md) i x r -> exists p, zget (in_procs it) i = Some p /\ r = pr_rate p).
Proof.
  intros WI HR Hne. destruct (reachable_info _ _ _ _ _ _ WI HR) as (cf1 & it2 & RI). pose proof (ri_inv _ _ _ _ _ _ _ _ RI) as IV.
  split.
  - rewrite totalRate_sum.
    + f_equal. f_equal. apply map_ext_in. intros p Hp. apply In_zget in Hp. destruct Hp as [i Ei]. apply (bi_proc _ _ (iv_binv _ IV) i p Ei).
    + apply (iv_table _ IV).
    + intros E. destruct (in_procs it) as [|p0 ps] eqn:E0; [congruence|].
      destruct (reachable_proc_conv _ _ _ _ _ _ _ _ 0 p0 RI) as [p' Ep']; [rewrite E0; reflexivity|]. rewrite E, zget_nil in Ep'. discriminate.
  - intros Hc i x r Hr. assert (Hc' : in_custom (md_in md) = false).
    { destruct (ri_same _ _ _ _ _ _ _ _ RI) as (_ & _ & Ec & _). destruct (updateML_get _ _ _ _ (ri_expand _ _ _ _ _ _ _ _ RI)) as (_ & _ & Ec' & _). cbn [clearMatching set_procs in_custom] in Ec'. congruence. }
    destruct (iv_rate _ IV Hc' i x r Hr) as (p' & Ep' & ->). destruct (reachable_proc _ _ _ _ _ _ _ _ _ _ RI Ep') as (p & q & Ep & Eq & Hs & HQ).
    exists p. split; [exact Ep|]. apply pstatic_fields in Hs. destruct Hs as (_ & _ & _ & _ & -> & _).
    destruct HQ as [->|[_ HQ]]; [reflexivity|]. apply expand_fields in HQ. destruct HQ as (_ & _ & _ & _ & -> & _). reflexivity.
Qed.
(** On uniform lattices, with rate constants: the total rate is the sum over the processes of the rate constant
    times the number of sites at which the process is possible. *)
Theorem C10_rate_counts_possible_events ranks hash L basis W cf it md :
  wfInput ranks L cf it -> geoInput L basis (maxRange it) W cf -> in_wild it = true -> in_custom it = false ->
  (forall p, In p (in_procs it) -> regular L basis (maxRange it) W p) -> in_procs it <> [] ->
  reachable ranks hash L cf it md ->
  exists sites, length sites = length (in_procs it) /\
    (forall i p xs, zget (in_procs it) i = Some p -> zget sites i = Some xs ->
       NoDup xs /\ forall x, In x xs <-> 0 <= x < nsites L /\ possible L (cf_coords (md_cf md)) (cf_types (md_cf md)) p x) /\
    totalRate (md_in md) = Some (zsum (map (fun ps : process * list Z => pr_rate (fst ps) * zlen (snd ps)) (combine (in_procs it) sites))).
Proof.
  intros WI GI HW HC HRg Hne HR. destruct (reachable_info _ _ _ _ _ _ WI HR) as (cf1 & it2 & RI). pose proof (ri_inv _ _ _ _ _ _ _ _ RI) as IV.
  pose proof (ri_lat _ _ _ _ _ _ _ _ RI) as EL.
  destruct (C10_total_rate _ _ _ _ _ _ WI HR Hne) as [Ht Hr]. specialize (Hr HC).
  exists (map pr_sites (in_procs (md_in md))).
  assert (Hlen : zlen (in_procs (md_in md)) = zlen (in_procs it)).
  { rewrite (sameP_len _ _ (ri_same _ _ _ _ _ _ _ _ RI)). destruct (updateML_get _ _ _ _ (ri_expand _ _ _ _ _ _ _ _ RI)) as (Hl & _). rewrite Hl.
    unfold clearMatching. cbn [set_procs in_procs]. apply zlen_map. }
  assert (Hlen' : length (in_procs (md_in md)) = length (in_procs it)) by (unfold zlen in Hlen; lia).
  split; [rewrite map_length; exact Hlen'|]. split.
  - intros i p xs Ep Exs. rewrite zget_map in Exs. destruct (zget (in_procs (md_in md)) i) as [p'|] eqn:Ep'; [|discriminate].
    cbn [option_map] in Exs. inversion Exs; subst xs. pose proof (bi_proc _ _ (iv_binv _ IV) i p' Ep') as PI. split; [apply PI|].
    intros x. assert (HX : In x (pr_sites p') <-> listed md i x).
    { split; [intros Hx; destruct (sites_in_events p' x PI Hx) as [r Hr']; exists r, p'; auto|].
      intros (r & p1 & E1 & H1). assert (p1 = p') by congruence. subst p1. rewrite <- (events_fst p') by apply PI. apply (in_map fst) in H1. exact H1. }
    rewrite HX. split.
    + intros HL. assert (Hx : 0 <= x < nsites L). { destruct HL as [r HL]. apply (iv_evt _ IV) in HL. rewrite EL in HL. apply HL. }
      split; [exact Hx|]. apply (proj1 (listed_possible _ _ _ _ _ _ _ _ _ _ _ WI GI HW HR Ep (HRg p (zget_In _ _ _ Ep)) Hx)). exact HL.
    + intros [Hx HP]. apply (proj2 (listed_possible _ _ _ _ _ _ _ _ _ _ _ WI GI HW HR Ep (HRg p (zget_In _ _ _ Ep)) Hx)). exact HP.
  - rewrite Ht. f_equal. f_equal.
    assert (HP : forall i p p', zget (in_procs it) i = Some p -> zget (in_procs (md_in md)) i = Some p' -> processRate p' = pr_rate p * zlen (pr_sites p')).
    { intros i p p' Ep Ep'. pose proof (bi_proc _ _ (iv_binv _ IV) i p' Ep') as PI. unfold processRate.
      assert (HA : forall x r, In (x, r) (events p') -> r = pr_rate p).
      { intros x r H. destruct (Hr i x r) as (p1 & E1 & ->); [exists p'; auto|congruence]. }
      replace (zlen (pr_sites p')) with (zlen (events p')) by (rewrite <- (events_fst p') by apply PI; rewrite zlen_map; reflexivity).
      generalize dependent (events p'). clear. induction l as [|[x r] l IH]; intros HA; [cbn; lia|].
      rewrite zlen_cons. cbn [map snd]. rewrite zsum_cons, IH by (intros y s Hy; apply (HA y s); right; exact Hy). rewrite (HA x r) by (left; reflexivity). lia. }
    revert HP Hlen'. generalize (in_procs (md_in md)) (in_procs it). clear.
    induction l as [|q l IH]; intros [|p l'] HP Hl; try discriminate; [reflexivity|]. cbn [map combine fst snd].
    f_equal.
    + apply (HP 0 p q); reflexivity.
    + apply IH; [|cbn in Hl; congruence]. intros i a b Ea Eb. pose proof (zget_range _ _ _ Ea). apply (HP (i + 1)); rewrite zget_cons; (destruct (Z.eqb_spec (i + 1) 0); [lia|]);
        replace (i + 1 - 1) with i by lia; assumption.
Qed.

(** ** C13: processes are selected in proportion to their rate *)
(** all listed events have rates >= 0, some event has a positive rate *)
Definition ratesOK (md : model) : Prop :=
  (forall i x r, evt (md_in md) i x r -> 0 <= r) /\ exists i x r, evt (md_in md) i x r /\ 0 < r.
Lemma rates_total (ps : list process) : (forall p, In p ps -> pr_total p = processRate p) -> map pr_total ps = map processRate ps.
Proof. intros H. apply map_ext_in. exact H. Qed.
Lemma processRate_nonneg p : (forall x r, In (x, r) (events p) -> 0 <= r) -> 0 <= processRate p.
Proof.
  intros H. unfold processRate. apply zsum_nonneg. intros a Ha. apply in_map_iff in Ha. destruct Ha as ([x r] & <- & Hin). eapply H; eauto.
Qed.
Lemma zsum_pos_of l : (forall a, In a l -> 0 <= a) -> (exists a, In a l /\ 0 < a) -> 0 < zsum l.
Proof.
  induction l as [|b l IH]; intros Hn (a & Ha & Hp); [destruct Ha|]. rewrite zsum_cons.
  assert (0 <= b) by (apply Hn; left; auto). assert (0 <= zsum l) by (apply zsum_nonneg; intros; apply Hn; right; auto).
  destruct Ha as [->|Ha]; [lia|]. assert (0 < zsum l) by (apply IH; [intros; apply Hn; right; auto|eauto]). lia.
Qed.
Lemma rates_facts md : Inv md -> ratesOK md ->
  map pr_total (in_procs (md_in md)) = map processRate (in_procs (md_in md)) /\
  (forall p, In p (in_procs (md_in md)) -> 0 <= processRate p) /\ 0 < zsum (map processRate (in_procs (md_in md))).
Proof.
  intros IV [Hn (i & x & r & (p & Ep & Hin) & Hr)].
  assert (HN : forall p, In p (in_procs (md_in md)) -> 0 <= processRate p).
  { intros q Hq. apply In_zget in Hq. destruct Hq as [j Ej]. apply processRate_nonneg. intros y s Hy. apply (Hn j y s). exists q. auto. }
  split; [apply rates_total; intros q Hq; apply In_zget in Hq; destruct Hq as [j Ej]; apply (bi_proc _ _ (iv_binv _ IV) j q Ej)|].
  split; [exact HN|]. apply zsum_pos_of.
  - intros a Ha. apply in_map_iff in Ha. destruct Ha as (q & <- & Hq). auto.
  - exists (processRate p). split; [apply in_map; eapply zget_In; eauto|]. unfold processRate. apply zsum_pos_of.
    + intros a Ha. apply in_map_iff in Ha. destruct Ha as ([y s] & <- & Hy). apply (Hn i y s). exists p. auto.
    + exists r. split; [|exact Hr]. apply (in_map snd) in Hin. exact Hin.
Qed.
Theorem C13_process_selection ranks hash L cf it md u i : wfInput ranks L cf it -> reachable ranks hash L cf it md -> ratesOK md ->
  0 < dv_num u <= dv_den u -> 0 <= i ->
  (pickProcessIndex (md_in md) u = Some i <-> chosen (map processRate (in_procs (md_in md))) u i).
Proof.
  intros WI HR OK Hu Hi. destruct (reachable_info _ _ _ _ _ _ WI HR) as (cf1 & it2 & RI). pose proof (ri_inv _ _ _ _ _ _ _ _ RI) as IV.
  destruct (rates_facts md IV OK) as (E & HN & HS). rewrite <- E in *. apply pick_process; auto.
  - apply (iv_table _ IV).
  - intros p Hp. apply In_zget in Hp. destruct Hp as [j Ej]. rewrite (pi_total _ (bi_proc _ _ (iv_binv _ IV) j p Ej)). apply HN. eapply zget_In; eauto.
Qed.
(** one process is selected for every deviate: the pieces cover (0, R] and do not overlap *)
Theorem C13_partition ranks hash L cf it md u : wfInput ranks L cf it -> reachable ranks hash L cf it md -> ratesOK md ->
  0 < dv_num u <= dv_den u ->
  exists i, 0 <= i < zlen (in_procs (md_in md)) /\ chosen (map processRate (in_procs (md_in md))) u i /\
    forall j, 0 <= j -> chosen (map processRate (in_procs (md_in md))) u j -> j = i.
Proof.
  intros WI HR OK Hu. destruct (reachable_info _ _ _ _ _ _ WI HR) as (cf1 & it2 & RI). pose proof (ri_inv _ _ _ _ _ _ _ _ RI) as IV.
  destruct (rates_facts md IV OK) as (E & HN & HS). set (rs := map processRate (in_procs (md_in md))) in *.
  assert (Hn : forall a, In a rs -> 0 <= a) by (intros a Ha; apply in_map_iff in Ha; destruct Ha as (p & <- & Hp); auto).
  destruct (lower_bound_total (belowDev u (zsum rs)) (incTable 0 rs)) as [pos El]. destruct (select_chosen _ _ _ Hn Hu HS El) as [Hp HC].
  exists pos. unfold rs in Hp. rewrite zlen_map in Hp. split; [exact Hp|]. split; [exact HC|].
  intros j Hj HCj. apply (chosen_unique rs u j pos); auto; lia.
Qed.
(** Of m*R equally spaced deviates, exactly m*R_i select process i: the probability is R_i / R. *)
Theorem C13_proportional ranks hash L cf it md i p m : wfInput ranks L cf it -> reachable ranks hash L cf it md -> ratesOK md ->
  0 < m -> zget (in_procs (md_in md)) i = Some p ->
  let R := zsum (map processRate (in_procs (md_in md))) in
  zlen (filter (fun k => match pickProcessIndex (md_in md) (mkDev k (m * R)) with Some j => j =? i | None => false end) (zrange 1 (m * R)))
    = m * processRate p.
Proof.
  intros WI HR OK Hm Ep R. pose proof (zget_range _ _ _ Ep) as Hi.
  destruct (reachable_info _ _ _ _ _ _ WI HR) as (cf1 & it2 & RI). pose proof (ri_inv _ _ _ _ _ _ _ _ RI) as IV.
  destruct (rates_facts md IV OK) as (E & HN & HS). unfold R. apply count_chosen with (i := i); auto.
  - intros a Ha. apply in_map_iff in Ha. destruct Ha as (q & <- & Hq). auto.
  - rewrite zget_map, Ep. reflexivity.
  - intros k Hk. rewrite <- (C13_process_selection _ _ _ _ _ _ _ _ WI HR OK) by (cbn [dv_num dv_den]; lia).
    destruct (pickProcessIndex (md_in md) _) as [j|]; [rewrite Z.eqb_eq; split; congruence|split; discriminate].
Qed.

(** ** C15: sites are selected in proportion to the rate of the event *)
Theorem C15_site_selection ranks hash L cf it md i p q u x : wfInput ranks L cf it -> reachable ranks hash L cf it md ->
  zget (in_procs (md_in md)) i = Some p -> updateRateTable p = Some q ->
  (forall y r, In (y, r) (events p) -> 0 <= r) -> 0 < processRate p -> 0 < dv_num u <= dv_den u ->
  (pickSite q u = Some x <-> exists n r, zget (events p) n = Some (x, r) /\ chosen (map snd (events p)) u n).
Proof.
  intros WI HR Ep Eq Hn HS Hu. destruct (reachable_info _ _ _ _ _ _ WI HR) as (cf1 & it2 & RI). pose proof (ri_inv _ _ _ _ _ _ _ _ RI) as IV.
  pose proof (bi_proc _ _ (iv_binv _ IV) i p Ep) as PI.
  assert (Es : map snd (events p) = prates p).
  { unfold events. pose proof (pi_rates _ PI) as Hl. revert Hl. generalize (prates p). generalize (pr_sites p). clear.
    induction l as [|a l IH]; intros [|b l'] Hl; cbn in *; try discriminate; [reflexivity|]. rewrite IH by congruence. reflexivity. }
  unfold processRate in HS. rewrite Es in *. rewrite (pick_site p q u x PI Eq); auto.
  - split.
    + intros (n & Hn0 & HC & Ex). destruct (zget_lt (events p) n) as [[y r] Er].
      { pose proof (zget_range _ _ _ Ex) as H. rewrite <- (events_fst p), zlen_map in H by apply PI. exact H. }
      exists n, r. split; [|exact HC]. rewrite <- (events_fst p), zget_map, Er in Ex by apply PI. cbn in Ex. congruence.
    + intros (n & r & En & HC). exists n. split; [eapply zget_range; eauto|]. split; [exact HC|].
      rewrite <- (events_fst p), zget_map, En by apply PI. reflexivity.
  - intros r Hr. rewrite <- Es in Hr. apply in_map_iff in Hr. destruct Hr as ([y s] & <- & Hy). eapply Hn; eauto.
Qed.
(** Of m*R_p equally spaced deviates, exactly m*r select a listed site with rate r: the probability is r / R_p,
    the same for all sites with the same rate. *)
Theorem C15_proportional ranks hash L cf it md i p q x r m : wfInput ranks L cf it -> reachable ranks hash L cf it md ->
  zget (in_procs (md_in md)) i = Some p -> updateRateTable p = Some q ->
  (forall y s, In (y, s) (events p) -> 0 <= s) -> 0 < processRate p -> 0 < m -> In (x, r) (events p) ->
  zlen (filter (fun k => match pickSite q (mkDev k (m * processRate p)) with Some y => y =? x | None => false end)
               (zrange 1 (m * processRate p))) = m * r.
Proof.
  intros WI HR Ep Eq Hn HS Hm Hin. destruct (In_zget _ _ Hin) as [n En].
  destruct (reachable_info _ _ _ _ _ _ WI HR) as (cf1 & it2 & RI). pose proof (ri_inv _ _ _ _ _ _ _ _ RI) as IV.
  pose proof (bi_proc _ _ (iv_binv _ IV) i p Ep) as PI.
  unfold processRate. apply count_chosen with (i := n); auto.
  - intros a Ha. apply in_map_iff in Ha. destruct Ha as ([y s] & <- & Hy). eapply Hn; eauto.
  - rewrite zget_map, En. reflexivity.
  - intros k Hk. fold (processRate p) in *.
    assert (HP : forall y, pickSite q (mkDev k (m * processRate p)) = Some y <-> exists n0 r0, zget (events p) n0 = Some (y, r0) /\ chosen (map snd (events p)) (mkDev k (m * processRate p)) n0).
    { intros y. apply (C15_site_selection _ _ _ _ _ _ _ _ _ _ _ WI HR Ep Eq Hn HS). cbn [dv_num dv_den]. lia. }
    split.
    + destruct (pickSite q (mkDev k (m * processRate p))) as [y|] eqn:E; [|discriminate]. intros Hy. apply Z.eqb_eq in Hy. subst y.
      destruct (proj1 (HP x) eq_refl) as (n0 & r0 & E0 & HC).
      assert (n0 = n); [|subst; exact HC]. apply (NoDup_zget_inj (map fst (events p)) n0 n x).
      * rewrite events_fst by apply PI. apply PI.
      * rewrite zget_map, E0. reflexivity.
      * rewrite zget_map, En. reflexivity.
    + intros HC. rewrite (proj2 (HP x)); [apply Z.eqb_refl|]. exists n, r. auto.
Qed.

(** ** C14: only events that are listed are selected *)
(** With positive deviates and rates >= 0: the selected event is listed and has a positive rate. *)
Theorem C14_selected_is_available ranks hash L cf it md u1 u2 i it' q x : wfInput ranks L cf it -> reachable ranks hash L cf it md ->
  ratesOK md -> 0 < dv_num u1 <= dv_den u1 -> 0 < dv_num u2 <= dv_den u2 ->
  pickProcess (md_in md) u1 = Some (i, it') -> zget (in_procs it') i = Some q -> pickSite q u2 = Some x ->
  exists r, evt (md_in md) i x r /\ 0 < r.
Proof.
  intros WI HR OK Hu1 Hu2 HP Eq Ex. destruct (reachable_info _ _ _ _ _ _ WI HR) as (cf1 & it2 & RI). pose proof (ri_inv _ _ _ _ _ _ _ _ RI) as IV.
  unfold pickProcess in HP. ob HP as j Ej. ob HP as p Ep. ob HP as p' Ep'. ob HP as ps Es. inversion HP; subst j it'; clear HP.
  cbn [set_procs in_procs] in Eq. rewrite (zset_get _ _ _ _ _ Es), Z.eqb_refl in Eq. inversion Eq; subst p'; clear Eq.
  pose proof (zget_range _ _ _ Ep) as Hi.
  apply (proj1 (C13_process_selection _ _ _ _ _ _ _ _ WI HR OK Hu1 (proj1 Hi))) in Ej.
  destruct (rates_facts md IV OK) as (E & HN & HS).
  destruct (chosen_positive (map processRate (in_procs (md_in md))) u1 i) with (4 := Ej) as (a & Ea & Ha); [|lia|rewrite zlen_map; lia|].
  { intros b Hb. apply in_map_iff in Hb. destruct Hb as (y & <- & Hy). auto. }
  rewrite zget_map, Ep in Ea. cbn [option_map] in Ea. inversion Ea; subst a; clear Ea.
  assert (Hnn : forall y r, In (y, r) (events p) -> 0 <= r) by (intros y r Hy; apply (proj1 OK i y r); exists p; auto).
  apply (proj1 (C15_site_selection _ _ _ _ _ _ _ _ _ _ _ WI HR Ep Ep' Hnn Ha Hu2)) in Ex.
  destruct Ex as (n & r & En & HC). exists r. split; [exists p; split; [exact Ep|eapply zget_In; eauto]|].
  destruct (chosen_positive (map snd (events p)) u2 n) with (4 := HC) as (b & Eb & Hb); [|lia|rewrite zlen_map; eapply zget_range; eauto|].
  { intros c Hc. apply in_map_iff in Hc. destruct Hc as ([y s] & <- & Hy). eapply Hnn; eauto. }
  rewrite zget_map, En in Eb. cbn in Eb. inversion Eb; subst. exact Hb.
Qed.
(** and there always is a selected event *)
Theorem C14_selection_succeeds ranks hash L cf it md u1 u2 : wfInput ranks L cf it -> reachable ranks hash L cf it md ->
  ratesOK md -> 0 < dv_num u1 <= dv_den u1 -> 0 < dv_num u2 <= dv_den u2 ->
  exists i it' q x, pickProcess (md_in md) u1 = Some (i, it') /\ zget (in_procs it') i = Some q /\ pickSite q u2 = Some x.
Proof.
  intros WI HR OK Hu1 Hu2. destruct (reachable_info _ _ _ _ _ _ WI HR) as (cf1 & it2 & RI). pose proof (ri_inv _ _ _ _ _ _ _ _ RI) as IV.
  destruct (C13_partition _ _ _ _ _ _ _ WI HR OK Hu1) as (i & Hi & HC & _).
  pose proof (proj2 (C13_process_selection _ _ _ _ _ _ _ _ WI HR OK Hu1 (proj1 Hi)) HC) as Ei.
  destruct (zget_lt _ _ Hi) as [p Ep]. pose proof (bi_proc _ _ (iv_binv _ IV) i p Ep) as PI.
  destruct (rates_facts md IV OK) as (E & HN & HS).
  destruct (chosen_positive (map processRate (in_procs (md_in md))) u1 i) with (4 := HC) as (a & Ea & Ha); [|lia|rewrite zlen_map; lia|].
  { intros b Hb. apply in_map_iff in Hb. destruct Hb as (y & <- & Hy). auto. }
  rewrite zget_map, Ep in Ea. cbn [option_map] in Ea. inversion Ea; subst a; clear Ea.
  assert (Hnn : forall y r, In (y, r) (events p) -> 0 <= r) by (intros y r Hy; apply (proj1 OK i y r); exists p; auto).
  pose (q := set_inc p (incTable 0 (prates p))).
  assert (Eq : updateRateTable p = Some q) by (unfold updateRateTable; rewrite siteRates_prates by exact PI; reflexivity).
  destruct (zset_lt (in_procs (md_in md)) i q Hi) as [ps Es].
  exists i, (set_procs (md_in md) ps), q.
  destruct (lower_bound_total (belowDev u2 (zsum (map snd (events p)))) (incTable 0 (map snd (events p)))) as [n El].
  destruct (select_chosen (map snd (events p)) u2 n) as [Hn0 HCn]; auto.
  { intros c Hc. apply in_map_iff in Hc. destruct Hc as ([y s] & <- & Hy). eapply Hnn; eauto. }
  rewrite zlen_map in Hn0. destruct (zget_lt _ _ Hn0) as [[x r] En]. exists x.
  split; [unfold pickProcess; rewrite Ei; cbn [obind]; rewrite Ep; cbn [obind]; rewrite Eq; cbn [obind]; rewrite Es; reflexivity|].
  split; [cbn [set_procs in_procs]; rewrite (zset_get _ _ _ _ _ Es), Z.eqb_refl; reflexivity|].
  apply (proj2 (C15_site_selection _ _ _ _ _ _ _ _ _ _ _ WI HR Ep Eq Hnn Ha Hu2)). eauto.
Qed.

(** *** A deviate of exactly 0 *)
(** a system whose first process has no available site: a flip A -> B on a lattice of B, then a flip B -> A *)
Definition x4procs : option (list process) :=
  omap (fun p => p) [ xplain x1pt 0 1 0 [xcell 0 0 0] [["A"%string]] [["B"%string]] [] [];
                      xplain x1pt 0 2 1 [xcell 0 0 0] [["B"%string]] [["A"%string]] [] [] ].
Definition x4in : option interactions := ps <- x4procs ;; Some (mkInteractions ps true false norc).
Definition x4cf : option config := mkConfiguration x1sites (map (fun _ => ["B"%string]) x1elements) x1pt.
(** The generator returns values in [0, 1).  For the value 0 the full property is false: a reachable state with
    available events of positive rate in which the deviate 0 selects a process without available sites, and
    the choice of a site reads past the end of an empty table. *)
Theorem C14_zero_deviate_refuted : exists ranks hash L cf it md, wfInput ranks L cf it /\ reachable ranks hash L cf it md /\
  ratesOK md /\ totalAvailableSites (md_in md) = 12 /\
  exists i it' q, pickProcess (md_in md) (mkDev 0 1) = Some (i, it') /\ zget (in_procs it') i = Some q /\ pr_sites q = [] /\
    pickSite q (mkDev 0 1) = None /\ singleStep md (mkDev 0 1) (mkDev 0 1) = None.
Proof.
  assert (E : somewhere x4cf (fun cf => somewhere x4in (fun it => somewhere (mkLatticeModel 1 xhash x1L cf it) (fun md =>
    wfInputb 1 x1L cf it && (totalAvailableSites (md_in md) =? 12) && forallb (fun p => forallb (fun e => 0 <=? snd e) (events p)) (in_procs (md_in md)) &&
    somewhere (zget (in_procs (md_in md)) 1) (fun p => somewhere (zget (events p) 0) (fun e => 0 <? snd e)) &&
    somewhere (pickProcess (md_in md) (mkDev 0 1)) (fun r => somewhere (zget (in_procs (snd r)) (fst r)) (fun q =>
      (zlen (pr_sites q) =? 0) && match pickSite q (mkDev 0 1) with None => true | _ => false end)) &&
    match singleStep md (mkDev 0 1) (mkDev 0 1) with None => true | _ => false end))) = true) by (vm_compute; reflexivity).
  apply somewhere_Some in E. destruct E as (cf & _ & E). apply somewhere_Some in E. destruct E as (it & _ & E).
  apply somewhere_Some in E. destruct E as (md & Em & E). rewrite !andb_true_iff in E. destruct E as (((((H1 & H2) & H3) & H4) & H5) & H6).
  exists 1, xhash, x1L, cf, it, md. split; [apply wfInputb_sound; exact H1|]. split; [exists md, []; auto|].
  split; [|split; [apply Z.eqb_eq; exact H2|]].
  - split.
    + intros i x r (p & Ep & Hin). rewrite forallb_forall in H3. specialize (H3 p (zget_In _ _ _ Ep)). rewrite forallb_forall in H3.
      specialize (H3 _ Hin). apply Z.leb_le in H3. exact H3.
    + apply somewhere_Some in H4. destruct H4 as (p & Ep & H4). apply somewhere_Some in H4. destruct H4 as ([x r] & Ee & H4).
      exists 1, x, r. split; [exists p; split; [exact Ep|eapply zget_In; eauto]|apply Z.ltb_lt; exact H4].
  - apply somewhere_Some in H5. destruct H5 as ([i it'] & Ei & H5). apply somewhere_Some in H5. destruct H5 as (q & Eq & H5).
    apply andb_true_iff in H5. destruct H5 as [H5 H7]. exists i, it', q. split; [exact Ei|]. split; [exact Eq|].
    split; [apply Z.eqb_eq in H5; apply zlen_zero; exact H5|]. split; [destruct (pickSite q (mkDev 0 1)); [discriminate|reflexivity]|].
    destruct (singleStep md (mkDev 0 1) (mkDev 0 1)); [discriminate|reflexivity].
Qed.

(** ** the hypotheses are met by a state of system 1 (after three steps) and of system 3 (custom rates) *)
Definition ratesOKb (md : model) : bool :=
  forallb (fun p => forallb (fun e => 0 <=? snd e) (events p)) (in_procs (md_in md)) &&
  existsb (fun p => existsb (fun e => 0 <? snd e) (events p)) (in_procs (md_in md)).
Lemma ratesOKb_sound md : ratesOKb md = true -> ratesOK md.
Proof.
  unfold ratesOKb. rewrite andb_true_iff. intros [H1 H2]. split.
  - intros i x r (p & Ep & Hin). rewrite forallb_forall in H1. specialize (H1 p (zget_In _ _ _ Ep)). rewrite forallb_forall in H1.
    specialize (H1 _ Hin). apply Z.leb_le in H1. exact H1.
  - apply existsb_exists in H2. destruct H2 as (p & Hp & H2). apply existsb_exists in H2. destruct H2 as ([x r] & Hx & H2).
    apply In_zget in Hp. destruct Hp as [i Ei]. exists i, x, r. split; [exists p; auto|]. apply Z.ltb_lt. exact H2.
Qed.
Example C13_C14_C15_example : exists cf it md md', system 2 xhash x1L x1basis 3 cf it x1us (dev 1 100) (dev 1 2) md md' /\
  reachable 2 xhash x1L cf it md /\ ratesOK md /\ in_procs it <> [] /\
  map processRate (in_procs (md_in md)) = [6; 20; 6; 12] /\ totalRate (md_in md) = Some 44 /\
  pickProcessIndex (md_in md) (mkDev 6 44) = Some 0 /\ pickProcessIndex (md_in md) (mkDev 7 44) = Some 1.
Proof.
  assert (E : x1check (fun cf it md md' => ratesOKb md && (zlen (in_procs it) =? 4) && list_eqb (map processRate (in_procs (md_in md))) [6; 20; 6; 12] &&
    somewhere (totalRate (md_in md)) (fun r => r =? 44) && somewhere (pickProcessIndex (md_in md) (mkDev 6 44)) (fun r => r =? 0) &&
    somewhere (pickProcessIndex (md_in md) (mkDev 7 44)) (fun r => r =? 1)) = true) by (vm_compute; reflexivity).
  unfold x1check, x3check in E. apply sysCheck_sound in E. destruct E as (cf & it & md & md' & _ & _ & SY & E). rewrite !andb_true_iff in E. destruct E as (((((E1 & E2) & E3) & E4) & E5) & E6).
  exists cf, it, md, md'. split; [exact SY|]. split; [apply (system_reach _ _ _ _ _ _ _ _ _ _ _ _ SY)|]. split; [apply ratesOKb_sound; exact E1|].
  split; [intros E0; rewrite E0 in E2; discriminate|]. split; [apply list_eqb_eq; exact E3|].
  apply somewhere_Some in E4, E5, E6. destruct E4 as (a & -> & Ha), E5 as (b & -> & Hb), E6 as (c & -> & Hc). apply Z.eqb_eq in Ha, Hb, Hc. subst. auto.
Qed.
Example C13_C14_C15_example_custom : exists cf it md md', system 2 xhash x1L x1basis 3 cf it x1us (dev 1 100) (dev 1 2) md md' /\
  in_custom it = true /\ ratesOK md.
Proof.
  assert (E : x3check (fun cf it md md' => ratesOKb md && in_custom it) = true) by (vm_compute; reflexivity).
  unfold x1check, x3check in E. apply sysCheck_sound in E. destruct E as (cf & it & md & md' & _ & _ & SY & E). rewrite !andb_true_iff in E. destruct E as (E1 & E2).
  exists cf, it, md, md'. split; [exact SY|]. split; [exact E2|apply ratesOKb_sound; exact E1].
Qed.

Print Assumptions C09_operations.
Print Assumptions C09_add_remove.
Print Assumptions C09_reachable.
Print Assumptions C10_total_rate.
Print Assumptions C10_rate_counts_possible_events.
Print Assumptions C13_process_selection.
Print Assumptions C13_partition.
Print Assumptions C13_proportional.
Print Assumptions C15_site_selection.
Print Assumptions C15_proportional.
Print Assumptions C14_selected_is_available.
Print Assumptions C14_selection_succeeds.
Print Assumptions C14_zero_deviate_refuted.
